(** What the thread checks are for, and the programs the theorems are about. *)
Require Import List Bool Arith.
From Verif Require Import StrCheckModel.
Import ListNotations.

(** The count of a buffer is only used by the thread that first copied a string
    with that buffer, for as long as strings share it.  While only one string
    refers to it the count may be used by whoever has the string.  [cur]: who
    began to share. *)
Fixpoint orderly (cur : nat -> option tid) (log : list access) : Prop :=
  match log with
  | [] => True
  | Inc b t n :: r =>
      if n <=? 1 then orderly (fun c => if c =? b then Some t else cur c) r
      else cur b = Some t /\ orderly cur r
  | (Dec b t n | Look b t n) :: r => (1 < n -> cur b = Some t) /\ orderly cur r
  end.

(** Programs: threads make calls; [own s t o] restricts them.  The log is in the
    order of the calls. *)
Inductive creach (arena : bool) (own : cst -> tid -> cop -> Prop) : cst -> list access -> Prop :=
| creach_init : creach arena own cinit []
| creach_step s log t o s' l : creach arena own s log -> own s t o -> cstep arena s t o = Went s' l -> creach arena own s' (log ++ l).

(** No thread changes a string in place that belongs to another: only copying,
    moving and destroying are checked. *)
Definition changes_own (s : cst) (t : tid) (o : cop) : Prop :=
  match o with
  | Unshare i => forall x, str_at s i = Some x -> s_cpu x = Some t
  | _ => True
  end.
(** For ordinary strings, where unshared ones belong to nobody: no thread changes
    a string that another has copied, and no large string is copied twice or
    copied from a copy. *)
Definition copies_once (s : cst) (t : tid) (o : cop) : Prop :=
  match o with
  | Unshare i => forall x, str_at s i = Some x -> s_cpu x = Some t \/ s_cpu x = None
  | Copy i => forall x, str_at s i = Some x -> s_buf x <> None -> s_cpu x = None
  | _ => True
  end.
