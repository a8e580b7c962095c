(** The executions C++ allows for relaxed accesses, and what was reported. *)
Require Import ZArith List Bool.
From Verif Require Import Base ArenaSpec MetricsSpec MetricsModel MetricsGlobalModel MetricsRelaxModel.
Import ListNotations.
Open Scope Z_scope.

(** [k] modifications of [c] come before the modification [w]. *)
Definition mo_index (x : exec) (c : ctr) (w : eid) (k : nat) : Prop := nth_error (mo x c) k = Some w.

(** [intro.races]: every counter has one modification order; happens-before is
    a strict order that contains the order of each thread; and coherence. *)
Record consistent (x : exec) : Prop := {
  co_nodup : forall c, NoDup (mo x c);
  co_all : forall c e, In e (mo x c) <-> exists d, act_at x e = Some (Add c d);
  co_pos : forall c e, act_at x e = Some (Load c) -> (pos x e <= length (mo x c))%nat;
  hb_po : forall t i j, (i < j)%nat -> act_at x (t, i) <> None -> act_at x (t, j) <> None -> hb x (t, i) (t, j);
  hb_trans : forall a b c, hb x a b -> hb x b c -> hb x a c;
  hb_irrefl : forall a, ~ hb x a a;
  (* a modification before another *)
  co_ww : forall c v w i j, hb x v w -> mo_index x c v i -> mo_index x c w j -> (i < j)%nat;
  (* a load before another *)
  co_rr : forall c r s, hb x r s -> act_at x r = Some (Load c) -> act_at x s = Some (Load c) -> (pos x r <= pos x s)%nat;
  (* a load before a modification *)
  co_rw : forall c r w i, hb x r w -> act_at x r = Some (Load c) -> mo_index x c w i -> (pos x r <= i)%nat;
  (* a modification before a load *)
  co_wr : forall c w r i, hb x w r -> mo_index x c w i -> act_at x r = Some (Load c) -> (i < pos x r)%nat }.

(** What a thread recorded, and what of it was reported: [since] is what has been
    recorded since the last report. *)
Definition recorded (cs : list call) : list probe := flat_map (fun c => match c with Record_ p => [p] | _ => [] end) cs.
Fixpoint reported (since : list probe) (cs : list call) : list probe :=
  match cs with
  | [] => []
  | Record_ p :: r => reported (p :: since) r
  | Report :: r => since ++ reported [] r
  | Print :: r => reported since r
  end.
Definition all_reported (x : exec) : list probe := flat_map (reported []) (progs x).
Definition all_recorded (x : exec) : list probe := flat_map recorded (progs x).

(** Counters outside the map. *)
Definition fixed (c : ctr) : Prop :=
  match c with CBucket k | CLife k => (k < 8)%nat | CLoc _ => False | _ => True end.

(** The access [e] of programs [ps], or of the beginnings [ps] of programs. *)
Definition act_in (ps : list (list call)) (e : eid) : option act :=
  match nth_error ps (fst e) with Some cs => nth_error (acts local_reset cs) (snd e) | None => None end.
Definition prefix (a b : list call) : Prop := exists r, b = a ++ r.
(** [e] is the first load of a call of string(). *)
Definition starts_print (x : exec) (e : eid) : Prop :=
  exists cs1 cs2, nth_error (progs x) (fst e) = Some (cs1 ++ Print :: cs2) /\ snd e = length (acts local_reset cs1).
