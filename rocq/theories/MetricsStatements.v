(** Executions of the metrics by several threads, and what is still to be reported. *)
Require Import ZArith List Bool.
From Verif Require Import Base ArenaSpec ArenaModel ArenaStatements MetricsSpec MetricsModel.
Import ListNotations.
Open Scope Z_scope.

(** [mreach n s ps]: [n] threads in some interleaving reached [s]; [ps] are all
    the probes that ran, in any thread. *)
Inductive mreach (n : nat) : mstate -> list probe -> Prop :=
| mreach_init : mreach n (minit n) []
| mreach_probe s ps t p s' : mreach n s ps -> probe_ok p -> mstep s (AProbe t p) = Next s' -> mreach n s' (p :: ps)
| mreach_other s ps a s' : mreach n s ps -> (forall t p, a <> AProbe t p) -> mstep s a = Next s' -> mreach n s' ps.

(** What a thread has recorded and not yet added to the global counter: during
    a report, the counters already added no longer count. *)
Definition unreported (c : ctr) (x : thread) : Z :=
  match t_todo x with
  | None => l_ctr (t_local x) c
  | Some q => if existsb (ctr_eqb c) q then l_ctr (t_local x) c else 0
  end.
Definition sum_unreported (c : ctr) (l : list thread) : Z := fold_right (fun x s => unreported c x + s) 0 l.

(** Arena programs with the metrics hooks installed in every arena, whose
    cookies are fresh heap objects, and that do not move arenas. *)
Definition all_hooks (o : options) : Prop :=
  o_on_init o = true /\ o_on_reset o = true /\ o_on_alloc o = true /\ o_on_newblock o = true /\ o_on_destroy o = true.

Definition hooked_op (o : sop) : Prop :=
  match o with SNew opts => all_hooks opts | SMove _ => False | _ => True end.
Inductive hreach (e : env) (A : Z) : sys -> Prop :=
| hreach_init : hreach e A init
| hreach_step s o s' r : hreach e A s -> permitted A s o -> hooked_op o -> step e s o = Ok (s', r) -> hreach e A s'.

(** Cookies created and not yet deleted. *)
Fixpoint live_cookies (h : history) : list Z :=
  match h with
  | [] => []
  | HInit _ c :: r => c :: live_cookies r
  | HDestroy _ c _ _ :: r => filter (fun k => negb (k =? c)) (live_cookies r)
  | _ :: r => live_cookies r
  end.
Definition fresh_cookies (f : history -> Z) : Prop := forall h, ~ In (f h) (live_cookies h).
