(** Executions of the global metrics with calls of string() and reset(). *)
Require Import ZArith List Bool.
From Verif Require Import Base ArenaSpec MetricsSpec MetricsModel MetricsStatements MetricsGlobalModel.
Import ListNotations.
Open Scope Z_scope.

Definition probes (a : gaction) : list probe := match a with GThread (AProbe _ p) => [p] | _ => [] end.

(** [greach r n s ps]: [n] threads and any number of calls in some interleaving
    reached [s], recording [ps] (newest first); reset() is called only if [r]. *)
Inductive greach (r : bool) (n : nat) : gstate -> list probe -> Prop :=
| greach_init : greach r n (ginit n) []
| greach_step s ps a s' : greach r n s ps -> (a = GReset -> r = true) -> Forall probe_ok (probes a) ->
    gstep s a = GNext s' -> greach r n s' (probes a ++ ps).

(** The next action stores zero to [c]. *)
Definition stores (s : gstate) (a : gaction) (c : ctr) : Prop :=
  exists j x q, a = GJob j /\ nth_error (jobs s) j = Some x /\ j_todo x = JStore c :: q.

(** Executions from one state to another, recording [ps], in which [c] is not stored to. *)
Inductive unstored (c : ctr) : gstate -> list probe -> gstate -> Prop :=
| unstored_nil s : unstored c s [] s
| unstored_step s ps s1 a s2 : unstored c s ps s1 -> ~ stores s1 a c -> Forall probe_ok (probes a) ->
    gstep s1 a = GNext s2 -> unstored c s (probes a ++ ps) s2.

(** [k] steps of call [j] with nothing in between. *)
Fixpoint alone (k : nat) (j : nat) (s : gstate) : goutcome :=
  match k with
  | O => GNext s
  | S k' => match gstep s (GJob j) with GNext s' => alone k' j s' | x => x end
  end.
