(** What is asked of programs with arenas at addresses. *)
Require Import ZArith List Bool.
From Verif Require Import Base ArenaPmrModel.
Import ListNotations.
Open Scope Z_scope.

(** Arena object [i] is not destroyed, is at [addr] and has the resource [r]. *)
Definition stands (s : pmr) (i : nat) (addr : Z) (r : option nat) : Prop :=
  exists o, nth_error (p_objs s) i = Some o /\ o_alive o = true /\ o_addr o = addr /\ o_res o = r.

(** New objects are put where no arena is. *)
Definition vacant (s : pmr) (addr : Z) : Prop := forall i r, ~ stands s i addr r.

Definition allowed (s : pmr) (o : pop) : Prop :=
  match o with
  | PNew addr _ => vacant s addr
  | PMove i addr => (exists a r, stands s i a r) /\ vacant s addr
  | PDestroy i => exists a r, stands s i a r
  end.

Inductive preach : pmr -> Prop :=
| pr_init : preach pinit
| pr_step s o s' : preach s -> allowed s o -> pstep s o = Ok s' -> preach s'.

(** Arena [i] was constructed, not moved to. *)
Definition original (s : pmr) (i : nat) : Prop :=
  exists o, nth_error (p_objs s) i = Some o /\ o_moved_from o = None.

(** Arena [i], or the one it was moved from over any number of moves, was
    constructed at [a]. *)
Inductive born (s : pmr) : nat -> Z -> Prop :=
| born_here i o : nth_error (p_objs s) i = Some o -> o_moved_from o = None -> born s i (o_addr o)
| born_moved i o j a : nth_error (p_objs s) i = Some o -> o_moved_from o = Some j -> born s j a -> born s i a.
