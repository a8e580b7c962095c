(** What a request takes from the newest block of its arena. *)
Require Import ZArith List Bool.
From Verif Require Import Base ArenaSpec ArenaModel ArenaStatements.
Import ListNotations.
Open Scope Z_scope.

(** [need] is [n] rounded up to a multiple of 8. *)
Definition rounded (n need : Z) : Prop := n <= need < n + 8 /\ need mod 8 = 0.

(** The bytes a request aligned to at most 8 takes: its size rounded up, and 16
    for the cleanup record if there is one.  (Create whose constructor uses the
    arena is left out.) *)
Definition takes (o : op) (need : Z) : Prop :=
  match o with
  | OAllocate b al => al = 8 /\ rounded b need
  | OAllocateCleanup b _ _ => rounded b (need - 16)
  | OCreate sz _ None [] => rounded sz need
  | OCreate sz _ (Some _) [] => rounded sz (need - 16)
  | OCreate _ _ _ _ => False
  | OCreateArray sz num _ => rounded (sz * num) need
  | OOwn _ _ => need = 16
  | OResource b al => al <= 8 /\ rounded b need
  end.

(** Between the two histories block_alloc was called for arena [i]; was not
    called at all. *)
Definition asks (i : nat) (h h' : history) : Prop :=
  exists evs size res, h' = evs ++ h /\ In (EBlockAlloc i size res) evs.
Definition asks_nothing (h h' : history) : Prop :=
  exists evs, h' = evs ++ h /\ forall j size res, ~ In (EBlockAlloc j size res) evs.
