(** How much memory an arena may hold on to, compared with what was asked of it. *)
Require Import ZArith List Bool.
From Verif Require Import Base ArenaSpec ArenaModel ArenaStatements.
Import ListNotations.
Open Scope Z_scope.

(** No call of block_alloc ever returned nullptr. *)
Definition no_failure (h : history) : Prop := forall i n, ~ In (EBlockAlloc i n None) h.

(** What the requests of arena [i] since its last Reset may cost: a range of
    [n] bytes costs [n], at most 7 bytes of rounding and at most 32 bytes of
    block header or alignment; a cleanup costs 16 bytes for its record and at
    most 32 for a block header. *)
Definition range_cost (i : nat) (x : nat * Z * Z) : Z :=
  if (fst (fst x) =? i)%nat then snd x + 39 else 0.
Definition charge (h : history) (i : nat) : Z :=
  fold_right (fun x s => range_cost i x + s) 0 (live_ranges h) + 48 * Z.of_nat (length (pending h i)).
