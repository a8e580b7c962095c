(** Independent specification for rounding and literals. *)
Require Import ZArith List.
Import ListNotations.
Open Scope Z_scope.

(** [m] is the least multiple of [b] that is at least [n]. *)
Definition least_multiple_above (b n m : Z) : Prop :=
  n <= m /\ (exists k, m = k * b) /\ (forall m', n <= m' -> (exists k, m' = k * b) -> m <= m').

Definition power_of_two (N : Z) : Prop := exists k, 0 <= k < 64 /\ N = 2 ^ k.

(** A decimal numeral: character codes '0'..'9' only. *)
Definition decimal_text (str : list Z) : Prop := Forall (fun c => 48 <= c <= 57) str.

(** Its value: sum of digit * 10^position. *)
Fixpoint decimal_value (str : list Z) : Z :=
  match str with
  | [] => 0
  | c :: rest => (c - 48) * 10 ^ Z.of_nat (length rest) + decimal_value rest
  end.
