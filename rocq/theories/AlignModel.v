(** Model of align/align.hpp. *)
Require Import ZArith List Bool.
From Verif Require Import Base.
Open Scope Z_scope.

(** align/align.hpp:40-47 [AlignUpTo<N>(n)]:
    [(n + N - 1) & static_cast<uint64_t>(-N)].  The two [static_assert]s are the
    side condition [align_template_ok]. *)
Definition align_template_ok (N : Z) : bool :=
  (Z.land N (sub64 N 1) =? 0) && (8 <=? N).

Definition AlignUpTo (N n : Z) : Z :=
  Z.land (sub64 (add64 n N) 1) (sub64 0 N).

(** align/align.hpp:49-52 [AlignUp(n, block_size)]; [n % 0] is undefined. *)
Definition AlignUp (n block_size : Z) : res Z :=
  if block_size =? 0 then Undef else
  let reminder := n mod block_size in
  Ok (add64 (sub64 n reminder) (mul64 (b2z (negb (reminder =? 0))) block_size)).
