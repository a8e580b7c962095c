(** What inserting a piece of a string into itself takes. *)
Require Import ZArith List.
From Verif Require Import StrSpec.
Import ListNotations.
Open Scope Z_scope.

(** Making room for [k] characters at [pos] first and reading [k] characters from
    position [off] then: those from position [pos] on have moved, and what is read
    there is [k] characters further in front, except in the room just made, where
    the old characters are still to be seen. *)
Definition taken {A} (pos off k : Z) (l : list A) : list A :=
  let m := Z.max 0 (Z.min k (pos + k - off)) in piece off m l ++ piece (off + m - k) (k - m) l.
(** The characters that the eight bytes of a word make, lowest first. *)
Definition le64 {ChT : CharType} (w : Z) : list Z :=
  map (fun i => (w / (256 ^ csize) ^ Z.of_nat i) mod 256 ^ csize) (seq 0 (Z.to_nat (8 / csize))).
(** The bytes of a string object that has just left its small representation, read
    as characters: the address of its buffer, its length, and the capacity (twice
    that of the small representation) with the mark of a medium string. *)
Definition object_bytes {ChT : CharType} (addr len : Z) : list Z := le64 addr ++ le64 len ++ le64 (2 * (23 / csize) + 128 * 2 ^ 56).
