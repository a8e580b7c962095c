(** What is particular to strings of characters wider than a byte
    (basic_string<char16_t>, <char32_t>, <wchar_t>); the rest of StrModel is
    common to all ([CharType]).  Of /repo/string/string.hpp. *)
Require Import ZArith List.
From Verif Require Import Base StrSpec StrModel StrFindModel.
Import ListNotations.
Open Scope Z_scope.

(** hpp:167-190 podFill for characters wider than a byte, in memory [m]
    (index to character) from [b] to [e].  The number of characters handled by
    the first loop is [size_t(end - begin) & ~7U]: ~7U has 32 bits, so the upper
    half of the number is dropped as well.  [None]: a loop has not reached its
    end after [fuel] rounds. *)
Definition put_char (m : Z -> option Z) (b c : Z) : Z -> option Z := fun i => if i =? b then Some c else m i.
Fixpoint put8 (k : nat) (m : Z -> option Z) (b c : Z) : Z -> option Z :=
  match k with O => m | S k' => put8 k' (put_char m b c) (b + 1) c end.
Fixpoint loop8 (fuel : nat) (m : Z -> option Z) (b ee c : Z) : option ((Z -> option Z) * Z) :=
  if b =? ee then Some (m, b) else match fuel with O => None | S f => loop8 f (put8 8 m b c) (b + 8) ee c end.
Fixpoint loop1 (fuel : nat) (m : Z -> option Z) (b e c : Z) : option (Z -> option Z) :=
  if b =? e then Some m else match fuel with O => None | S f => loop1 f (put_char m b c) (b + 1) e c end.
Definition not7 : Z := Z.lxor (2 ^ 32 - 1) 7.
Definition pod_fill (fuel : nat) (m : Z -> option Z) (b e c : Z) : option (Z -> option Z) :=
  let ee := b + Z.land ((e - b) mod M64) not7 in
  match loop8 fuel m b ee c with Some (m', b') => loop1 fuel m' b' e c | None => None end.

(** hpp:2716-2747 std::hash of wide strings: XXH3_64bits_withSeed ([xxh]) of
    size() bytes from data(), seeded with the number of bytes.  All characters
    are read here, though the bytes of the later ones are not used. *)
Definition bytes_of {ChT : CharType} (c : Z) : list Z := map (fun i => c / 256 ^ Z.of_nat i mod 256) (seq 0 (Z.to_nat csize)).
Definition hash_wide {ChT : CharType} (xxh : list Z -> Z -> Z) (a : mem) (n : Z) : res Z :=
  do l <- loads a 0 (Z.to_nat n); Ok (xxh (firstn (Z.to_nat n) (flat_map bytes_of l)) (n * csize)).
