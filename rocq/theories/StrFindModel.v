(** Model of the searching and comparing members of stdb::memory::basic_string
    (/repo/string/string.hpp).  All of them read characters only: through
    const data() of the string, of another string, or through a pointer
    argument.  arena_string.hpp uses the same class template. *)
Require Import ZArith List Bool.
From Verif Require Import Base StrSpec StrModel.
Import ListNotations.
Open Scope Z_scope.


Section Wide.
Context {ChT : CharType}.

(** Memory as seen from a pointer: the byte at an offset, if it may be read and is initialised. *)
Definition mem := Z -> option Z.
Definition load (m : mem) (i : Z) : res Z := match m i with Some c => Ok c | None => Undef end.
(** The memory at data() of a string object. *)
Definition str_mem (h : heap) (c : core) : mem :=
  fun i => match read (ptr_add (data c) i) 1 h c with StrModel.Ret [x] _ _ => x | _ => None end.
(** The memory at a pointer argument: the bytes up to the end of the array it points into. *)
Definition list_mem (l : list Z) : mem := fun i => if i <? 0 then None else nth_error l (Z.to_nat i).
Definition npos : Z := M64 - 1.

(** std::char_traits<char>: length (strlen), compare (memcmp), find (memchr).
    compare and find may read all [n] characters; of the result of compare only the sign is modelled. *)
Fixpoint loads (m : mem) (i : Z) (n : nat) : res (list Z) :=
  match n with O => Ok [] | S k => do c <- load m i; do r <- loads m (i + 1) k; Ok (c :: r) end.
Fixpoint cmp_chars (a b : list Z) : Z :=
  match a, b with
  | x :: a', y :: b' => if x <? y then -1 else if y <? x then 1 else cmp_chars a' b'
  | _, _ => 0
  end.
Definition traits_compare (p : mem) (off : Z) (q : mem) (n : Z) : res Z :=
  do a <- loads p off (Z.to_nat n); do b <- loads q 0 (Z.to_nat n); Ok (cmp_chars a b).
Definition traits_find (s : mem) (n : Z) (c : Z) : res bool :=
  do l <- loads s 0 (Z.to_nat n); Ok (existsb (Z.eqb c) l).
Fixpoint traits_length (l : list Z) : res Z :=
  match l with [] => Undef | c :: r => if c =? 0 then Ok 0 else do n <- traits_length r; Ok (n + 1) end.

(** ** hpp:1951-2010 find.  Pointers into the string are offsets from data().
    Loops have a bound on the number of rounds; not ending within it is [Undef]. *)
Section Find.
Variables (hay needle : mem) (size nsize : Z).
Definition nsize_1 : Z := nsize - 1.
(** hpp:1980-1985 match the last element in the needle *)
Fixpoint scan (fuel : nat) (last i_end i : Z) : res (option Z) :=
  match fuel with
  | O => Undef
  | S f =>
      do c <- load hay (i + nsize_1);
      if negb (c =? last) then
        let i1 := i + 1 in
        if i1 =? i_end then Ok None else scan f last i_end i1
      else Ok (Some i)
  end.
(** hpp:1988-2006 pedestrian mode: did all characters match? *)
Fixpoint matches (fuel : nat) (i j : Z) : res bool :=
  match fuel with
  | O => Undef
  | S f =>
      if nsize <=? j then AssertFail else
      do x <- load hay (i + j);
      do y <- load needle j;
      if negb (x =? y) then Ok false
      else let j1 := j + 1 in if j1 =? nsize then Ok true else matches f i j1
  end.
(** hpp:1993-1998 the skip value *)
Fixpoint skip_value (fuel : nat) (last skip : Z) : res Z :=
  match fuel with
  | O => Undef
  | S f =>
      if skip <=? nsize_1 then
        do c <- load needle (nsize_1 - skip);
        if negb (c =? last) then skip_value f last (skip + 1) else Ok skip
      else Ok skip
  end.
Fixpoint find_loop (fuel : nat) (last i_end i skip : Z) : res Z :=
  match fuel with
  | O => Undef
  | S f =>
      if i <? i_end then
        do r <- scan (S (Z.to_nat size)) last i_end i;
        match r with
        | None => Ok npos
        | Some i1 =>
            do m <- matches (S (Z.to_nat nsize)) i1 0;
            if m then Ok i1
            else
              do skip1 <- (if skip =? 0 then skip_value (S (Z.to_nat nsize)) last 1 else Ok skip);
              find_loop f last i_end (i1 + skip1) skip1
        end
      else Ok npos
  end.
Definition find (pos : Z) : res Z :=
  if (size <? add64 nsize pos) || (add64 nsize pos <? pos) then Ok npos
  else if nsize =? 0 then Ok pos
  else
    do last <- load needle nsize_1;
    find_loop (S (Z.to_nat size)) last (size - nsize_1) pos 0.
End Find.

(** ** hpp:2166-2187 rfind *)
Section RFind.
Variables (hay s : mem) (size n : Z).
Fixpoint rfind_loop (fuel : nat) (i : Z) : res Z :=
  match fuel with
  | O => Undef
  | S f =>
      do x <- load hay i;
      do y <- load s 0;
      do found <- (if x =? y then do r <- traits_compare hay i s n; Ok (r =? 0) else Ok false);
      if found then Ok i
      else if i =? 0 then Ok npos else rfind_loop f (i - 1)
  end.
Definition rfind (pos : Z) : res Z :=
  if size <? n then Ok npos
  else
    let pos1 := Z.min pos (size - n) in
    if n =? 0 then Ok pos1 else rfind_loop (S (Z.to_nat size)) pos1.

(** ** hpp:2189-2255 find_first_of, find_last_of, find_first_not_of, find_last_not_of;
    [want]: look for a character in the set, or not in the set *)
Fixpoint forward (want : bool) (fuel : nat) (i : Z) : res Z :=
  match fuel with
  | O => Undef
  | S f =>
      if i =? size then Ok npos
      else
        do c <- load hay i;
        do r <- traits_find s n c;
        if Bool.eqb r want then Ok i else forward want f (i + 1)
  end.
Fixpoint backward (want : bool) (fuel : nat) (i : Z) : res Z :=
  match fuel with
  | O => Undef
  | S f =>
      do c <- load hay i;
      do r <- traits_find s n c;
      if Bool.eqb r want then Ok i
      else if i =? 0 then Ok npos else backward want f (i - 1)
  end.
Definition find_first_of (pos : Z) : res Z :=
  if (size <? pos) || (n =? 0) then Ok npos else forward true (S (Z.to_nat size)) pos.
Definition find_last_of (pos : Z) : res Z :=
  if negb (size =? 0) && (0 <? n) then backward true (S (Z.to_nat size)) (Z.min pos (size - 1)) else Ok npos.
Definition find_first_not_of (pos : Z) : res Z :=
  if pos <? size then forward false (S (Z.to_nat size)) pos else Ok npos.
Definition find_last_not_of (pos : Z) : res Z :=
  if negb (size =? 0) then backward false (S (Z.to_nat size)) (Z.min pos (size - 1)) else Ok npos.
End RFind.

(** ** hpp:1603-1615 contains.  A const char* argument is the memory there; so
    is the data of a string_view, whose size is not used. *)
Definition find_cstr (hay : mem) (size : Z) (s : list Z) (pos : Z) : res Z :=      (* hpp:1622 *)
  do n <- traits_length s; find hay (list_mem s) size n pos.
Definition contains_char (hay : mem) (size c : Z) : res bool :=                    (* hpp:1603, 1626 *)
  do r <- find hay (list_mem [c]) size 1 0; Ok (negb (r =? npos)).
Definition contains_cstr (hay : mem) (size : Z) (s : list Z) : res bool :=         (* hpp:1605 *)
  do r <- find_cstr hay size s 0; Ok (negb (r =? npos)).
Definition contains_view (hay : mem) (size : Z) (view_data : list Z) (view_size : Z) : res bool := (* hpp:1609 *)
  do r <- find_cstr hay size view_data 0; Ok (negb (r =? npos)).
Definition contains_str (hay : mem) (size : Z) (str : mem) (str_size : Z) : res bool := (* hpp:1613, 1616 *)
  do r <- find hay str size str_size 0; Ok (negb (r =? npos)).

(** ** hpp:1713-1751 compare *)
Definition by_size (r n1 n2 : Z) : Z := if negb (r =? 0) then r else if n2 <? n1 then 1 else if n1 <? n2 then -1 else 0.
Definition compare (a : mem) (n1 : Z) (b : mem) (n2 : Z) : res Z :=                 (* hpp:1713-1719 *)
  do r <- traits_compare a 0 b (Z.min n1 n2); Ok (by_size r n1 n2).
(** [None]: std::out_of_range *)
Definition compare_at (a : mem) (size : Z) (pos1 n1 : Z) (s : mem) (n2 : Z) : res (option Z) := (* hpp:1729-1735 *)
  if size <? pos1 then Ok None
  else
    let n1' := Z.min n1 (size - pos1) in
    do r <- traits_compare a pos1 s (Z.min n1' n2); Ok (Some (by_size r n1' n2)).
Definition shift (m : mem) (k : Z) : mem := fun i => m (k + i).
Definition compare_at2 (a : mem) (size : Z) (pos1 n1 : Z) (b : mem) (size2 pos2 n2 : Z) : res (option Z) := (* hpp:1737-1741 *)
  if size2 <? pos2 then Ok None
  else compare_at a size pos1 n1 (shift b pos2) (Z.min n2 (size2 - pos2)).
Definition compare_cstr (a : mem) (n1 : Z) (s : list Z) : res Z :=                  (* hpp:1744-1751 *)
  do n2 <- traits_length s; do r <- traits_compare a 0 (list_mem s) (Z.min n1 n2); Ok (by_size r n1 n2).

(** hpp:2381-2495 comparison operators, two strings *)
Definition op_eq (a : mem) (n1 : Z) (b : mem) (n2 : Z) : res bool :=
  if n1 =? n2 then do r <- compare a n1 b n2; Ok (r =? 0) else Ok false.
Definition op_ne (a : mem) (n1 : Z) (b : mem) (n2 : Z) : res bool := do r <- op_eq a n1 b n2; Ok (negb r).
Definition op_lt (a : mem) (n1 : Z) (b : mem) (n2 : Z) : res bool := do r <- compare a n1 b n2; Ok (r <? 0).
Definition op_gt (a : mem) (n1 : Z) (b : mem) (n2 : Z) : res bool := op_lt b n2 a n1.
Definition op_le (a : mem) (n1 : Z) (b : mem) (n2 : Z) : res bool := do r <- op_lt b n2 a n1; Ok (negb r).
Definition op_ge (a : mem) (n1 : Z) (b : mem) (n2 : Z) : res bool := do r <- op_lt a n1 b n2; Ok (negb r).
Definition op_ship (a : mem) (n1 : Z) (b : mem) (n2 : Z) : res comparison :=
  do r <- compare a n1 b n2; Ok (if r <? 0 then Lt else if 0 <? r then Gt else Eq).
(** string op const char*: the left operand first *)
Definition cop_eq (a : mem) (n1 : Z) (s : list Z) : res bool := do r <- compare_cstr a n1 s; Ok (r =? 0).
Definition cop_lt (a : mem) (n1 : Z) (s : list Z) : res bool := do r <- compare_cstr a n1 s; Ok (r <? 0).
Definition lop_lt (s : list Z) (a : mem) (n1 : Z) : res bool := do r <- compare_cstr a n1 s; Ok (0 <? r).
Definition cop_ne (a : mem) (n1 : Z) (s : list Z) : res bool := do r <- cop_eq a n1 s; Ok (negb r).
Definition cop_gt (a : mem) (n1 : Z) (s : list Z) : res bool := lop_lt s a n1.
Definition cop_le (a : mem) (n1 : Z) (s : list Z) : res bool := do r <- lop_lt s a n1; Ok (negb r).
Definition cop_ge (a : mem) (n1 : Z) (s : list Z) : res bool := do r <- cop_lt a n1 s; Ok (negb r).

(** hpp:2707-2713 std::hash: XXH3_64bits_withSeed of the characters ([xxh]) with the size as seed *)
Definition hash (xxh : list Z -> Z -> Z) (a : mem) (n : Z) : res Z :=
  do l <- loads a 0 (Z.to_nat n); Ok (xxh l n).
End Wide.
