(** The range calls of container/stdb_vector.hpp with their iterators: which
    memory is read for a range [first, last).  VecModel.v takes a range as a list
    of values; here the list is what the code makes of the iterators.

    Memory outside the vector is bytes; an object's value is its bytes read as a
    little-endian number.  Elements are trivially copyable or not relocatable
    (KReloc is left to VecModel). *)
Require Import ZArith List Bool.
From Verif Require Import Base VecSpec VecModel.
Import ListNotations.
Open Scope Z_scope.

(** Byte at an address, [None]: nothing to be read there. *)
Definition bytes := Z -> option Z.
(** The [n] bytes from [p] on. *)
Fixpoint load (m : bytes) (p : Z) (n : nat) : res Z :=
  match n with
  | O => Ok 0
  | S k => match m p with Some x => do r <- load m (p + 1) k; Ok (x + 256 * r) | None => Undef end
  end.

(** Iterators and a range of them: pointers or random access iterators
    ([it_pointer], hpp:164-165 PointerCompatibleIterator) or others; size of the
    objects they refer to; T( *it) for such an object; address of the object
    [first + i] refers to (for [i = it_count] what [last.operator->()] gives);
    [last - first]. *)
Record iters := { it_pointer : bool; it_size : Z; it_conv : Z -> Z; it_at : Z -> Z; it_count : Z }.

Section Range.
Variable k : kind.
Variable sz : Z.
Variable dbg : bool.
Variable mal : Z -> bool.
Variable m : bytes.

(** The loop [for (; first != last; ++first)] reading *first *)
Fixpoint walk (it : iters) (i : Z) (n : nat) : res (list Z) :=
  match n with
  | O => Ok []
  | S c => do x <- load m (it_at it i) (Z.to_nat (it_size it)); do r <- walk it (i + 1) c; Ok (it_conv it x :: r)
  end.
(** memcpy of [n] elements of type T from address [p] *)
Fixpoint block_copy (p : Z) (n : nat) : res (list Z) :=
  match n with
  | O => Ok []
  | S c => do x <- load m p (Z.to_nat sz); do r <- block_copy (p + sz) c; Ok (x :: r)
  end.

(** hpp:167-181 copy_from_iterator; the choice between memcpy and loop.  If the
    first address is not below the last nothing is copied. *)
Definition copy_iters (ob : option buf) (a : acct) (i : Z) (it : iters) : res (option buf * acct) :=
  do _ <- assert dbg (match ob with Some _ => true | None => false end);
  do _ <- assert dbg (negb (it_count it =? 0));
  if is_relocatable k && it_pointer it then
    if it_at it 0 <? it_at it (it_count it) then
      do l <- block_copy (it_at it 0) (Z.to_nat (it_count it)); copy_from_iterator k dbg ob a i l
    else Ok (ob, a)
  else do l <- walk it 0 (Z.to_nat (it_count it)); copy_from_iterator k dbg ob a i l.

Inductive rop :=
| RNew (it : iters)                                    (* stdb_vector(first, last) *)
| RAssign (i : nat) (it : iters)                       (* assign(first, last) *)
| RInsert (i : nat) (safe : bool) (pos : Z) (it : iters).  (* insert(pos, first, last) *)

(** hpp:611-631 assign(first, last) *)
Definition assign_iters (v : vec) (a : acct) (it : iters) : res (vec * acct * outc) :=
  match v with
  | Broken => Undef
  | Vec b size cap =>
      let n := it_count it in
      if cap <? n then
        do (mm, a1) <- realloc_drop_old_data k sz dbg mal b size a n;
        match mm with
        | None => Ok (after_failed_allocate b, a1, Threw)
        | Some nb => do (b1, a2) <- copy_iters (Some nb) a1 0 it; Ok (Vec b1 n n, a2, Done 0)
        end
      else
        do (b1, a1) <- core_clear k dbg b size cap a;
        if 0 <? n then do (b2, a2) <- copy_iters b1 a1 0 it; Ok (Vec b2 n cap, a2, Done 0)
        else Ok (Vec b1 size cap, a1, Done 0)
  end.
(** hpp:1283-1318 insert(pos, first, last) *)
Definition insert_iters (safe : bool) (pos : Z) (v : vec) (a : acct) (it : iters) : res (vec * acct * outc) :=
  match v with
  | Broken => Undef
  | Vec b size cap =>
      let n := it_count it in
      if n =? 0 then Ok (v, a, Done pos) else
      do (b1, s1, c1, a1, threw, moved) <- grow_for k sz dbg mal safe b size cap a false n;
      if threw : bool then Ok (v, a, Threw) else
      do _ <- assert dbg (add64 s1 n <=? c1);
      do bf <- need b1;
      if b_len bf <? pos + n then Undef else
      do (b2, a2) <- open_gap k dbg bf a1 pos n s1;
      do (b3, a3) <- copy_iters (Some b2) a2 pos it;
      Ok (Vec b3 (s1 + n) c1, a3, Done pos)
  end.

Definition rstep (s : vsys) (o : rop) : res (vsys * outc) :=
  match o with
  (* hpp:559-570 *)
  | RNew it =>
      let a := vacct s in
      if 0 <? it_count it then
        do mm <- allocate sz dbg mal (it_count it);
        match mm with
        | None => vpush s None a Threw
        | Some b => do (b1, a1) <- copy_iters (Some b) a 0 it;
                    vpush s (Some (Vec b1 (it_count it) (it_count it))) a1 (Done 0)
        end
      else vpush s (Some (Vec None 0 0)) a (Done 0)
  | RAssign i it =>
      do v <- vget s i;
      do (v1, a1, r) <- assign_iters v (vacct s) it;
      Ok ({| vs := vupd i (Some v1) (vs s); vacct := a1 |}, r)
  | RInsert i safe pos it =>
      do v <- vget s i;
      do (v1, a1, r) <- insert_iters safe pos v (vacct s) it;
      Ok ({| vs := vupd i (Some v1) (vs s); vacct := a1 |}, r)
  end.
End Range.
