(** basic_string (string.hpp): members and operators given a null pointer as a C string.

    StrModel.v, StrApiModel.v and StrFindModel.v have pointers that are not null;
    here such a pointer is [At memory], and the calls are built of theirs. *)
Require Import ZArith List Bool.
From Verif Require Import Base StrSpec StrModel StrStatements StrFindModel StrApiModel.
Import ListNotations.
Open Scope Z_scope.

Inductive cptr := Null | At (memory : list Z).

(** What a function that reads does: a result, an exception, std::terminate, a
    failed Assert, undefined behaviour. *)
Inductive rout (A : Type) := RVal (a : A) | RThrow (e : exn) | RTerm | RAssert | RUB.
Arguments RVal {A} a. Arguments RThrow {A} e. Arguments RTerm {A}. Arguments RAssert {A}. Arguments RUB {A}.
Definition of_res {A} (r : res A) : rout A := match r with Ok a => RVal a | AssertFail => RAssert | Undef => RUB end.
Definition rbind {A B} (r : rout A) (f : A -> rout B) : rout B :=
  match r with RVal a => f a | RThrow e => RThrow e | RTerm => RTerm | RAssert => RAssert | RUB => RUB end.
Notation "'let@' x ':=' r 'in' k" := (rbind r (fun x => k)) (at level 200, x name, right associativity).
(** An exception that leaves a noexcept function. *)
Definition rnoexc {A} (r : rout A) : rout A := match r with RThrow _ => RTerm | x => x end.

Section Wide.
Context {ChT : CharType}.

(** traits_type::length(s) is strlen: undefined of a null pointer *)
Definition raw_length (p : cptr) : rout Z := match p with Null => RUB | At m => of_res (traits_length m) end.
(** hpp:1758-1761 traitsLength *)
Definition traitsLength (p : cptr) : rout Z := match p with Null => RThrow LogicError | At _ => raw_length p end.
Definition cmem (p : cptr) : mem := match p with Null => fun _ => None | At m => list_mem m end.
Definition ctext (p : cptr) (n : Z) : list Z := match p with Null => [] | At m => stake n m end.

(** ** Reading *)
Inductive finder := Find | RFind | FirstOf | LastOf | FirstNotOf | LastNotOf.
(** The overload with a pointer, a position and a count *)
Definition find_n (f : finder) (hay s : mem) (size n pos : Z) : res Z :=
  match f with
  | Find => find hay s size n pos
  | RFind => rfind hay s size n pos
  | FirstOf => find_first_of hay s size n pos
  | LastOf => find_last_of hay s size n pos
  | FirstNotOf => find_first_not_of hay s size n pos
  | LastNotOf => find_last_not_of hay s size n pos
  end.
(** hpp:1623-1625 find(s, pos), hpp:1635-1637 rfind, hpp:1649-1651 find_first_of,
    hpp:1663-1665 find_last_of, hpp:1677-1679 find_first_not_of, hpp:1691-1693
    find_last_not_of: all noexcept *)
Definition find_c (f : finder) (hay : mem) (size : Z) (p : cptr) (pos : Z) : rout Z :=
  rnoexc (let@ n := traitsLength p in of_res (find_n f hay (cmem p) size n pos)).
(** hpp:1605-1607 contains(s); hpp:1609-1611 contains(view), which passes view.data() on: both noexcept *)
Definition contains_c (hay : mem) (size : Z) (p : cptr) : rout bool :=
  rnoexc (let@ r := find_c Find hay size p 0 in RVal (negb (r =? npos))).
Definition contains_v (hay : mem) (size : Z) (view_data : cptr) (view_size : Z) : rout bool :=
  rnoexc (let@ r := find_c Find hay size view_data 0 in RVal (negb (r =? npos))).
(** hpp:1575-1577, 1591-1593 starts_with(s), ends_with(s): noexcept; the string_view made of [s] takes
    traits_type::length(s) *)
Definition starts_with_c (a : mem) (size : Z) (p : cptr) : rout bool :=
  rnoexc (let@ n := raw_length p in of_res (starts_with a size (cmem p) n)).
Definition ends_with_c (a : mem) (size : Z) (p : cptr) : rout bool :=
  rnoexc (let@ n := raw_length p in of_res (ends_with a size (cmem p) n)).
(** hpp:1744-1751 compare(s) *)
Definition compare_c (a : mem) (n1 : Z) (p : cptr) : rout Z :=
  let@ n2 := traitsLength p in of_res (compare a n1 (cmem p) n2).
(** hpp:1725-1727 compare(pos1, n1, s), and hpp:1729-1735: the length is taken first *)
Definition compare_at_c (a : mem) (size pos1 n1 : Z) (p : cptr) : rout Z :=
  let@ n2 := traitsLength p in
  let@ r := of_res (compare_at a size pos1 n1 (cmem p) n2) in
  match r with Some x => RVal x | None => RThrow OutOfRange end.
(** hpp:2399-2495 operators with a pointer on the right ([false]) or on the left ([true]); all are noexcept *)
Inductive relop := Req | Rne | Rlt | Rgt | Rle | Rge.
Definition eq_c (a : mem) (n : Z) (p : cptr) : rout bool := rnoexc (let@ r := compare_c a n p in RVal (r =? 0)).       (* hpp:2406-2410 *)
Definition lt_c (a : mem) (n : Z) (p : cptr) : rout bool := rnoexc (let@ r := compare_c a n p in RVal (r <? 0)).       (* hpp:2434-2438 *)
Definition c_lt (p : cptr) (a : mem) (n : Z) : rout bool := rnoexc (let@ r := compare_c a n p in RVal (0 <? r)).       (* hpp:2440-2444 *)
Definition rnot (r : rout bool) : rout bool := rnoexc (let@ b := r in RVal (negb b)).
Definition rel_c (left : bool) (o : relop) (a : mem) (n : Z) (p : cptr) : rout bool :=
  match o, left with
  | Req, false => eq_c a n p
  | Req, true => rnoexc (eq_c a n p)             (* hpp:2400-2404: rhs == lhs *)
  | Rne, false => rnot (eq_c a n p)              (* hpp:2423-2427 *)
  | Rne, true => rnot (rnoexc (eq_c a n p))      (* hpp:2417-2421 *)
  | Rlt, false => lt_c a n p
  | Rlt, true => c_lt p a n
  | Rgt, false => rnoexc (c_lt p a n)            (* hpp:2451-2455: rhs < lhs *)
  | Rgt, true => rnoexc (lt_c a n p)             (* hpp:2457-2461 *)
  | Rle, false => rnot (c_lt p a n)              (* hpp:2468-2472: !(rhs < lhs) *)
  | Rle, true => rnot (lt_c a n p)               (* hpp:2474-2478 *)
  | Rge, false => rnot (lt_c a n p)              (* hpp:2485-2489: !(lhs < rhs) *)
  | Rge, true => rnot (c_lt p a n)               (* hpp:2491-2495 *)
  end.

(** ** Writing *)
Section Writing.
Variables (dbg arena : bool) (mal : nat -> Z -> bool) (ar : Z).
Notation sstep := (StrModel.sstep dbg arena mal ar).
(** The calls with one C string.  [CReplaceIt]: i1 = begin() + pos and i2 = i1 + n1
    were made by the caller
    and are valid, so the call differs from [CReplace] in nothing the model shows. *)
Inductive ccall :=
| CNew | CAppend (i : nat) | CAssign (i : nat) | CInsert (i : nat) (pos : Z)
| CReplace (i : nat) (pos n1 : Z) | CReplaceIt (i : nat) (pos n1 : Z)
| CPlusM (j : nat) | CPlus (j : nat) | CPlusL (j : nat) | CPlusLM (j : nat).
(** The length [r] of the argument, then the call; [makes]: it is to make an object, which
    does not exist after an exception *)
Definition with_length (s : sys) (makes : bool) (r : rout Z) (f : Z -> sout) : sout :=
  match r with
  | RVal n => f n
  | RThrow e => SThr e (if makes then {| s_heap := s_heap s; s_objs := s_objs s ++ [None] |} else s)
  | RTerm => STerm (s_heap s) | RAssert => SAFail | RUB => SUB (s_heap s)
  end.
Definition run_ccall (s : sys) (c : ccall) (p : cptr) : sout :=
  match c with
  | CNew => with_length s true (traitsLength p) (fun n => sstep s (SNew (ctext p n)))                       (* hpp:1114 *)
  | CAppend i => with_length s false (traitsLength p) (fun n => sstep s (SOn i (UAppend (Chars (ctext p n)))))   (* hpp:1334, 1316 *)
  | CAssign i => with_length s false (traitsLength p) (fun n => sstep s (SOn i (UAssign (Chars (ctext p n)))))   (* hpp:1365, 1160 *)
  | CInsert i pos => with_length s false (traitsLength p) (fun n => sstep s (SOn i (UInsert pos (Chars (ctext p n)))))   (* hpp:1392 *)
  | CReplace i pos n1 => with_length s false (traitsLength p) (fun n => sstep s (SOn i (UReplace pos n1 (Chars (ctext p n)))))   (* hpp:1480-1482 *)
  | CReplaceIt i pos n1 => with_length s false (traitsLength p) (fun n => sstep s (SOn i (UReplace pos n1 (Chars (ctext p n)))))   (* hpp:1505-1507 *)
  | CPlusM j => with_length s true (traitsLength p) (fun n => sstep s (SPlusCRM j (ctext p n)))              (* hpp:2359-2362: lhs += rhs *)
  | CPlus j => with_length s true (raw_length p) (fun n => sstep s (SPlusCR j (ctext p n)))                  (* hpp:2346-2355 *)
  | CPlusL j => with_length s true (raw_length p) (fun n => sstep s (SPlusCL (ctext p n) j))                 (* hpp:2294-2301 *)
  | CPlusLM j => with_length s true (raw_length p) (fun n => sstep s (SPlusCLM (ctext p n) j))               (* hpp:2305-2318 *)
  end.
End Writing.
End Wide.
