(** Model of the rest of the interface of stdb::memory::basic_string
    (/repo/string/string.hpp): the overloads that reduce their arguments to a
    pointer and a length, the members taking and returning iterators, reading
    characters, and the functions that hand the characters to the standard
    library.  arena_string.hpp uses the same class template. *)
Require Import ZArith List Bool.
From Verif Require Import Base StrSpec StrModel StrStatements StrFindModel.
Import ListNotations.
Open Scope Z_scope.


Section Wide.
Context {ChT : CharType}.

(** hpp:1074-1078 procrustes *)
Definition procrustes (n nmax : Z) : Z := if nmax <? n then nmax else n.

Section Overloads.
Variables (dbg arena : bool) (mal : nat -> Z -> bool) (ar : Z).
Notation sstep := (StrModel.sstep dbg arena mal ar).
(** ** Objects of a system *)

(** Arguments (str, pos, n): str is object [j]; str.data() + pos is a pointer into it. *)
(** hpp:1835-1842 append(str, pos, n) *)
Definition append_sub (s : sys) (i j : nat) (pos n : Z) : sout :=
  obj s j (fun c =>
    if pos <=? size c then sstep s (SOn i (UAppend (Piece j pos (procrustes n (size c - pos)))))
    else SThr OutOfRange s).
(** hpp:1884-1891 assign(str, pos, n) *)
Definition assign_sub (s : sys) (i j : nat) (pos n : Z) : sout :=
  obj s j (fun c =>
    if pos <=? size c then sstep s (SOn i (UAssign (Piece j pos (procrustes n (size c - pos)))))
    else SThr OutOfRange s).
(** hpp:1380-1384 insert(pos1, str, pos2, n) *)
Definition insert_sub (s : sys) (i : nat) (pos1 : Z) (j : nat) (pos2 n : Z) : sout :=
  obj s j (fun c =>
    if pos2 <=? size c then sstep s (SOn i (UInsert pos1 (Piece j pos2 (procrustes n (size c - pos2)))))
    else SThr OutOfRange s).
(** hpp:1474-1477 replace(pos1, n1, str, pos2, n2) *)
Definition replace_sub (s : sys) (i : nat) (pos1 n1 : Z) (j : nat) (pos2 n2 : Z) : sout :=
  obj s j (fun c =>
    if pos2 <=? size c then sstep s (SOn i (UReplace pos1 n1 (Piece j pos2 (Z.min n2 (size c - pos2)))))
    else SThr OutOfRange s).

(** A whole string. *)
(** hpp:1825-1833 append(str), hpp:1312 operator+=(str); [check_size]: the Assert of debug builds *)
Definition check_size (s : sys) (i : nat) (want : Z) (r : sout) : sout :=
  match r with
  | SRet s' => obj s' i (fun c => if dbg && negb (size c =? want) then SAFail else r)
  | _ => r
  end.
Definition append_whole (s : sys) (i j : nat) : sout :=
  obj s i (fun c => obj s j (fun d =>
    check_size s i (add64 (size c) (size d)) (sstep s (SOn i (UAppend (Piece j 0 (size d))))))).
(** hpp:1352-1357 assign(str) *)
Definition assign_whole (s : sys) (i j : nat) : sout :=
  if (i =? j)%nat then SRet s else obj s j (fun d => sstep s (SOn i (UAssign (Piece j 0 (size d))))).
(** hpp:1376-1378 insert(pos1, str) *)
Definition insert_whole (s : sys) (i : nat) (pos : Z) (j : nat) : sout :=
  obj s j (fun d => sstep s (SOn i (UInsert pos (Piece j 0 (size d))))).
(** hpp:1468-1470 replace(pos1, n1, str) *)
Definition replace_whole (s : sys) (i : nat) (pos n1 : Z) (j : nat) : sout :=
  obj s j (fun d => sstep s (SOn i (UReplace pos n1 (Piece j 0 (size d))))).

(** A const char* argument: the memory from there on, outside of the strings.
    traitsLength is strlen; without a terminator reading goes beyond the end of the memory. *)
Definition with_cstr (s : sys) (memory : list Z) (f : arg -> sout) : sout :=
  match traits_length memory with Ok n => f (Chars (stake n memory)) | _ => SUB (s_heap s) end.
(** hpp:1334 append(s), hpp:1316 operator+=(s) *)
Definition append_cstr (s : sys) (i : nat) (memory : list Z) : sout := with_cstr s memory (fun a => sstep s (SOn i (UAppend a))).
(** hpp:1365 assign(s), hpp:1160 operator=(s) *)
Definition assign_cstr (s : sys) (i : nat) (memory : list Z) : sout := with_cstr s memory (fun a => sstep s (SOn i (UAssign a))).
(** hpp:1392 insert(pos, s) *)
Definition insert_cstr (s : sys) (i : nat) (pos : Z) (memory : list Z) : sout := with_cstr s memory (fun a => sstep s (SOn i (UInsert pos a))).
(** hpp:1480-1482 replace(pos, n1, s) *)
Definition replace_cstr (s : sys) (i : nat) (pos n1 : Z) (memory : list Z) : sout := with_cstr s memory (fun a => sstep s (SOn i (UReplace pos n1 a))).
(** hpp:1114 basic_string(s) *)
Definition new_cstr (s : sys) (memory : list Z) : sout :=
  match traits_length memory with Ok n => sstep s (SNew (stake n memory)) | _ => SUB (s_heap s) end.

(** ** Members that return iterators.  An iterator is a pointer; an argument is
    its distance to begin().  [insertImplDiscr] and [insertImpl] return b + pos,
    where b is what begin() returned after the string was expanded. *)
(** hpp:2012-2028 insertImplDiscr(i, n, c), for hpp:1430-1432 insert(p, n, c) *)
Definition insert_n_iter (pos n c : Z) : M ptr := guarded dbg
  (let* old_size := size_m in
   let* _ := assertM dbg ((0 <=? pos) && (pos <=? old_size)) in
   let* _ := expand_noinit dbg arena mal n true in
   let* b := begin_ dbg arena mal in
   let* _ := pod_move (ptr_add b pos) (ptr_add b (pos + n)) (old_size - pos) in
   let* _ := fill (ptr_add b pos) n c in
   ret (ptr_add b pos)).
(** hpp:2040-2057 insertImpl(i, s1, s2), for hpp:1434-1437 insert(p, first, last), char pointers, and
    hpp:1439-1441 insert(p, init_list) *)
Definition insert_iter (pos : Z) (s : ptr) (n : Z) : M ptr := guarded dbg
  (let* old_size := size_m in
   let* _ := assertM dbg ((0 <=? pos) && (pos <=? old_size)) in
   let* _ := expand_noinit dbg arena mal n true in
   let* b := begin_ dbg arena mal in
   let* _ := pod_move (ptr_add b pos) (ptr_add b (pos + n)) (old_size - pos) in
   let* _ := pod_move s (ptr_add b pos) n in
   ret (ptr_add b pos)).
(** hpp:1400-1404 insert(p, c) *)
Definition insert_char (pos c : Z) : M ptr :=
  let* _ := insert_n_iter pos 1 c in
  let* b := begin_ dbg arena mal in
  ret (ptr_add b pos).
(** hpp:1453-1458 erase(position) *)
Definition erase_pos (pos : Z) : M ptr :=
  let* _ := begin_ dbg arena mal in
  let* sz := size_m in
  let* _ := enforce (pos <=? sz) in
  let* _ := erase dbg arena mal pos 1 in
  let* b := begin_ dbg arena mal in
  ret (ptr_add b pos).
(** hpp:1460-1464 erase(first, last) *)
Definition erase_iters (first last : Z) : M ptr :=
  let* _ := begin_ dbg arena mal in
  let* _ := erase dbg arena mal first (last - first) in
  let* b := begin_ dbg arena mal in
  ret (ptr_add b first).
(** hpp:1222 begin(), hpp:1228 end(), both non-const *)
Definition begin_iter : M ptr := begin_ dbg arena mal.
Definition end_iter : M ptr :=
  let* b := begin_ dbg arena mal in
  let* sz := size_m in
  ret (ptr_add b sz).
(** p - begin(), which the calls above compute first.  Pointers into different arrays have no difference. *)
Definition iter_index (p : ptr) : M Z :=
  let* b := begin_ dbg arena mal in
  match p, b with
  | PSelf x, PSelf y => ret (x - y)
  | PHeap x i, PHeap y j => if x =? y then ret (i - j) else undef
  | _, _ => undef
  end.
(** The calls above on a pointer: [f] gets the distance.  In erase(first, last) also last - first
    is a difference, of two pointers of the caller. *)
Definition at_iter (p : ptr) (f : Z -> M ptr) : M ptr := let* k := iter_index p in f k.
(** A call on object [i] returning a pointer. *)
Definition on_obj_ptr (s : sys) (i : nat) (m : M ptr) : sout * option ptr :=
  match sget (s_objs s) i with
  | None => (SUB (s_heap s), None)
  | Some c =>
      match m (s_heap s) c with
      | Ret p h c1 => (SRet {| s_heap := h; s_objs := sset i (Some c1) (s_objs s) |}, Some p)
      | Thr e h c1 => (SThr e {| s_heap := h; s_objs := sset i (Some c1) (s_objs s) |}, None)
      | Term h1 => (STerm h1, None) | AFail => (SAFail, None) | UB h1 => (SUB h1, None)
      end
  end.
End Overloads.

(** ** Reading.  Memory is not changed. *)

(** hpp:1545-1553 copy(s, n, pos): the number of characters copied and the memory at [s] afterwards *)
Definition copy_to (dbg : bool) (dst : list (option Z)) (n pos : Z) : M (Z * list (option Z)) :=
  let* sz := size_m in
  let* _ := enforce (pos <=? sz) in
  let n1 := procrustes n (sz - pos) in
  if n1 =? 0 then ret (n1, dst)
  else
    let* o := this in
    let* x := read (ptr_add (data o) pos) n1 in
    if n1 <=? slen dst then ret (n1, x ++ sdrop n1 dst) else undef.

(** hpp:1297 operator[](pos) const, hpp:1301-1304 at(n) const ([None]: std::out_of_range),
    hpp:1248 front() const, hpp:1249-1253 back() const.  end() - 1 before data() is undefined. *)
Definition sub_const (m : mem) (pos : Z) : res Z := load m pos.
Definition at_const (m : mem) (size n : Z) : res (option Z) := if n <? size then do c <- sub_const m n; Ok (Some c) else Ok None.
Definition front_const (m : mem) : res Z := load m 0.
Definition back_const (dbg : bool) (m : mem) (size : Z) : res Z := if dbg && (size =? 0) then AssertFail else load m (size - 1).
(** hpp:1224-1244 const begin(), end() and rbegin(), rend(): what a loop from the first to the second reads *)
Fixpoint walk (m : mem) (fuel : nat) (i e : Z) : res (list Z) :=
  match fuel with
  | O => Undef
  | S f => if i =? e then Ok [] else do c <- load m i; do r <- walk m f (i + 1) e; Ok (c :: r)
  end.
Fixpoint walk_back (m : mem) (fuel : nat) (i e : Z) : res (list Z) :=
  match fuel with
  | O => Undef
  | S f => if i =? e then Ok [] else do c <- load m (i - 1); do r <- walk_back m f (i - 1) e; Ok (c :: r)
  end.
Definition forward_loop (m : mem) (size : Z) : res (list Z) := walk m (S (Z.to_nat size)) 0 size.
Definition backward_loop (m : mem) (size : Z) : res (list Z) := walk_back m (S (Z.to_nat size)) size 0.

(** ** hpp:1571-1601 starts_with, ends_with: those of std::string_view.  libstdc++:
    starts_with(x) is substr(0, x.size()) == x, which compares the sizes first;
    ends_with(x) compares the last x.size() characters when there are that many. *)
Definition starts_with (a : mem) (size : Z) (x : mem) (n : Z) : res bool :=
  let k := Z.min n size in
  if k =? n then do r <- traits_compare a 0 x n; Ok (r =? 0) else Ok false.
Definition ends_with (a : mem) (size : Z) (x : mem) (n : Z) : res bool :=
  if n <=? size then do r <- traits_compare a (size - n) x n; Ok (r =? 0) else Ok false.
Definition starts_with_char (a : mem) (size c : Z) : res bool := if size =? 0 then Ok false else do x <- load a 0; Ok (x =? c).
Definition ends_with_char (a : mem) (size c : Z) : res bool := if size =? 0 then Ok false else do x <- load a (size - 1); Ok (x =? c).
Definition starts_with_cstr (a : mem) (size : Z) (s : list Z) : res bool := do n <- traits_length s; starts_with a size (list_mem s) n.
Definition ends_with_cstr (a : mem) (size : Z) (s : list Z) : res bool := do n <- traits_length s; ends_with a size (list_mem s) n.

(** ** hpp:2576-2664 operators with std::string.  The string is ([a], [n1]), the
    std::string has the characters [m].  std::string::compare is lexicographic, like [compare].
    compare(0, size(), ...) does not throw: its position is 0. *)
Definition std_cmp (a : mem) (n1 : Z) (m : list Z) : res Z :=
  do r <- compare_at a n1 0 n1 (list_mem m) (slen m);
  match r with Some x => Ok x | None => Undef end.
Definition of_cmp (r : Z) : comparison := if r <? 0 then Lt else if 0 <? r then Gt else Eq.
Definition str_std_ship (a : mem) (n1 : Z) (m : list Z) : res comparison := do r <- std_cmp a n1 m; Ok (of_cmp r).  (* hpp:2578-2590 *)
Definition std_str_ship (m : list Z) (a : mem) (n1 : Z) : res comparison :=                                         (* hpp:2593-2604 *)
  do r <- compare (list_mem m) (slen m) a n1; Ok (of_cmp r).
Definition str_std_eq (a : mem) (n1 : Z) (m : list Z) : res bool := do r <- std_cmp a n1 m; Ok (r =? 0).           (* hpp:2607 *)
Definition std_str_eq (m : list Z) (a : mem) (n1 : Z) : res bool := str_std_eq a n1 m.                              (* hpp:2612 *)
Definition str_std_ne (a : mem) (n1 : Z) (m : list Z) : res bool := do r <- str_std_eq a n1 m; Ok (negb r).        (* hpp:2617 *)
Definition std_str_ne (m : list Z) (a : mem) (n1 : Z) : res bool := do r <- std_str_eq m a n1; Ok (negb r).        (* hpp:2622 *)
Definition str_std_lt (a : mem) (n1 : Z) (m : list Z) : res bool := do r <- std_cmp a n1 m; Ok (r <? 0).           (* hpp:2627 *)
Definition str_std_gt (a : mem) (n1 : Z) (m : list Z) : res bool := do r <- std_cmp a n1 m; Ok (0 <? r).           (* hpp:2632 *)
Definition std_str_lt (m : list Z) (a : mem) (n1 : Z) : res bool := str_std_gt a n1 m.                              (* hpp:2637 *)
Definition std_str_gt (m : list Z) (a : mem) (n1 : Z) : res bool := str_std_lt a n1 m.                              (* hpp:2642 *)
Definition str_std_le (a : mem) (n1 : Z) (m : list Z) : res bool := do r <- str_std_gt a n1 m; Ok (negb r).        (* hpp:2647 *)
Definition str_std_ge (a : mem) (n1 : Z) (m : list Z) : res bool := do r <- str_std_lt a n1 m; Ok (negb r).        (* hpp:2652 *)
Definition std_str_le (m : list Z) (a : mem) (n1 : Z) : res bool := do r <- std_str_gt m a n1; Ok (negb r).        (* hpp:2657 *)
Definition std_str_ge (m : list Z) (a : mem) (n1 : Z) : res bool := do r <- std_str_lt m a n1; Ok (negb r).        (* hpp:2662 *)

(** ** hpp:2541-2571 operator<<, the branch for libstdc++: std::__ostream_insert.
    The buffer of the stream takes [o_room] more characters; the exception mask is empty. *)
Record ostream := { o_text : list Z; o_room : Z; o_width : Z; o_left : bool; o_fill : Z; o_bad : bool; o_fail : bool }.
Definition int32 (n : Z) : Z := let m := n mod 2 ^ 32 in if m <? 2 ^ 31 then m else m - 2 ^ 32.
Definition o_good (os : ostream) : bool := negb (o_bad os) && negb (o_fail os).
Definition o_with (os : ostream) (text : list Z) (room width : Z) (bad fail : bool) : ostream :=
  {| o_text := text; o_room := room; o_width := width; o_left := o_left os; o_fill := o_fill os; o_bad := bad; o_fail := fail |}.
(** sputn: as many characters as fit; __ostream_write: badbit when fewer than [n].  A negative [n] writes nothing. *)
Definition ostream_write (os : ostream) (x : mem) (n : Z) : res ostream :=
  let k := Z.max 0 (Z.min n (o_room os)) in
  do l <- loads x 0 (Z.to_nat k);
  Ok (o_with os (o_text os ++ l) (o_room os - k) (o_width os) (o_bad os || negb (k =? n)) (o_fail os)).
(** __ostream_fill: one character at a time, badbit and stop when one does not fit *)
Definition ostream_fill (os : ostream) (n : Z) : ostream :=
  let k := Z.max 0 (Z.min n (o_room os)) in
  o_with os (o_text os ++ srep k (o_fill os)) (o_room os - k) (o_width os) (o_bad os || (k <? n)) (o_fail os).
Definition ostream_insert (os : ostream) (x : mem) (n : Z) : res ostream :=
  if o_good os then
    let w := o_width os in
    do os1 <-
      (if n <? w then
         let os1 := if o_left os then os else ostream_fill os (w - n) in
         do os2 <- (if o_good os1 then ostream_write os1 x n else Ok os1);
         Ok (if o_left os && o_good os2 then ostream_fill os2 (w - n) else os2)
       else ostream_write os x n);
    Ok (o_with os1 (o_text os1) (o_room os1) 0 (o_bad os1) (o_fail os1))
  else Ok (o_with os (o_text os) (o_room os) (o_width os) (o_bad os) true).
Definition insertion (os : ostream) (a : mem) (size : Z) : res ostream := ostream_insert os a (int32 size).

(** ** hpp:1219 operator string_view, hpp:1156-1158 toStdString(), hpp:2671-2672 toStdString(str): data() and size() *)
Definition view_chars (a : mem) (size : Z) : res (list Z) := loads a 0 (Z.to_nat size).
(** hpp:2773-2775 std::to_string, on an object: data() alone *)
Fixpoint c_length (a : mem) (fuel : nat) (i : Z) : res Z :=
  match fuel with O => Undef | S f => do c <- load a i; if c =? 0 then Ok i else c_length a f (i + 1) end.
Definition std_to_string (a : mem) (size : Z) : res (list Z) := do n <- c_length a (S (Z.to_nat size)) 0; loads a 0 (Z.to_nat n).

(** ** Writing through a pointer or iterator kept from earlier, into object [i]: [p] + [k] *)
Definition write_through (s : sys) (i : nat) (p : ptr) (k v : Z) : sout := on_obj s i (write (ptr_add p k) [Some v]).
End Wide.
