(** Model of string/string.hpp (string_core<Char>, basic_string<Char>) and of
    string/arena_string.hpp (arena_string_core<char>), little endian, 64 bit.
    Char is a character type of 1, 2 or 4 bytes, [CharType]; the arena strings
    of wide characters do not compile (arena_string.hpp:62), the theorems on
    arena strings are about Char8.

    A string object is the 24-byte union (three words) and, for arena strings,
    its allocator.  Heap blocks are numbered in order of allocation; a block is
    never reused, so every use of a stale pointer is visible.  data_ holds the
    number of the block it points to (the characters of a block are indexed
    from 0, the reference count of a RefCounted precedes them).  Pointer
    arguments are never null.  CROSS_THREAD_CHECKING is off. *)
Require Import ZArith List Bool.
From Verif Require Import Base StrSpec.
Import ListNotations.
Open Scope Z_scope.

(** ** Memory *)

(** What precedes the characters: nothing, or RefCounted::refCount_ (hpp:557-561). *)
Inductive bkind := Plain | Counted (r : Z).
(** [bk_res]: 0 = malloc / the default memory resource, otherwise an arena.
    [bk_at]: characters, [None] = uninitialised. *)
Record block := { bk_kind : bkind; bk_res : Z; bk_len : Z; bk_at : Z -> option Z; bk_live : bool }.
(** [h_calls]: requests made so far.  For stating theorems: [h_refused], a request
    for memory has failed; [h_rfail], a realloc has failed. *)
Record heap := { h_blocks : list block; h_calls : nat; h_refused : bool; h_rfail : bool }.

(** string.hpp:651-672 the union: ml_.data_, ml_.size_, ml_.capacity_;
    arena_string.hpp:468 allocator_ (0 for string_core and for the default allocator). *)
Record core := { c_data : Z; c_size : Z; c_cap : Z; c_al : Z }.

Inductive exn := BadAlloc | LengthError | OutOfRange | LogicError.
(** Outcome of a member function of *this: a result, an exception, std::terminate
    (exception leaving a noexcept function), a failed Assert, undefined behaviour. *)
Inductive out (A : Type) :=
| Ret (a : A) (h : heap) (o : core)
| Thr (e : exn) (h : heap) (o : core)
| Term (h : heap)
| AFail
| UB (h : heap).
Arguments Ret {A}. Arguments Thr {A}. Arguments Term {A}. Arguments AFail {A}. Arguments UB {A}.

Definition M (A : Type) := heap -> core -> out A.
Definition ret {A} (a : A) : M A := fun h o => Ret a h o.
Definition bnd {A B} (m : M A) (f : A -> M B) : M B := fun h o =>
  match m h o with
  | Ret a h1 o1 => f a h1 o1
  | Thr e h1 o1 => Thr e h1 o1
  | Term h1 => Term h1 | AFail => AFail | UB h1 => UB h1
  end.
Notation "'let*' p := m 'in' k" := (bnd m (fun p => k)) (at level 200, p pattern, right associativity).
Definition throw {A} (e : exn) : M A := fun h o => Thr e h o.
Definition undef {A} : M A := fun h _ => UB h.
Definition this : M core := fun h o => Ret o h o.
Definition put (o' : core) : M unit := fun h _ => Ret tt h o'.
Definition heap_of : M heap := fun h o => Ret h h o.
Definition put_heap (h' : heap) : M unit := fun _ o => Ret tt h' o.
(** A noexcept function. *)
Definition noexc {A} (m : M A) : M A := fun h o => match m h o with Thr _ h1 _ => Term h1 | x => x end.

Section Wide.
Context {ChT : CharType}.

(** ** The union *)

(** The values of a character, and the characters in a word. *)
Definition base : Z := 256 ^ csize.
Definition per_word : Z := 8 / csize.
Definition unit_of (w i : Z) : Z := (w / base ^ i) mod base.
Definition put_unit (w i v : Z) : Z := w + (v - unit_of w i) * base ^ i.
(** small_[i] (little endian) *)
Definition unit_at (o : core) (i : Z) : Z :=
  unit_of (if i <? per_word then c_data o else if i <? 2 * per_word then c_size o else c_cap o) (i mod per_word).
Definition set_unit (o : core) (i v : Z) : core :=
  if i <? per_word then {| c_data := put_unit (c_data o) i v; c_size := c_size o; c_cap := c_cap o; c_al := c_al o |}
  else if i <? 2 * per_word then {| c_data := c_data o; c_size := put_unit (c_size o) (i - per_word) v; c_cap := c_cap o; c_al := c_al o |}
  else {| c_data := c_data o; c_size := c_size o; c_cap := put_unit (c_cap o) (i - 2 * per_word) v; c_al := c_al o |}.

Definition num_small : Z := 24 / csize.   (* hpp:670 *)
Definition max_small : Z := 23 / csize.   (* hpp:680 *)
Definition max_medium : Z := 254 / csize. (* hpp:681 *)
Definition is_small : Z := 0.      (* hpp:639-644 *)
Definition is_medium : Z := 128.
Definition is_large : Z := 64.
(** hpp:646-649, bytes_[23]; arena_string.hpp:438-450 *)
Definition category (o : core) : Z := Z.land (c_cap o / 256 ^ 7 mod 256) 192.
(** hpp:657-659; arena_string.hpp:452-460 *)
Definition ml_capacity (o : core) : Z := Z.land (c_cap o) (Z.lxor (M64 - 1) (Z.shiftl 192 56)).
(** hpp:661-664; arena_string.hpp:462-466 *)
Definition set_capacity (o : core) (cap cat : Z) : core :=
  {| c_data := c_data o; c_size := c_size o; c_cap := Z.lor cap (Z.shiftl cat 56); c_al := c_al o |}.
Definition set_size (o : core) (n : Z) : core :=
  {| c_data := c_data o; c_size := n; c_cap := c_cap o; c_al := c_al o |}.
Definition set_data (o : core) (b : Z) : core :=
  {| c_data := b; c_size := c_size o; c_cap := c_cap o; c_al := c_al o |}.
(** ml_ = rhs.ml_ *)
Definition set_ml (o rhs : core) : core :=
  {| c_data := c_data rhs; c_size := c_size rhs; c_cap := c_cap rhs; c_al := c_al o |}.
(** hpp:497-510; arena_string.hpp:253-267; (ssize_t)x >= 0 *)
Definition size (o : core) : Z :=
  let m := sub64 max_small (unit_at o max_small) in
  if m <? 9223372036854775808 then m else c_size o.
(** The object before its constructor has run (the union is zero initialised, hpp:669). *)
Definition blank (al : Z) : core := {| c_data := 0; c_size := 0; c_cap := 0; c_al := al |}.

(** ** Pointers to characters *)

(** Into small_ of *this, into a block, or into memory no string operation
    writes to (with the characters found there). *)
Inductive ptr := PSelf (off : Z) | PHeap (b off : Z) | PExt (l : list (option Z)).
Definition ptr_add (p : ptr) (k : Z) : ptr :=
  match p with PSelf off => PSelf (off + k) | PHeap b off => PHeap b (off + k) | PExt l => PExt (sdrop k l) end.

Definition blk (h : heap) (b : Z) : option block := if b <? 0 then None else nth_error (h_blocks h) (Z.to_nat b).
Definition upd_blk (h : heap) (b : Z) (k : block) : heap :=
  {| h_blocks := sset (Z.to_nat b) k (h_blocks h); h_calls := h_calls h; h_refused := h_refused h; h_rfail := h_rfail h |}.
Definition in_blk (k : block) (off n : Z) : bool := bk_live k && (0 <=? off) && (0 <=? n) && (off + n <=? bk_len k).
Definition chars_from {A} (f : Z -> A) (off n : Z) : list A := map (fun k => f (off + Z.of_nat k)) (seq 0 (Z.to_nat n)).

Definition read (p : ptr) (n : Z) : M (list (option Z)) := fun h o =>
  match p with
  | PSelf off => if (0 <=? off) && (0 <=? n) && (off + n <=? num_small)
                 then Ret (chars_from (fun i => Some (unit_at o i)) off n) h o else UB h
  | PHeap b off => match blk h b with
                   | Some k => if in_blk k off n then Ret (chars_from (bk_at k) off n) h o else UB h
                   | None => UB h
                   end
  | PExt l => if (0 <=? n) && (n <=? slen l) then Ret (stake n l) h o else UB h
  end.

Fixpoint set_units (o : core) (off : Z) (l : list (option Z)) : core :=
  match l with
  | [] => o
  | x :: r => set_units (match x with Some v => set_unit o off v | None => o end) (off + 1) r
  end.
Definition over (at_ : Z -> option Z) (off : Z) (l : list (option Z)) : Z -> option Z :=
  fun i => if (off <=? i) && (i <? off + slen l) then nth (Z.to_nat (i - off)) l None else at_ i.
Definition set_chars (k : block) (f : Z -> option Z) : block :=
  {| bk_kind := bk_kind k; bk_res := bk_res k; bk_len := bk_len k; bk_at := f; bk_live := bk_live k |}.
Definition write (p : ptr) (l : list (option Z)) : M unit := fun h o =>
  match p with
  | PSelf off => if (0 <=? off) && (off + slen l <=? num_small) then Ret tt h (set_units o off l) else UB h
  | PHeap b off => match blk h b with
                   | Some k => if in_blk k off (slen l) then Ret tt (upd_blk h b (set_chars k (over (bk_at k) off l))) o
                               else UB h
                   | None => UB h
                   end
  | PExt _ => UB h
  end.

(** Pointers handed to a function of another object: small_ of *this is just
    memory elsewhere. *)
Definition export (o : core) (p : ptr) : ptr :=
  match p with
  | PSelf off => PExt (chars_from (fun i => Some (unit_at o i)) off (num_small - off))
  | _ => p
  end.

Section Str.
Variable dbg : bool.      (* NDEBUG not defined *)
Variable arena : bool.    (* arena_string_core instead of string_core *)
Variable mal : nat -> Z -> bool.  (* does the k-th request, for so many bytes, succeed? *)

(** hpp:150-154 FBSTRING_DISABLE_SSO; arena_string has no such switch. *)
Definition sso_off : bool := dbg && negb arena.
Definition assertM (c : bool) : M unit := if dbg && negb c then (fun _ _ => AFail) else ret tt.

(** hpp:168-190 podFill *)
Definition fill (p : ptr) (n c : Z) : M unit := fun h o =>
  let ok := match p with
            | PSelf off => (0 <=? off) && (0 <=? n) && (off + n <=? num_small)
            | PHeap b off => match blk h b with Some k => in_blk k off n | None => false end
            | PExt _ => false
            end in
  if ok then write p (srep n (Some c)) h o else UB h.
Definition overlaps (p q : ptr) (n : Z) : bool :=
  match p, q with
  | PSelf a, PSelf b => negb ((a + n <=? b) || (b + n <=? a))
  | PHeap x a, PHeap y b => (x =? y) && negb ((a + n <=? b) || (b + n <=? a))
  | _, _ => false
  end.
(** hpp:201-208 podCopy: memcpy of overlapping ranges is undefined *)
Definition pod_copy (p q : ptr) (n : Z) : M unit :=
  let* _ := assertM (negb (overlaps p q n)) in
  if overlaps p q n then undef else
  let* l := read p n in write q l.
(** hpp:215-218 podMove, and std::copy on char pointers: memmove *)
Definition pod_move (p q : ptr) (n : Z) : M unit := let* l := read p n in write q l.

(** ** Allocation *)

(** hpp:95-101 checkedMalloc; arena_string.hpp:496-508 alloc (with the default
    allocator it refuses to work in debug builds).  Behind the header there is
    room for as many characters as the bytes allow. *)
Definition header (kind : bkind) : Z := match kind with Plain => 0 | Counted _ => 8 end.
Definition alloc (kind : bkind) (bytes : Z) : M Z := fun h o =>
  if arena && dbg && (c_al o =? 0) then Thr LogicError h o else
  let h1 := {| h_blocks := h_blocks h; h_calls := S (h_calls h); h_refused := true; h_rfail := h_rfail h |} in
  if mal (h_calls h) bytes then
    Ret (Z.of_nat (length (h_blocks h)))
        {| h_blocks := h_blocks h ++ [{| bk_kind := kind; bk_res := c_al o; bk_len := (bytes - header kind) / csize; bk_at := fun _ => None; bk_live := true |}];
           h_calls := S (h_calls h); h_refused := h_refused h; h_rfail := h_rfail h |} o
  else Thr BadAlloc h1 o.

Definition kill (k : block) : block :=
  {| bk_kind := bk_kind k; bk_res := bk_res k; bk_len := bk_len k; bk_at := bk_at k; bk_live := false |}.
(** free(ptr) / deallocate(ptr, bytes) by the default resource; a RefCounted is
    released at its header, other memory at its first character.  A memory
    resource must be given the number of bytes that was asked for. *)
Definition free_block (counted : bool) (b bytes : Z) : M unit := fun h o =>
  match blk h b with
  | Some k => if bk_live k && (bk_res k =? 0) && Bool.eqb counted (match bk_kind k with Plain => false | Counted _ => true end)
                 && (negb arena || (bytes =? bk_len k * csize + if counted then 8 else 0))
              then Ret tt (upd_blk h b (kill k)) o else UB h
  | None => UB h
  end.
(** hpp:571 refs; arena_string.hpp:344-353 *)
Definition refs (b : Z) : M Z := fun h o =>
  match blk h b with
  | Some k => match bk_live k, bk_kind k with true, Counted r => Ret r h o | _, _ => UB h end
  | None => UB h
  end.
Definition set_refs (b r : Z) : M unit := fun h o =>
  match blk h b with
  | Some k => match bk_live k, bk_kind k with
              | true, Counted _ => Ret tt (upd_blk h b {| bk_kind := Counted r; bk_res := bk_res k; bk_len := bk_len k;
                                                        bk_at := bk_at k; bk_live := true |}) o
              | _, _ => UB h end
  | None => UB h
  end.
(** hpp:574 incrementRefs; arena_string.hpp:354-355 *)
Definition increment_refs (b : Z) : M unit := let* r := refs b in set_refs b (add64 r 1).
(** hpp:576-584 decrementRefs; arena_string.hpp:357-369: deallocate through the
    allocator, which does nothing for an arena (arena.hpp memory_resource). *)
Definition decrement_refs (al b bytes : Z) : M unit :=
  let* r := refs b in
  let* _ := set_refs b (sub64 r 1) in
  let* _ := assertM (0 <? r) in
  if r =? 1 then (if al =? 0 then free_block true b bytes else ret tt) else ret tt.
(** hpp:586-600 RefCounted::create(size_t* ); arena_string.hpp:371-397 with calc_large_by_size 332-342; offsetof data_ = 8.  Returns the
    block and the capacity written back through the pointer. *)
Definition create (n : Z) : M (Z * Z) :=
  let* o := this in
  if arena && dbg && (c_al o =? 0) then throw LogicError else
  if M64 <=? n + 1 then throw LengthError else
  let bytes := (n + 1) * csize + 8 in
  if M64 <=? bytes then throw LengthError else
  let* b := alloc (Counted 1) bytes in
  ret (b, (bytes - 8) / csize - 1).
(** hpp:602-609 create(const Char*, size_t* ); arena_string.hpp:399-406 *)
Definition create_from (p : ptr) (n : Z) : M (Z * Z) :=
  let* (b, c) := create n in
  let* _ := (if 0 <? n then pod_copy p (PHeap b 0) n else ret tt) in
  ret (b, c).

(** malloc + memcpy of the first [cur] characters of block [b] *)
Definition move_block (b cur bytes : Z) : M Z :=
  let* h := heap_of in
  match blk h b with
  | Some k =>
      if in_blk k 0 cur then
        let* nb := alloc (bk_kind k) bytes in
        let* l := read (PHeap b 0) cur in
        let* _ := write (PHeap nb 0) l in
        ret nb
      else undef
  | None => undef
  end.
(** hpp:122-140 smartRealloc (with checkedRealloc hpp:103-110);
    arena_string.hpp:45-68 arena_smartRealloc.  Sizes in bytes; [hdr] is the
    size of what precedes the characters.  realloc always moves the block here. *)
Definition smart_realloc (hdr b cur_size cur_cap new_cap : Z) : M Z :=
  let* o := this in
  let* _ := assertM ((cur_size <=? cur_cap) && (cur_cap <? new_cap)) in
  if arena then
    if dbg && (c_al o =? 0) then throw LogicError else
    let* nb := move_block b ((cur_size - hdr) / csize) new_cap in
    let* _ := (if c_al o =? 0 then free_block (0 <? hdr) b cur_cap else ret tt) in
    ret nb
  else
    let slack := sub64 cur_cap cur_size in
    if cur_size <? mul64 slack 2 then
      let* nb := move_block b ((cur_size - hdr) / csize) new_cap in
      let* _ := free_block (0 <? hdr) b cur_cap in
      ret nb
    else
      fun h o1 =>
      if mal (h_calls h) new_cap then
        (* realloc keeps the old contents; modelled as move_block with all of the old block *)
        (let* nb := move_block b (Z.min ((cur_cap - hdr) / csize) ((new_cap - hdr) / csize)) new_cap in
         let* _ := free_block (0 <? hdr) b cur_cap in
         ret nb) h o1
      else
        (let* _ := free_block (0 <? hdr) b cur_cap in
         let* h1 := heap_of in
         let* _ := put_heap {| h_blocks := h_blocks h1; h_calls := S (h_calls h1); h_refused := true; h_rfail := true |} in
         throw BadAlloc) h o1.
(** hpp:611-634 RefCounted::reallocate; arena_string.hpp:408-435 *)
Definition reallocate (b cur cap n : Z) : M (Z * Z) :=
  let* _ := assertM ((0 <? n) && (cur <? n)) in
  if M64 <=? n + 1 then throw LengthError else
  let bytes := (n + 1) * csize + 8 in
  if M64 <=? bytes then throw LengthError else
  let* r := refs b in
  let* _ := assertM (r =? 1) in
  let* nb := smart_realloc 8 b (8 + (cur + 1) * csize) (8 + (cap + 1) * csize) bytes in
  let* r1 := refs nb in
  let* _ := assertM (r1 =? 1) in
  ret (nb, (bytes - 8) / csize - 1).

(** ** string_core *)

(** hpp:689-695 smallSize; arena_string.hpp:510-518 *)
Definition small_size : M Z :=
  let* o := this in
  let* _ := assertM (category o =? is_small) in
  let* _ := assertM (unit_at o max_small <=? max_small) in
  ret (sub64 max_small (unit_at o max_small)).
(** hpp:697-708 setSmallSize; arena_string.hpp:520-532 *)
Definition set_small_size (n : Z) : M unit :=
  let* _ := assertM (n <=? max_small) in
  if (n <? 0) || (max_small <? n) then undef else
  let* o := this in
  let* _ := put (set_unit (set_unit o max_small (max_small - n)) n 0) in
  let* o1 := this in
  assertM ((category o1 =? is_small) && (size o1 =? n)).
(** hpp:545 reset; arena_string.hpp:302 *)
Definition reset : M unit := set_small_size 0.
(** The default constructor: hpp:329-331; arena_string.hpp:78-91. *)
Definition init_default : M unit :=
  let* o := this in
  if arena && dbg && (c_al o =? 0) then throw LogicError else reset.

(** hpp:512-531 capacity; arena_string.hpp:269-288 *)
Definition capacity : M Z :=
  let* o := this in
  if category o =? is_small then ret max_small
  else if category o =? is_large then
    let* r := refs (c_data o) in ret (if 1 <? r then c_size o else ml_capacity o)
  else if category o =? is_medium then ret (ml_capacity o)
  else undef.
(** hpp:533-535 isShared; arena_string.hpp:290-292 *)
Definition is_shared : M bool :=
  let* o := this in
  if category o =? is_large then let* r := refs (c_data o) in ret (1 <? r) else ret false.
(** hpp:442-444, 458-463, 538-543 c_str / data; arena_string.hpp:195-200, 214-219, 295-300: no unsharing, const or not. *)
Definition data (o : core) : ptr := if category o =? is_small then PSelf 0 else PHeap (c_data o) 0.

(** hpp:547-555 destroyMediumLarge and hpp:393-403 ~string_core;
    arena_string.hpp:171-180, 304-325: only with the default allocator. *)
Definition destroy (c : core) : M unit :=
  if category c =? is_small then ret tt
  else if arena && negb (c_al c =? 0) then ret tt
  else if category c =? is_medium then free_block false (c_data c) ((ml_capacity c + 1) * csize)
  else decrement_refs (c_al c) (c_data c) ((ml_capacity c + 1) * csize + 8).

(** A member function of another object [t] (a local variable): its destructor
    runs when an exception passes. *)
Definition on {A} (t : core) (m : M A) : M (A * core) := fun h o =>
  match m h t with
  | Ret a h1 t1 => Ret (a, t1) h1 o
  | Thr e h1 t1 => match destroy t1 h1 o with
                   | Ret _ h2 _ => Thr e h2 o
                   | Thr e2 h2 o2 => Term h2
                   | Term h2 => Term h2 | AFail => AFail | UB h2 => UB h2
                   end
  | Term h1 => Term h1 | AFail => AFail | UB h1 => UB h1
  end.
(** A constructor of another object: nothing to destroy when it throws. *)
Definition build {A} (al : Z) (m : M A) : M core := fun h o =>
  match m h (blank al) with
  | Ret _ h1 t1 => Ret t1 h1 o
  | Thr e h1 _ => Thr e h1 o
  | Term h1 => Term h1 | AFail => AFail | UB h1 => UB h1
  end.
(** hpp:432-439 swap with a local object, whose destructor runs next;
    the allocators stay (arena_string.hpp:186-193). *)
Definition swap_destroy (t : core) : M unit :=
  let* o := this in
  let* _ := put (set_ml o t) in
  destroy (set_ml t o).

Definition init_small (p : ptr) (n : Z) : M unit :=
  (* hpp:772-814 without the word-wise fast path, see [init_small_words] *)
  let* _ := (if n =? 0 then ret tt else pod_copy p (PSelf 0) n) in
  set_small_size n.
(** hpp:817-829 initMedium; arena_string.hpp:646-661 *)
Definition init_medium (p : ptr) (n : Z) : M unit :=
  let* b := alloc Plain ((1 + n) * csize) in
  let* _ := (if 0 <? n then pod_copy p (PHeap b 0) n else ret tt) in
  let* o := this in
  let* _ := put (set_capacity (set_size (set_data o b) n) ((1 + n) * csize / csize - 1) is_medium) in
  write (PHeap b n) [Some 0].
(** hpp:832-840 initLarge; arena_string.hpp:663-672 *)
Definition init_large (p : ptr) (n : Z) : M unit :=
  let* (b, c) := create_from p n in
  let* o := this in
  let* _ := put (set_capacity (set_size (set_data o b) n) c is_large) in
  write (PHeap b n) [Some 0].
Definition same_chars (l l' : list (option Z)) : bool :=
  (slen l =? slen l') && forallb (fun xy => match xy with (Some x, Some y) => x =? y | _ => false end) (combine l l').
(** Assert(memcmp(data(), q, n) == 0) *)
Definition assert_same (q : ptr) (n : Z) : M unit :=
  if dbg then
    let* o := this in
    let* l := read (data o) n in
    let* l' := read q n in
    assertM (same_chars l l')
  else ret tt.
(** hpp:378-391 string_core(data, size); arena_string.hpp:145-169 *)
Definition init_core (p : ptr) (n : Z) : M unit :=
  let* o := this in
  if arena && dbg && (c_al o =? 0) then throw LogicError else
  let* _ := (if negb sso_off && (n <=? max_small) then init_small p n
             else if n <=? max_medium then init_medium p n
             else init_large p n) in
  let* o1 := this in
  let* _ := assertM (size o1 =? n) in
  if n =? 0 then ret tt else assert_same p n.

(** hpp:747-758 copyMedium; arena_string.hpp:573-586 *)
Definition copy_medium (rhs : core) : M unit :=
  let n := add64 1 (c_size rhs) in
  let* b := alloc Plain (mul64 n csize) in
  let* o := this in
  let* _ := put (set_data o b) in
  let* _ := pod_copy (PHeap (c_data rhs) 0) (PHeap b 0) (c_size rhs + 1) in
  let* o1 := this in
  let* _ := put (set_capacity (set_size o1 (c_size rhs)) (sub64 (mul64 n csize / csize) 1) is_medium) in
  let* o2 := this in
  assertM (category o2 =? is_medium).
(** hpp:333-362 string_core(const string_core&) noexcept, with copySmall hpp:731-744 (arena_string.hpp:558-571, 588-595)
    and copyLarge hpp:761-768; arena_string.hpp:98-126 (not noexcept). *)
Definition copy_core (rhs : core) : M unit :=
  (if arena then (fun m => m) else noexc)
  (let* o := this in
   let* _ := (if category rhs =? is_small then
                let* _ := put (set_ml o rhs) in
                let* o1 := this in
                assertM ((category o1 =? is_small) && (size o1 =? size rhs))
              else if category rhs =? is_medium then copy_medium rhs
              else if category rhs =? is_large then
                let* _ := put (set_ml o rhs) in
                let* _ := increment_refs (c_data rhs) in
                let* o1 := this in
                assertM ((category o1 =? is_large) && (size o1 =? size rhs))
              else undef) in
   let* o1 := this in
   let* _ := assertM (size o1 =? size rhs) in
   assert_same (export rhs (data rhs)) (size o1)).

(** hpp:843-856 unshare; arena_string.hpp:674-689 hands decrementRefs the size, not the number of bytes *)
Definition unshare (min_cap : Z) : M unit :=
  let* o := this in
  let* _ := assertM (category o =? is_large) in
  let* (b, c) := create (Z.max min_cap (ml_capacity o)) in
  let* _ := assertM (ml_capacity o <=? c) in
  let* _ := pod_copy (PHeap (c_data o) 0) (PHeap b 0) (c_size o + 1) in
  let* _ := decrement_refs (c_al o) (c_data o) (c_size o) in
  let* o1 := this in
  put (set_capacity (set_data o1 b) c is_large).
(** hpp:859-865 mutableDataLarge, hpp:446-456 mutableData; arena_string.hpp:202-212, 691-698 *)
Definition mutable_data : M ptr :=
  (if arena then (fun m => m) else noexc)
  (let* o := this in
   if category o =? is_small then ret (PSelf 0)
   else if category o =? is_medium then ret (PHeap (c_data o) 0)
   else if category o =? is_large then
     let* r := refs (c_data o) in
     let* _ := (if 1 <? r then unshare 0 else ret tt) in
     let* o1 := this in
     ret (PHeap (c_data o1) 0)
   else undef).

(** hpp:868-887 reserveLarge; arena_string.hpp:700-721 *)
Definition reserve_large (n : Z) : M unit :=
  let* o := this in
  let* _ := assertM (category o =? is_large) in
  let* r := refs (c_data o) in
  if 1 <? r then unshare n
  else
    let* _ := (if ml_capacity o <? n then
                 let* (nb, c) := reallocate (c_data o) (c_size o) (ml_capacity o) n in
                 let* o1 := this in
                 put (set_capacity (set_data o1 nb) c is_large)
               else ret tt) in
    let* c := capacity in assertM (n <=? c).
(** hpp:919-947 reserveSmall; arena_string.hpp:755-785; the capacity given back by create is the one asked for *)
Definition reserve_small (n : Z) : M unit :=
  let* o := this in
  let* _ := assertM (category o =? is_small) in
  if negb sso_off && (n <=? max_small) then ret tt
  else if n <=? max_medium then
    let* b := alloc Plain ((1 + n) * csize) in
    let* sz := small_size in
    let* _ := pod_copy (PSelf 0) (PHeap b 0) (sz + 1) in
    let* o1 := this in
    put (set_capacity (set_size (set_data o1 b) sz) ((1 + n) * csize / csize - 1) is_medium)
  else
    let* (b, c) := create n in
    let* sz := small_size in
    let* _ := pod_copy (PSelf 0) (PHeap b 0) (sz + 1) in
    let* o1 := this in
    let* _ := put (set_capacity (set_size (set_data o1 b) sz) c is_large) in
    let* c1 := capacity in assertM (n <=? c1).
(** hpp:890-916 reserveMedium; arena_string.hpp:723-753; [nascent] is small, so its reserve is reserveSmall *)
Definition reserve_medium (n : Z) : M unit :=
  let* o := this in
  let* _ := assertM (category o =? is_medium) in
  if n <=? ml_capacity o then ret tt
  else if n <=? max_medium then
    let* nb := smart_realloc 0 (c_data o) ((c_size o + 1) * csize) ((ml_capacity o + 1) * csize) ((1 + n) * csize) in
    let* o1 := this in
    put (set_capacity (set_data o1 nb) ((1 + n) * csize / csize - 1) is_medium)
  else
    let* t := build (c_al o) init_default in
    let* (_, t1) := on t (let* _ := reserve_small n in
                          let* c := capacity in
                          let* _ := assertM (n <=? c) in
                          let* t0 := this in
                          let* _ := put (set_size t0 (c_size o)) in
                          pod_copy (PHeap (c_data o) 0) (PHeap (c_data t0) 0) (c_size o + 1)) in
    let* _ := put (set_ml o t1) in
    let* c := capacity in
    let* _ := assertM (n <=? c) in
    destroy (set_ml t1 o).
(** hpp:475-491 reserve; arena_string.hpp:231-247 *)
Definition reserve (n : Z) : M unit :=
  let* o := this in
  let* _ := (if category o =? is_small then reserve_small n
             else if category o =? is_medium then reserve_medium n
             else if category o =? is_large then reserve_large n
             else undef) in
  let* c := capacity in assertM (n <=? c).

(** hpp:950-982 expandNoinit; arena_string.hpp:787-817 *)
Definition expand_noinit (delta : Z) (exp_growth : bool) : M ptr :=
  let* c0 := capacity in
  let* o := this in
  let* _ := assertM (size o <=? c0) in
  let finish (old_sz new_sz : Z) : M ptr :=
    let* c := capacity in
    let* _ := assertM (new_sz <=? c) in
    let* o1 := this in
    let* _ := assertM ((category o1 =? is_medium) || (category o1 =? is_large)) in
    let* _ := put (set_size o1 new_sz) in
    let* _ := write (PHeap (c_data o1) new_sz) [Some 0] in
    let* o2 := this in
    let* _ := assertM (size o2 =? new_sz) in
    ret (PHeap (c_data o1) old_sz) in
  if category o =? is_small then
    let* old_sz := small_size in
    let new_sz := add64 old_sz delta in
    if negb sso_off && (new_sz <=? max_small) then
      let* _ := set_small_size new_sz in ret (PSelf old_sz)
    else
      let* _ := reserve_small (if exp_growth then Z.max new_sz (2 * max_small) else new_sz) in
      finish old_sz new_sz
  else
    let old_sz := c_size o in
    let new_sz := add64 old_sz delta in
    let* c := capacity in
    let* _ := (if c <? new_sz
               then reserve (if exp_growth then Z.max new_sz (add64 1 (mul64 c 3 / 2)) else new_sz)
               else ret tt) in
    finish old_sz new_sz.
(** hpp:495 push_back; arena_string.hpp:251 *)
Definition push_back (c : Z) : M unit := let* p := expand_noinit 1 true in write p [Some c].

(** hpp:992-998 shrinkMedium; arena_string.hpp:826-833 *)
Definition shrink_medium (delta : Z) : M unit :=
  let* o := this in
  let* _ := assertM (delta <=? c_size o) in
  let n := sub64 (c_size o) delta in
  let* _ := put (set_size o n) in
  write (PHeap (c_data o) n) [Some 0].
(** hpp:465-473 shrink, with shrinkSmall hpp:985-989 and shrinkLarge hpp:1001-1010;
    arena_string.hpp:221-229, 819-824, 835-845 *)
Definition shrink (delta : Z) : M unit :=
  let* o := this in
  if category o =? is_small then
    let* s := small_size in
    let* _ := assertM (delta <=? s) in
    set_small_size (sub64 s delta)
  else if category o =? is_medium then shrink_medium delta
  else
    let* r := refs (c_data o) in
    if r =? 1 then shrink_medium delta
    else
      let* _ := assertM (delta <=? c_size o) in
      if delta =? 0 then ret tt
      else let* t := build (c_al o) (init_core (PHeap (c_data o) 0) (sub64 (c_size o) delta)) in
           swap_destroy t.

(** ** basic_string *)

(** hpp:1030-1049 isSane, Invariant.  A terminator that was never written does not count. *)
Definition check_sane : M unit :=
  if dbg then
    let* o := this in
    let* c := capacity in
    let* l := read (ptr_add (data o) (size o)) 1 in
    assertM ((size o <=? c) && match l with [Some 0] => true | _ => false end)
  else ret tt.
(** The destructor of Invariant runs also when an exception passes. *)
Definition guarded {A} (m : M A) : M A :=
  let* _ := check_sane in
  fun h o =>
  match m h o with
  | Ret a h1 o1 => (let* _ := check_sane in ret a) h1 o1
  | Thr e h1 o1 => (let* _ := check_sane in throw e) h1 o1
  | x => x
  end.
Definition enforce (c : bool) : M unit := if c then ret tt else throw OutOfRange.
Definition size_m : M Z := let* o := this in ret (size o).
(** hpp:1222 begin() noexcept, not const *)
Definition begin_ : M ptr := noexc mutable_data.

(** hpp:1811-1823 resize *)
Definition resize (n c : Z) : M unit := guarded
  (let* sz := size_m in
   let* _ := (if n <=? sz then shrink (sz - n)
              else let* p := expand_noinit (n - sz) false in fill p (n - sz) c) in
   let* sz1 := size_m in assertM (sz1 =? n)).

(** le(a, s) && !le(a + n, s): inside the same object *)
Definition points_into (s base : ptr) (n : Z) : bool :=
  match s, base with
  | PSelf x, PSelf y => (y <=? x) && (x <? y + n)
  | PHeap b x, PHeap b' y => (b =? b') && (y <=? x) && (x <? y + n)
  | _, _ => false
  end.
Definition distance (s base : ptr) : Z :=
  match s, base with PSelf x, PSelf y => x - y | PHeap _ x, PHeap _ y => x - y | _, _ => 0 end.
(** hpp:1845-1874 append(const value_type*, size_type) *)
Definition append (s : ptr) (n : Z) : M unit := guarded
  (if n =? 0 then ret tt else
   let* o := this in
   let old_size := size o in
   let old_data := data o in
   let* p := expand_noinit n true in
   let* _ := (if points_into s old_data old_size then
                let* _ := assertM (distance s old_data + n <=? old_size) in
                let* o1 := this in
                pod_move (ptr_add (data o1) (distance s old_data)) p n
              else pod_copy s p n) in
   let* sz := size_m in assertM (sz =? add64 old_size n)).
(** hpp:1826-1833 append(const basic_string&) adds one Assert *)
Definition append_str (s : ptr) (n : Z) : M unit :=
  let* sz := size_m in
  let* _ := append s n in
  let* sz1 := size_m in assertM (sz1 =? add64 sz n).
(** hpp:1877-1882 append(n, c) *)
Definition append_n (n c : Z) : M unit := guarded (let* p := expand_noinit n true in fill p n c).
(** hpp:1260-1263 pop_back noexcept *)
Definition pop_back : M unit := noexc (
  let* sz := size_m in
  let* _ := assertM (negb (sz =? 0)) in
  shrink 1).

(** hpp:1894-1915 assign(const value_type*, size_type) *)
Definition assign (s : ptr) (n : Z) : M unit := guarded
  (let* sz := size_m in
   let* _ := (if n =? 0 then resize 0 0
              else if n <=? sz then
                let* q := mutable_data in
                let* _ := pod_move s q n in
                let* sz1 := size_m in
                let* _ := shrink (sz1 - n) in
                let* sz2 := size_m in assertM (sz2 =? n)
              else
                let* _ := resize 0 0 in
                let* q := expand_noinit n false in
                pod_copy s q n) in
   let* sz3 := size_m in assertM (sz3 =? n)).

(** hpp:1443-1451 erase(pos, n) *)
Definition erase (pos n : Z) : M unit := guarded
  (let* sz := size_m in
   let* _ := enforce (pos <=? sz) in
   let n1 := if sz - pos <? n then sz - pos else n in
   let* b := begin_ in
   let* _ := pod_move (ptr_add b (pos + n1)) (ptr_add b pos) (sz - (pos + n1)) in
   let* sz1 := size_m in
   resize (sz1 - n1) 0).

(** hpp:2013-2028 insertImplDiscr(i, n, c), i = cbegin() + pos *)
Definition insert_n_at (pos n c : Z) : M unit := guarded
  (let* old_size := size_m in
   let* _ := assertM ((0 <=? pos) && (pos <=? old_size)) in
   let* _ := expand_noinit n true in
   let* b := begin_ in
   let* _ := pod_move (ptr_add b pos) (ptr_add b (pos + n)) (old_size - pos) in
   fill (ptr_add b pos) n c).
(** hpp:2040-2057 insertImpl(i, s1, s2), forward iterators: here char pointers *)
Definition insert_at (pos : Z) (s : ptr) (n : Z) : M unit := guarded
  (let* old_size := size_m in
   let* _ := assertM ((0 <=? pos) && (pos <=? old_size)) in
   let* _ := expand_noinit n true in
   let* b := begin_ in
   let* _ := pod_move (ptr_add b pos) (ptr_add b (pos + n)) (old_size - pos) in
   pod_move s (ptr_add b pos) n).
(** hpp:1386-1390 insert(pos, s, n) *)
Definition insert (pos : Z) (s : ptr) (n : Z) : M unit :=
  let* sz := size_m in
  let* _ := enforce (pos <=? sz) in
  let* _ := begin_ in
  let* _ := insert_at pos s n in
  ret tt.
(** hpp:1394-1398 insert(pos, n, c) *)
Definition insert_n (pos n c : Z) : M unit :=
  let* sz := size_m in
  let* _ := enforce (pos <=? sz) in
  let* _ := begin_ in
  insert_n_at pos n c.
(** hpp:1339-1342 append(first, last) with char pointers *)
Definition append_range (s : ptr) (n : Z) : M unit :=
  let* _ := begin_ in
  let* sz := size_m in
  insert_at sz s n.
(** hpp:2061-2072 insertImpl, input iterators; the loop pushes the characters one by one *)
Fixpoint push_all (l : list Z) : M unit :=
  match l with [] => ret tt | c :: r => let* _ := push_back c in push_all r end.
Definition insert_input (pos : Z) (l : list Z) : M unit :=
  let* o := this in
  let from := export o (data o) in
  let* t := build (c_al o) (init_core from pos) in
  let* (_, t1) := on t (let* _ := push_all l in append_range (ptr_add from pos) (size o - pos)) in
  let* _ := swap_destroy t1 in
  let* _ := begin_ in
  ret tt.

(** hpp:1460-1464 erase(first, last) *)
Definition erase_range (first last : Z) : M unit :=
  let* _ := begin_ in
  let* _ := erase first (last - first) in
  let* _ := begin_ in
  ret tt.
Definition assert_sane : M unit := check_sane.
(** hpp:2112-2118 replaceAliased: begin() <= s1 <= end() *)
Definition aliased (s base : ptr) (sz : Z) : bool :=
  match s, base with
  | PSelf x, PSelf y => (y <=? x) && (x <=? y + sz)
  | PHeap b x, PHeap b' y => (b =? b') && (y <=? x) && (x <=? y + sz)
  | _, _ => false
  end.
(** hpp:2129-2155 replaceImpl with replaceAliased hpp:2112-2125, forward iterators:
    char pointers; i1 = begin() + pos.  The default constructor of temp is noexcept.
    copy_n (hpp:159-165) copies forwards; source and destination are disjoint here. *)
Definition replace_at (pos n1 : Z) (s : ptr) (n2 : Z) : M unit := guarded
  (let* b := begin_ in
   let* o := this in
   let sz := size o in
   if aliased s b sz then
     let* t := build 0 (noexc init_default) in
     let* (_, t1) := on t (
       let* _ := reserve (add64 (sub64 sz n1) n2) in
       let* _ := append_range (export o b) pos in
       let* _ := append_range (export o s) n2 in
       append_range (export o (ptr_add b (pos + n1))) (sz - (pos + n1))) in
     swap_destroy t1
   else
     let* _ := (if n2 <? n1 then
                  let* _ := pod_move s (ptr_add b pos) n2 in
                  erase_range (pos + n2) (pos + n1)
                else
                  let* _ := pod_move s (ptr_add b pos) n1 in
                  insert_at (pos + n1) (ptr_add s n1) (n2 - n1)) in
     assert_sane).
(** hpp:1492-1499 replace(pos, n1, s, n2); the asserts of replaceImplDiscr hpp:2075-2082 hold by construction *)
Definition replace (pos n1 : Z) (s : ptr) (n2 : Z) : M unit := guarded
  (let* sz := size_m in
   let* _ := enforce (pos <=? sz) in
   let n := if sz - pos <? n1 then sz - pos else n1 in
   let* _ := begin_ in
   replace_at pos n s n2).
(** hpp:2085-2098 replaceImplDiscr(i1, i2, n2, c) *)
Definition replace_n_at (pos n1 n2 c : Z) : M unit :=
  let* b := begin_ in
  let* _ := (if n2 <? n1 then
               let* _ := fill (ptr_add b pos) n2 c in
               erase_range (pos + n2) (pos + n1)
             else
               let* _ := fill (ptr_add b pos) n1 c in
               insert_n_at (pos + n1) (n2 - n1) c) in
  assert_sane.
Definition replace_n (pos n1 n2 c : Z) : M unit := guarded
  (let* sz := size_m in
   let* _ := enforce (pos <=? sz) in
   let n := if sz - pos <? n1 then sz - pos else n1 in
   replace_n_at pos n n2 c).
(** hpp:1372-1374 assign(n, c): replace(begin(), end(), n, c) *)
Definition assign_n (n c : Z) : M unit :=
  let* _ := begin_ in
  let* sz := size_m in
  replace_n_at 0 sz n c.
(** hpp:2159-2164 replaceImpl, input iterators *)
Definition replace_input (pos n1 : Z) (l : list Z) : M unit :=
  let* b := begin_ in
  let* o := this in
  let from := export o b in
  let* t := build (c_al o) (init_core from pos) in
  let* (_, t1) := on t (
    let* _ := begin_ in
    let* sz := size_m in
    let* _ := insert_input sz l in
    append_range (ptr_add from (pos + n1)) (size o - (pos + n1))) in
  swap_destroy t1.

(** The constructor (n, c) hpp:1118-1121 *)
Definition init_n (n c : Z) : M unit :=
  let* _ := init_default in
  let* p := expand_noinit n false in fill p n c.
(** hpp:1795-1808 operator=(char) *)
Definition assign_char (c : Z) : M unit := guarded
  (let* sz := size_m in
   let front := let* b := begin_ in write b [Some c] in
   if sz =? 0 then let* _ := expand_noinit 1 false in front
   else
     let* sh := is_shared in
     if sh then let* t := build 0 (init_n 1 c) in swap_destroy t
     else let* _ := shrink (sz - 1) in front).
(** hpp:1281-1290 shrink_to_fit *)
Definition shrink_to_fit : M unit :=
  if arena then ret tt else
  let* cap := capacity in
  let* o := this in
  if cap <? mul64 (size o) 3 / 2 then ret tt
  else let* t := build 0 (init_core (export o (data o)) (size o)) in swap_destroy t.
(** hpp:1299, 1306-1309 operator[], at; hpp:1255-1259 back *)
Definition set_at (i c : Z) : M unit := let* b := begin_ in write (ptr_add b i) [Some c].
Definition set_at_checked (i c : Z) : M unit :=
  let* sz := size_m in
  let* _ := enforce (i <? sz) in
  set_at i c.
Definition set_back (c : Z) : M unit :=
  let* sz := size_m in
  let* _ := assertM (negb (sz =? 0)) in
  let* b := begin_ in write (ptr_add b (sz - 1)) [Some c].
(** Writing through the pointer returned by the non-const data() (hpp:1561). *)
Definition poke (i c : Z) : M unit := let* o := this in write (ptr_add (data o) i) [Some c].
(** hpp:1188-1217 clone, as a constructor *)
Definition clone_from (rhs : core) : M unit :=
  if category rhs =? is_large then
    let* t := build (c_al rhs) (copy_core rhs) in
    let* (_, t1) := on t (unshare 0) in
    put t1
  else copy_core rhs.

Definition run_uop (o : uop) (s : ptr) (n : Z) : M unit :=
  match o with
  | UAppend _ => append s n
  | UAppendN m c => append_n m c
  | UPush c => push_back c
  | UPop => pop_back
  | UAssign _ => assign s n
  | UAssignN m c => assign_n m c
  | UAssignChar c => assign_char c
  | UInsert p _ => insert p s n
  | UInsertN p m c => insert_n p m c
  | UErase p m => erase p m
  | UReplace p m _ => replace p m s n
  | UReplaceN p m m2 c => replace_n p m m2 c
  | UInsertInput p l => insert_input p l
  | UReplaceInput p m l => replace_input p m l
  | UResize m c => resize m c
  | UReserve m => reserve m
  | UShrink => shrink_to_fit
  | UClear => resize 0 0
  | USet i c => set_at i c
  | UAtSet i c => set_at_checked i c
  | UBackSet c => set_back c
  end.

(** ** Several strings *)

Record sys := { s_heap : heap; s_objs : list (option core) }.
Definition s_init : sys := {| s_heap := {| h_blocks := []; h_calls := O; h_refused := false; h_rfail := false |}; s_objs := [] |}.
Inductive sout := SRet (s : sys) | SThr (e : exn) (s : sys) | STerm (h : heap) | SAFail | SUB (h : heap).

Variable ar : Z.   (* the allocator given to new strings *)

(** The pointer argument of an operation on object [i]. *)
Definition resolve (s : sys) (i : nat) (a : option arg) : option (ptr * Z) :=
  match a with
  | None => Some (PExt [], 0)
  | Some (Chars l) => Some (PExt (map Some l), slen l)
  | Some (Piece j off n) =>
      match sget (s_objs s) j with
      | None => None
      | Some c =>
          let p := ptr_add (data c) off in
          Some (if Nat.eqb i j then p else export c p, n)
      end
  end.

Definition on_obj (s : sys) (i : nat) (m : M unit) : sout :=
  match sget (s_objs s) i with
  | None => SUB (s_heap s)
  | Some c =>
      match m (s_heap s) c with
      | Ret _ h c1 => SRet {| s_heap := h; s_objs := sset i (Some c1) (s_objs s) |}
      | Thr e h c1 => SThr e {| s_heap := h; s_objs := sset i (Some c1) (s_objs s) |}
      | Term h1 => STerm h1 | AFail => SAFail | UB h1 => SUB h1
      end
  end.
(** A new object [m]; when it throws no object is left. *)
Definition new_obj (s : sys) (al : Z) (m : M unit) : sout :=
  match m (s_heap s) (blank al) with
  | Ret _ h c => SRet {| s_heap := h; s_objs := s_objs s ++ [Some c] |}
  | Thr e h _ => SThr e {| s_heap := h; s_objs := s_objs s ++ [None] |}
  | Term h1 => STerm h1 | AFail => SAFail | UB h1 => SUB h1
  end.
(** A local result object, constructed empty (hpp:1097-1099, noexcept) with
    allocator [al], then built up by [m]. *)
Definition local_from (init : M unit) (al : Z) (m : M unit) : M unit :=
  let* t := build al init in
  let* (_, t1) := on t m in
  put t1.
Definition new_local := local_from (noexc init_default).
(** The result moved out of object [j] (hpp:366-375). *)
Definition move_out (s : sys) (j : nat) : sout :=
  match sget (s_objs s) j with
  | None => SUB (s_heap s)
  | Some c =>
      match reset (s_heap s) c with
      | Ret _ h c1 => SRet {| s_heap := h; s_objs := sset j (Some c1) (s_objs s) ++ [Some c] |}
      | _ => SUB (s_heap s)
      end
  end.
Definition then_move (r : sout) (j : nat) : sout :=
  match r with
  | SRet s => move_out s j
  | SThr e s => SThr e {| s_heap := s_heap s; s_objs := s_objs s ++ [None] |}
  | x => x
  end.
Definition obj (s : sys) (j : nat) (f : core -> sout) : sout :=
  match sget (s_objs s) j with Some c => f c | None => SUB (s_heap s) end.
(** const char* and size of another object *)
Definition str (c : core) : ptr := export c (data c).
Definition al_of (c : core) : Z := if arena then c_al c else 0.

(** hpp:2260-2266 a + b; hpp:2294-2301 "..." + b; hpp:2322-2328 'c' + b;
    hpp:2346-2355 a + "..."; hpp:2366-2372 a + 'c' *)
Definition plus_str (a b : core) : M unit := new_local (al_of a)
  (let* _ := reserve (add64 (size a) (size b)) in
   let* _ := append_str (str a) (size a) in
   append_str (str b) (size b)).
Definition plus_cl (l : list Z) (b : core) : M unit := new_local (al_of b)
  (let* _ := reserve (add64 (slen l) (size b)) in
   let* _ := append (PExt (map Some l)) (slen l) in
   append_str (str b) (size b)).
Definition plus_hl (c : Z) (b : core) : M unit := new_local (al_of b)
  (let* _ := reserve (add64 1 (size b)) in
   let* _ := push_back c in
   append_str (str b) (size b)).
Definition plus_cr (a : core) (l : list Z) : M unit := new_local (al_of a)
  (let* _ := reserve (add64 (size a) (slen l)) in
   let* _ := append_str (str a) (size a) in
   append (PExt (map Some l)) (slen l)).
Definition plus_hr (a : core) (c : Z) : M unit := new_local (al_of a)
  (let* _ := reserve (add64 (size a) 1) in
   let* _ := append_str (str a) (size a) in
   push_back c).
(** The capacity of object [c], as a question about the state. *)
Definition cap_in (s : sys) (c : core) : option Z :=
  match capacity (s_heap s) c with Ret v _ _ => Some v | _ => None end.

Definition sstep (s : sys) (o : sop) : sout :=
  match o with
  | SDefault => new_obj s ar (noexc init_default)
  | SNew l => new_obj s ar (init_core (PExt (map Some l)) (slen l))
  | SNewN n c => new_obj s ar (init_n n c)
  | SCopy j => obj s j (fun c => new_obj s (al_of c) (copy_core c))
  | SMove j => move_out s j
  | SSub j pos n =>     (* hpp:1110-1112, 1885-1891 *)
      obj s j (fun c => new_obj s ar (local_from init_default ar (
        let* _ := enforce (pos <=? size c) in
        assign (ptr_add (str c) pos) (if size c - pos <? n then size c - pos else n))))
  | SSubstr j pos n =>  (* hpp:1699-1702 *)
      obj s j (fun c => new_obj s (al_of c) (
        let* _ := enforce (pos <=? size c) in
        init_core (ptr_add (str c) pos) (Z.min n (size c - pos))))
  | SSubstrMove j pos n =>  (* hpp:1704-1711 *)
      then_move (on_obj s j (
        let* sz := size_m in
        let* _ := enforce (pos <=? sz) in
        let* _ := erase 0 pos in
        let* sz1 := size_m in
        if n <? sz1 then resize n 0 else ret tt)) j
  | SClone j => obj s j (fun c => new_obj s (al_of c) (clone_from c))
  | SPlus j k => obj s j (fun a => obj s k (fun b => new_obj s (al_of a) (plus_str a b)))
  | SPlusML j k | SPlusMM j k =>   (* hpp:2270-2272, 2288-2290 *)
      obj s j (fun a => obj s k (fun b =>
        then_move (on_obj s j (append_str (if Nat.eqb j k then data b else str b) (size b))) j))
  | SPlusMR j k =>                 (* hpp:2276-2284 *)
      obj s j (fun a => obj s k (fun b =>
        match cap_in s b with
        | None => SUB (s_heap s)
        | Some cap =>
            if add64 (size a) (size b) <=? cap
            then then_move (on_obj s k (insert 0 (if Nat.eqb j k then data a else str a) (size a))) k
            else new_obj s (al_of a) (plus_str a b)
        end))
  | SPlusCL l k => obj s k (fun b => new_obj s (al_of b) (plus_cl l b))
  | SPlusCLM l k =>                (* hpp:2305-2318 *)
      obj s k (fun b =>
        match cap_in s b with
        | None => SUB (s_heap s)
        | Some cap =>
            if add64 (slen l) (size b) <=? cap
            then then_move (on_obj s k (let* _ := begin_ in insert_at 0 (PExt (map Some l)) (slen l))) k
            else new_obj s (al_of b) (plus_cl l b)
        end)
  | SPlusHL c k => obj s k (fun b => new_obj s (al_of b) (plus_hl c b))
  | SPlusHLM c k =>                (* hpp:2332-2342 *)
      obj s k (fun b =>
        match cap_in s b with
        | None => SUB (s_heap s)
        | Some cap =>
            if size b <? cap
            then then_move (on_obj s k (let* _ := begin_ in let* _ := insert_n_at 0 1 c in let* _ := begin_ in ret tt)) k
            else new_obj s (al_of b) (plus_hl c b)
        end)
  | SPlusCR j l => obj s j (fun a => new_obj s (al_of a) (plus_cr a l))
  | SPlusHR j c => obj s j (fun a => new_obj s (al_of a) (plus_hr a c))
  | SPlusCRM j l => obj s j (fun a => then_move (on_obj s j (append (PExt (map Some l)) (slen l))) j)
  | SPlusHRM j c => obj s j (fun a => then_move (on_obj s j (push_back c)) j)
  | SAssign i j =>      (* hpp:1769-1777 *)
      obj s j (fun b => on_obj s i (guarded (if Nat.eqb i j then ret tt else assign (str b) (size b))))
  | SAssignMove i j =>  (* hpp:1781-1792 *)
      obj s i (fun a => obj s j (fun b =>
        if Nat.eqb i j then SRet s else
        match destroy a (s_heap s) a with
        | Ret _ h _ =>
            match reset h b with
            | Ret _ h1 b1 => SRet {| s_heap := h1; s_objs := sset j (Some b1) (sset i (Some b) (s_objs s)) |}
            | _ => SUB (s_heap s)
            end
        | Thr e h _ => STerm h
        | Term h1 => STerm h1 | AFail => SAFail | UB h1 => SUB h1
        end))
  | SSwap i j =>
      obj s i (fun a => obj s j (fun b =>
        SRet {| s_heap := s_heap s; s_objs := sset j (Some (set_ml b a)) (sset i (Some (set_ml a b)) (s_objs s)) |}))
  | SDestroy i =>
      obj s i (fun a =>
        match destroy a (s_heap s) a with
        | Ret _ h _ => SRet {| s_heap := h; s_objs := sset i None (s_objs s) |}
        | Thr e h _ => STerm h
        | Term h1 => STerm h1 | AFail => SAFail | UB h1 => SUB h1
        end)
  | SOn i o =>
      match resolve s i (arg_of o) with
      | None => SUB (s_heap s)
      | Some (p, n) => on_obj s i (run_uop o p n)
      end
  end.
End Str.

(** ** Reading a string *)

(** What c_str() and size() show: the characters and the one after them. *)
Definition value (h : heap) (c : core) : option (list (option Z)) :=
  match read (data c) (size c) h c with Ret l _ _ => Some l | _ => None end.
Definition after_last (h : heap) (c : core) : option Z :=
  match read (ptr_add (data c) (size c)) 1 h c with Ret [x] _ _ => x | _ => None end.

(** hpp:789-806 initSmall (arena_string.hpp:598-643), word-wise fast path of release builds: whole words
    are copied from an aligned source, [src] gives the characters there, including
    those beyond the string. *)
Definition word_from (src : Z -> Z) (i : Z) : Z :=
  fold_right (fun k acc => src (i + Z.of_nat k) + base * acc) 0 (seq 0 (Z.to_nat per_word)).
Definition init_small_words (src : Z -> Z) (n : Z) (o : core) : core :=
  let words := (n * csize + 8 - 1) / 8 in
  let o1 := if 3 <=? words then {| c_data := c_data o; c_size := c_size o; c_cap := word_from src (2 * per_word); c_al := c_al o |} else o in
  let o2 := if 2 <=? words then {| c_data := c_data o1; c_size := word_from src per_word; c_cap := c_cap o1; c_al := c_al o1 |} else o1 in
  let o3 := if 1 <=? words then {| c_data := word_from src 0; c_size := c_size o2; c_cap := c_cap o2; c_al := c_al o2 |} else o2 in
  set_unit (set_unit o3 max_small (max_small - n)) n 0.
End Wide.
