(** Model of container/stdb_vector.hpp.

    Element values are integers; element constructors, assignments and
    comparisons do not throw.  Pointers into a buffer are indices.  [sz] is
    sizeof(T).  A range argument (iterators, initializer_list) is a list of
    values outside the vector. *)
Require Import ZArith List Bool.
From Verif Require Import Base VecSpec.
Import ListNotations.
Open Scope Z_scope.

(** A slot of the buffer: no object, an object, a moved-from object. *)
Inductive cell := Raw | Live (v : Z) | Moved.
Record buf := { b_len : Z; b_at : Z -> cell }.

(** Objects constructed and destroyed in buffers; [n_lost]: objects whose slot
    was reused or freed without destroying them; [n_gone]: the same for
    moved-from objects.  Kept for the kinds with a counted lifetime. *)
Record acct := { n_con : Z; n_des : Z; n_lost : Z; n_gone : Z }.
Definition counted (k : kind) : bool := match k with KTriv | KReloc => false | _ => true end.
(** stdb_vector.hpp:65-66 IsRelocatable *)
Definition is_relocatable (k : kind) : bool := match k with KTriv | KReloc => true | _ => false end.

(** _start (None = nullptr), size(), capacity().  [Broken]: _start is null but
    _finish and _edge still point into a former buffer. *)
Inductive vec := Vec (b : option buf) (size cap : Z) | Broken.
Inductive outc := Done (r : Z) | Threw.

Definition b2 (b : bool) : Z := if b then 1 else 0.
Definition is_live (c : cell) : bool := match c with Live _ => true | _ => false end.
Definition is_moved (c : cell) : bool := match c with Moved => true | _ => false end.

Definition set (b : buf) (i : Z) (c : cell) : buf :=
  {| b_len := b_len b; b_at := fun j => if j =? i then c else b_at b j |}.
Definition get (b : buf) (i : Z) : res cell :=
  if (0 <=? i) && (i <? b_len b) then Ok (b_at b i) else Undef.
Definition read (b : buf) (i : Z) : res Z :=
  do c <- get b i; match c with Live v => Ok v | _ => Undef end.

(** A const T& argument, read now; [None]: the buffer it pointed into is gone. *)
Definition read_ref (ob : option buf) (r : ref) : res Z :=
  match r with
  | Val v => Ok v
  | Elem i => match ob with Some b => read b i | None => Undef end
  end.

Fixpoint count_cells (p : cell -> bool) (f : Z -> cell) (n : nat) : Z :=
  match n with O => 0 | S m => b2 (p (f (Z.of_nat m))) + count_cells p f m end.

Section Kind.
Variable k : kind.
Variable sz : Z.
Variable dbg : bool.        (* Assert active *)

Definition assert (c : bool) : res unit := if dbg && negb c then AssertFail else Ok tt.

(** new (p) T(v) *)
Definition construct (b : buf) (a : acct) (i v : Z) : res (buf * acct) :=
  do c <- get b i;
  Ok (set b i (Live v),
      if counted k then {| n_con := n_con a + 1; n_des := n_des a;
                           n_lost := n_lost a + b2 (is_live c); n_gone := n_gone a + b2 (is_moved c) |}
      else a).
(** *p = v.  Assigning to a slot without an object is undefined for class types. *)
Definition store (b : buf) (i v : Z) : res buf :=
  do c <- get b i;
  match k, c with
  | KTriv, _ => Ok (set b i (Live v))
  | _, Live _ => Ok (set b i (Live v))
  | _, _ => Undef
  end.
(** p->~T(); nothing for trivially destructible types (hpp:183-203). *)
Definition kill (b : buf) (a : acct) (i : Z) : res (buf * acct) :=
  match k with
  | KTriv => Ok (b, a)
  | _ =>
      do c <- get b i;
      match c with
      | Raw => Undef
      | _ => Ok (set b i Raw,
                 if counted k then {| n_con := n_con a; n_des := n_des a + 1; n_lost := n_lost a; n_gone := n_gone a |} else a)
      end
  end.
(** hpp:192-203 destroy_range [i, i+n) *)
Fixpoint destroy_range (b : buf) (a : acct) (i : Z) (n : nat) : res (buf * acct) :=
  match n with
  | O => Ok (b, a)
  | S m => do (b1, a1) <- kill b a i; destroy_range b1 a1 (i + 1) m
  end.
(** std::free: the objects still in the buffer are not destroyed. *)
Definition free_buf (ob : option buf) (a : acct) : acct :=
  match ob with
  | None => a
  | Some b => if counted k then
      {| n_con := n_con a; n_des := n_des a;
         n_lost := n_lost a + count_cells is_live (b_at b) (Z.to_nat (b_len b));
         n_gone := n_gone a + count_cells is_moved (b_at b) (Z.to_nat (b_len b)) |}
      else a
  end.

Definition in_range (b : buf) (i n : Z) : bool := (0 <=? i) && (i + n <=? b_len b).

(** hpp:106-121 construct_range_with_cref [i, i+n), value read through the
    reference each time; hpp:92-104 construct_range uses it with a default
    value (all-zero bytes taken to be the default value). *)
Fixpoint fill_loop (b : buf) (a : acct) (i : Z) (n : nat) (r : ref) (dangling : bool) : res (buf * acct) :=
  match n with
  | O => Ok (b, a)
  | S m =>
      do v <- read_ref (if dangling then None else Some b) r;
      do (b1, a1) <- construct b a i v;
      fill_loop b1 a1 (i + 1) m r dangling
  end.
Definition construct_range_with_cref (ob : option buf) (a : acct) (first last : Z) (r : ref) (dangling : bool)
  : res (option buf * acct) :=
  do _ <- assert (match ob with Some _ => true | None => false end);
  do _ <- assert (first <? last);
  match ob with
  | None => if first <? last then Undef else Ok (None, a)
  | Some b => do (b1, a1) <- fill_loop b a first (Z.to_nat (last - first)) r dangling; Ok (Some b1, a1)
  end.

(** hpp:167-181 copy_from_iterator: construct the listed values at [i]... *)
Fixpoint write_list (b : buf) (a : acct) (i : Z) (l : list Z) : res (buf * acct) :=
  match l with
  | [] => Ok (b, a)
  | v :: r => do (b1, a1) <- construct b a i v; write_list b1 a1 (i + 1) r
  end.
(** ... memcpy for relocatable types: it duplicates an owning object, which is
    reported as undefined here (its destructors will run twice). *)
Definition copy_from_iterator (ob : option buf) (a : acct) (i : Z) (l : list Z) : res (option buf * acct) :=
  do _ <- assert (match ob with Some _ => true | None => false end);
  do _ <- assert (negb (match l with [] => true | _ => false end));
  match ob with
  | None => match l with [] => Ok (None, a) | _ => Undef end
  | Some b =>
      match k, l with
      | KReloc, _ :: _ => Undef
      | _, _ => do (b1, a1) <- write_list b a i l; Ok (Some b1, a1)
      end
  end.

(** hpp:122-138 copy_range between two buffers, [n] elements from 0 to 0. *)
Fixpoint copy_loop (src : buf) (b : buf) (a : acct) (i : Z) (n : nat) : res (buf * acct) :=
  match n with
  | O => Ok (b, a)
  | S m => do v <- read src i; do (b1, a1) <- construct b a i v; copy_loop src b1 a1 (i + 1) m
  end.
Definition copy_range (src b : buf) (a : acct) (n : Z) : res (buf * acct) :=
  do _ <- assert (0 <? n);
  match k with
  | KReloc => Undef
  | KTriv =>
      if in_range src 0 n && in_range b 0 n
      then Ok ({| b_len := b_len b; b_at := fun j => if (0 <=? j) && (j <? n) then b_at src j else b_at b j |}, a)
      else Undef
  | _ => copy_loop src b a 0 (Z.to_nat n)
  end.

(** hpp:140-162 copy_value / copy_cref *)
Definition copy_value (b : buf) (a : acct) (i v : Z) : res (buf * acct) :=
  if is_relocatable k then do b1 <- store b i v; Ok (b1, a) else construct b a i v.

(** new (dst) T(std::move( *src)) resp. T( *src), src->~T(), one element, two buffers. *)
Definition transfer (src dst : buf) (a : acct) (i j : Z) : res (buf * buf * acct) :=
  do v <- read src i;
  do (d1, a1) <- construct dst a j v;
  match k with
  | KMove => Ok (set src i Moved, d1, a1)
  | KCopy => do (s1, a2) <- kill src a1 i; Ok (s1, d1, a2)
  | _ => Ok (src, d1, a1)
  end.
Fixpoint transfer_loop (src dst : buf) (a : acct) (i : Z) (n : nat) : res (buf * buf * acct) :=
  match n with
  | O => Ok (src, dst, a)
  | S m => do (s1, d1, a1) <- transfer src dst a i i; transfer_loop s1 d1 a1 (i + 1) m
  end.
(** hpp:207-228 move_range_without_overlap, [n] elements from 0 to 0. *)
Definition move_range_without_overlap (src dst : buf) (a : acct) (n : Z) : res (buf * buf * acct) :=
  if is_relocatable k then
    if in_range src 0 n && in_range dst 0 n
    then Ok (src, {| b_len := b_len dst; b_at := fun j => if (0 <=? j) && (j <? n) then b_at src j else b_at dst j |}, a)
    else Undef
  else transfer_loop src dst a 0 (Z.to_nat n).

(** The same inside one buffer. *)
Definition shift_one (b : buf) (a : acct) (i j : Z) : res (buf * acct) :=
  do v <- read b i;
  match k with
  | KMove => construct (set b i Moved) a j v
  | KCopy => do (b1, a1) <- construct b a j v; kill b1 a1 i
  | _ => construct b a j v
  end.
(** Elements s .. s+n-1 to d .. d+n-1, front to end. *)
Fixpoint shift_up (b : buf) (a : acct) (d s : Z) (n : nat) : res (buf * acct) :=
  match n with
  | O => Ok (b, a)
  | S m => do (b1, a1) <- shift_one b a s d; shift_up b1 a1 (d + 1) (s + 1) m
  end.
(** End to front. *)
Fixpoint shift_down (b : buf) (a : acct) (d s : Z) (n : nat) : res (buf * acct) :=
  match n with
  | O => Ok (b, a)
  | S m => do (b1, a1) <- shift_one b a (s + Z.of_nat m) (d + Z.of_nat m); shift_down b1 a1 d s m
  end.
(** hpp:230-255 move_range_forward(dst, src, src_end) *)
Definition move_range_forward (b : buf) (a : acct) (d s e : Z) : res (buf * acct) :=
  do _ <- assert (s <=? e);
  do _ <- assert ((d <? s) || (e <=? d));
  if is_relocatable k then
    if in_range b s (e - s) && in_range b d (e - s)
    then Ok ({| b_len := b_len b; b_at := fun j => if (d <=? j) && (j <? d + (e - s)) then b_at b (j - d + s) else b_at b j |}, a)
    else Undef
  else shift_up b a d s (Z.to_nat (e - s)).
(** hpp:471-481 move_forward *)
Definition move_forward (b : buf) (a : acct) (d s finish : Z) : res (buf * acct) :=
  do _ <- assert (negb (d =? s));
  move_range_forward b a d s finish.
(** hpp:483-515 move_backward; for relocatable types an assignment loop. *)
Fixpoint store_down (b : buf) (d s : Z) (n : nat) : res buf :=
  match n with
  | O => Ok b
  | S m => do v <- read b (s + Z.of_nat m); do b1 <- store b (d + Z.of_nat m) v; store_down b1 d s m
  end.
Definition move_backward (b : buf) (a : acct) (d s finish : Z) : res (buf * acct) :=
  do _ <- assert (s <? finish - 1);
  do _ <- assert (negb (d =? s));
  if is_relocatable k then do b1 <- store_down b d s (Z.to_nat (finish - s)); Ok (b1, a)
  else shift_down b a d s (Z.to_nat (finish - s)).

(** std::malloc( n * sizeof(T) ): [mal bytes] says whether it succeeds; the
    product is computed in 64 bits. *)
Section Malloc.
Variable mal : Z -> bool.
Definition malloc (n : Z) : option buf :=
  let bytes := mul64 n sz in
  if mal bytes then Some {| b_len := bytes / sz; b_at := fun _ => Raw |} else None.

(** hpp:304-311 allocate; [None] = bad_alloc *)
Definition allocate (cap : Z) : res (option buf) := do _ <- assert (0 <? cap); Ok (malloc cap).

(** hpp:264-281 realloc_with_move; result [None] = bad_alloc, else
    (pointer, new_finish as index).  The malloc for a null pointer is unchecked. *)
Definition realloc_with_move (ptr : option buf) (a : acct) (old_size new_size : Z)
  : res (option (option buf * Z * acct)) :=
  match ptr with
  | None => do _ <- assert (old_size =? 0); Ok (Some (malloc new_size, 0, a))
  | Some b =>
      do _ <- assert (0 <? new_size);
      match malloc new_size with
      | None => Ok None
      | Some nb =>
          let n := Z.min old_size new_size in
          do (ob, nb1, a1) <- move_range_without_overlap b nb a n;
          Ok (Some (Some nb1, n, free_buf (Some ob) a1))
      end
  end.

(** hpp:423-430 realloc_with_old_data; throwing leaves the vector as it was. *)
Definition realloc_with_old_data (b : option buf) (size cap : Z) (a : acct) (new_cap : Z) : res (vec * acct * bool) :=
  do _ <- assert (size <=? new_cap);
  do r <- realloc_with_move b a size new_cap;
  match r with
  | None => Ok (Vec b size cap, a, false)
  | Some (nb, fin, a1) => Ok (Vec nb fin new_cap, a1, true)
  end.

(** State after a throwing allocate(): _start has been overwritten by null. *)
Definition after_failed_allocate (b : option buf) : vec :=
  match b with None => Vec None 0 0 | Some _ => Broken end.

(** hpp:432-450 realloc_and_emplace_back; the old objects leak when it throws. *)
Definition realloc_and_emplace_back (b : option buf) (size cap : Z) (a : acct) (new_cap : Z) (r : ref)
  : res (vec * acct * outc) :=
  do _ <- assert (size <? new_cap);
  do m <- allocate new_cap;
  match m with
  | None => Ok (after_failed_allocate b, free_buf b a, Threw)
  | Some nb =>
      do v <- read_ref b r;
      do (nb1, a1) <- construct nb a size v;
      do (nb2, a2) <-
        (if 0 <? size then
           match b with
           | None => Undef
           | Some ob => do (ob1, nb2, a2) <- move_range_without_overlap ob nb1 a1 size; Ok (nb2, free_buf (Some ob1) a2)
           end
         else Ok (nb1, free_buf b a1));
      Ok (Vec (Some nb2) (size + 1) new_cap, a2, Done size)
  end.

(** hpp:386-391 ~core *)
Definition core_destroy (b : option buf) (size : Z) (a : acct) : res acct :=
  match b with
  | None => match k with KTriv => Ok a | _ => if 0 <? size then Undef else Ok a end
  | Some bf => do (b1, a1) <- destroy_range bf a 0 (Z.to_nat size); Ok (free_buf (Some b1) a1)
  end.

(** hpp:458-465 destroy *)
Definition core_clear (b : option buf) (size cap : Z) (a : acct) : res (option buf * acct) :=
  do _ <- assert (size <=? cap);
  match b with
  | None => match k with KTriv => Ok (b, a) | _ => if 0 <? size then Undef else Ok (b, a) end
  | Some bf => do (b1, a1) <- destroy_range bf a 0 (Z.to_nat size); Ok (Some b1, a1)
  end.

(** hpp:452-456 realloc_drop_old_data; [None] = threw *)
Definition realloc_drop_old_data (b : option buf) (size : Z) (a : acct) (new_cap : Z) : res (option buf * acct) :=
  do a1 <- core_destroy b size a;
  do m <- allocate new_cap;
  Ok (m, a1).

(** hpp:297-298 kFastVectorInitCapacity; hpp:1372-1394 *)
Definition init_capacity : Z := if 64 <=? sz then 1 else 64 / sz.
Definition next_capacity (cap : Z) : Z :=
  if (cap <? 131072 / sz) && (init_capacity <=? cap) then add64 (mul64 cap 3) 1 / 2
  else if 131072 / sz <=? cap then mul64 cap 2
  else init_capacity.
Definition compute_new_capacity (cap new_size : Z) : res Z :=
  do _ <- assert (cap <? new_size);
  Ok (if new_size <? next_capacity cap then next_capacity cap else new_size).

(** hpp:409-412 full() *)
Definition full (size cap : Z) : res bool := do _ <- assert (size <=? cap); Ok (size =? cap).

Definition need (b : option buf) : res buf := match b with Some x => Ok x | None => Undef end.

(** Make room for [n] more elements before an insertion (hpp:1205-1211,
    1263-1269, 1293-1301, 1324-1331, 892-896): None = threw; the flag says whether the buffer moved. *)
Definition grow_for (safe : bool) (b : option buf) (size cap : Z) (a : acct) (one : bool) (n : Z)
  : res (option buf * Z * Z * acct * bool * bool) :=      (* buf, size, cap, acct, threw, moved *)
  if safe then
    do f <- (if one then full size cap else Ok (cap <? add64 size n));
    if f : bool then
      do want <- (if one then Ok (next_capacity cap) else compute_new_capacity cap (add64 size n));
      (* hpp:687-692 reserve *)
      if cap <? want then
        do (v, a1, ok) <- realloc_with_old_data b size cap a want;
        match v with
        | Vec b1 s1 c1 => Ok (b1, s1, c1, a1, negb ok, ok)
        | Broken => Undef
        end
      else Ok (b, size, cap, a, false, false)
    else Ok (b, size, cap, a, false, false)
  else Ok (b, size, cap, a, false, false).

(** Shift [pos, size) right by [n] (the choice between the two directions). *)
Definition open_gap (b : buf) (a : acct) (pos n size : Z) : res (buf * acct) :=
  if size <=? pos + n then move_forward b a (pos + n) pos size else move_backward b a (pos + n) pos size.
(** insert(pos, value) and emplace choose by pos < _finish - 1. *)
Definition open_gap1 (b : buf) (a : acct) (pos size : Z) : res (buf * acct) :=
  if pos <? size - 1 then move_backward b a (pos + 1) pos size else move_forward b a (pos + 1) pos size.

(** hpp:1019-1082 erase(value) and hpp:1084-1151 erase_if: the common loop.
    [test b v]: should the element with value [v] go (may read through a
    reference into [b]). *)
Fixpoint erase_loop (test : buf -> Z -> res bool) (b : buf) (a : acct) (src dst erased : Z) (n : nat)
  : res (buf * acct * Z) :=
  match n with
  | O => Ok (b, a, erased)
  | S m =>
      do v <- read b src;
      do t <- test b v;
      if t : bool then
        do (b1, a1) <- (if is_relocatable k then Ok (b, a) else kill b a src);
        erase_loop test b1 a1 (src + 1) dst (erased + 1) m
      else
        do (b1, a1) <-
          (if dst =? src then Ok (b, a)
           else if is_relocatable k then do b1 <- store b dst v; Ok (b1, a)
           else shift_one b a src dst);
        erase_loop test b1 a1 (src + 1) (dst + 1) erased m
  end.

Definition lift (v : vec) (a : acct) (ok : bool) (r : Z) : res (vec * acct * outc) :=
  Ok (v, a, if ok then Done r else Threw).

(** Client writing [l] to the slots [i, i+length l) it was given. *)
Definition client_write (b : option buf) (a : acct) (i : Z) (l : list Z) : res (option buf * acct) :=
  match l with
  | [] => Ok (b, a)
  | _ => do bf <- need b; do (b1, a1) <- write_list bf a i l; Ok (Some b1, a1)
  end.

Definition run_uop (v : vec) (a : acct) (o : uop) : res (vec * acct * outc) :=
  match v with
  | Broken => Undef
  | Vec b size cap =>
      match o with
      (* hpp:596-609 *)
      | UAssignN n r =>
          if cap <? n then
            do (m, a1) <- realloc_drop_old_data b size a n;
            match m with
            | None => Ok (after_failed_allocate b, a1, Threw)
            | Some nb =>
                do (b1, a2) <- construct_range_with_cref (Some nb) a1 0 n r true;
                Ok (Vec b1 n n, a2, Done 0)
            end
          else
            do (b1, a1) <- core_clear b size cap a;
            do (b2, a2) <- construct_range_with_cref b1 a1 0 n r false;
            Ok (Vec b2 n cap, a2, Done 0)
      (* hpp:611-631; with an empty range _finish is not updated *)
      | UAssignRange l =>
          if cap <? len l then
            do (m, a1) <- realloc_drop_old_data b size a (len l);
            match m with
            | None => Ok (after_failed_allocate b, a1, Threw)
            | Some nb =>
                do (b1, a2) <- copy_from_iterator (Some nb) a1 0 l;
                Ok (Vec b1 (len l) (len l), a2, Done 0)
            end
          else
            do (b1, a1) <- core_clear b size cap a;
            if 0 <? len l then
              do (b2, a2) <- copy_from_iterator b1 a1 0 l;
              Ok (Vec b2 (len l) cap, a2, Done 0)
            else Ok (Vec b1 size cap, a1, Done 0)
      (* hpp:666-679 *)
      | UShrink =>
          if size =? cap then Ok (v, a, Done 0)
          else if size =? 0 then do a1 <- core_destroy b size a; Ok (Vec None 0 0, a1, Done 0)
          else do (v1, a1, ok) <- realloc_with_old_data b size cap a size; lift v1 a1 ok 0
      (* hpp:687-692 *)
      | UReserve n =>
          if cap <? n then do (v1, a1, ok) <- realloc_with_old_data b size cap a n; lift v1 a1 ok 0
          else Ok (v, a, Done 0)
      (* hpp:890-902 *)
      | UFill safe n l =>
          do (b1, s1, c1, a1, threw, _) <- grow_for safe b size cap a false n;
          if threw : bool then Ok (v, a, Threw) else
          do (b2, a2) <- client_write b1 a1 s1 l;
          Ok (Vec b2 (s1 + len l) c1, a2, Done 0)
      (* hpp:906-916 (the comparison of pointers is taken as a comparison of indices): the new capacity is computed from the buffer size alone *)
      | UWriteBuffer safe l =>
          let n := len l in
          do (b1, s1, c1, a1, threw) <-
            (if safe && (cap <? size + n) then
               do want <- compute_new_capacity cap n;
               do (v1, a1, ok) <- realloc_with_old_data b size cap a want;
               match v1 with
               | Vec b1 s1 c1 => Ok (b1, s1, c1, a1, negb ok)
               | Broken => Undef
               end
             else Ok (b, size, cap, a, false));
          if threw : bool then Ok (v, a, Threw) else
          do (b2, a2) <- client_write b1 a1 s1 l;
          Ok (Vec b2 (s1 + n) c1, a2, Done s1)
      (* hpp:921-949 *)
      | UPush safe r =>
          do f <- full size cap;
          if safe && f then
            do (v1, a1, o) <- realloc_and_emplace_back b size cap a (next_capacity cap) r;
            Ok (v1, a1, match o with Done _ => Done 0 | Threw => Threw end)
          else
            do _ <- assert (negb f);
            do bf <- need b;
            do x <- read_ref b r;
            do (b1, a1) <- copy_value bf a size x;
            Ok (Vec (Some b1) (size + 1) cap, a1, Done 0)
      | UPushMove safe x =>
          do f <- full size cap;
          if safe && f then
            do (v1, a1, o) <- realloc_and_emplace_back b size cap a (next_capacity cap) (Val x);
            Ok (v1, a1, match o with Done _ => Done 0 | Threw => Threw end)
          else
            do _ <- assert (negb f);
            do bf <- need b;
            do (b1, a1) <- copy_value bf a size x;
            Ok (Vec (Some b1) (size + 1) cap, a1, Done 0)
      (* hpp:951-965 *)
      | UEmplaceBack safe r =>
          do f <- full size cap;
          if safe && f then realloc_and_emplace_back b size cap a (next_capacity cap) r
          else
            do _ <- assert (negb f);
            do bf <- need b;
            do x <- read_ref b r;
            do (b1, a1) <- construct bf a size x;
            Ok (Vec (Some b1) (size + 1) cap, a1, Done size)
      (* hpp:967-970 *)
      | UClear => do (b1, a1) <- core_clear b size cap a; Ok (Vec b1 0 cap, a1, Done 0)
      (* hpp:972-989 *)
      | UErase pos =>
          do _ <- assert ((0 <=? pos) && (pos <? size));
          do bf <- need b;
          do (b1, a1) <- kill bf a pos;
          do (b2, a2) <- move_forward b1 a1 pos (pos + 1) size;
          Ok (Vec (Some b2) (size - 1) cap, a2, Done pos)
      (* hpp:991-1017: returns [last] *)
      | UEraseRange first last =>
          do _ <- assert ((0 <=? first) && (last <=? size));
          do _ <- assert (first <=? last);
          if first =? last then Ok (v, a, Done last) else
          do bf <- need b;
          do (b1, a1) <- destroy_range bf a first (Z.to_nat (last - first));
          do (b2, a2) <- move_forward b1 a1 first last size;
          Ok (Vec (Some b2) (size - (last - first)) cap, a2, Done last)
      | UEraseVal r =>
          match b with
          | None => if 0 <? size then Undef else Ok (v, a, Done 0)
          | Some bf =>
              do (b1, a1, n) <- erase_loop (fun b' x => do y <- read_ref (Some b') r; Ok (x =? y)) bf a 0 0 0 (Z.to_nat size);
              Ok (Vec (Some b1) (size - n) cap, a1, Done n)
          end
      | UEraseIf p =>
          match b with
          | None => if 0 <? size then Undef else Ok (v, a, Done 0)
          | Some bf =>
              do (b1, a1, n) <- erase_loop (fun _ x => Ok (p x)) bf a 0 0 0 (Z.to_nat size);
              Ok (Vec (Some b1) (size - n) cap, a1, Done n)
          end
      (* assignment to the reference from operator[] or at, hpp:414-421, 697-714 *)
      | USet pos r =>
          do _ <- assert ((0 <=? pos) && (pos <? size));
          do bf <- need b;
          do x <- read_ref (Some bf) r;
          do b1 <- store bf pos x;
          Ok (Vec (Some b1) size cap, a, Done 0)
      (* hpp:1153-1156; popping an empty vector moves _finish before _start *)
      | UPop =>
          if size =? 0 then Undef else
          do bf <- need b;
          do (b1, a1) <- kill bf a (size - 1);
          Ok (Vec (Some b1) (size - 1) cap, a1, Done 0)
      (* hpp:1158-1179 *)
      | UResize n =>
          if size <? n then
            do (v1, a1, ok) <- (if cap <? n then realloc_with_old_data b size cap a n else Ok (v, a, true));
            if negb ok then Ok (v1, a1, Threw) else
            match v1 with
            | Broken => Undef
            | Vec b1 s1 c1 => do (b2, a2) <- construct_range_with_cref b1 a1 s1 n (Val dflt) false; Ok (Vec b2 n c1, a2, Done 0)
            end
          else
            match b with
            | None => if n <? size then Undef else Ok (v, a, Done 0)
            | Some bf => do (b1, a1) <- destroy_range bf a n (Z.to_nat (size - n)); Ok (Vec (Some b1) n cap, a1, Done 0)
            end
      | UResizeUnsafe l =>
          let n := size + len l in
          if size <? n then
            do (v1, a1, ok) <- (if cap <? n then realloc_with_old_data b size cap a n else Ok (v, a, true));
            if negb ok then Ok (v1, a1, Threw) else
            match v1 with
            | Broken => Undef
            | Vec b1 s1 c1 => do (b2, a2) <- client_write b1 a1 s1 l; Ok (Vec b2 n c1, a2, Done 0)
            end
          else Ok (v, a, Done 0)
      (* hpp:1181-1197 *)
      | UResizeVal n r =>
          if size <? n then
            do (v1, a1, ok) <- (if cap <? n then realloc_with_old_data b size cap a n else Ok (v, a, true));
            if negb ok then Ok (v1, a1, Threw) else
            match v1 with
            | Broken => Undef
            | Vec b1 s1 c1 => do (b2, a2) <- construct_range_with_cref b1 a1 s1 n r (cap <? n); Ok (Vec b2 n c1, a2, Done 0)
            end
          else
            match b with
            | None => if n <? size then Undef else Ok (v, a, Done 0)
            | Some bf => do (b1, a1) <- destroy_range bf a n (Z.to_nat (size - n)); Ok (Vec (Some b1) n cap, a1, Done 0)
            end
      (* hpp:1201-1226 *)
      | UInsert safe pos r =>
          do _ <- assert ((0 <=? pos) && (pos <=? size));
          do (b1, s1, c1, a1, threw, moved) <- grow_for safe b size cap a true 1;
          if threw : bool then Ok (v, a, Threw) else
          do f <- full s1 c1;
          do _ <- assert (negb f);
          do bf <- need b1;
          do (b2, a2) <- (if pos =? s1 then Ok (bf, a1) else open_gap1 bf a1 pos s1);
          do x <- read_ref (if moved then None else Some b2) r;
          do (b3, a3) <- copy_value b2 a2 pos x;
          Ok (Vec (Some b3) (s1 + 1) c1, a3, Done pos)
      (* hpp:1229-1255 *)
      | UInsertMove safe pos x =>
          do _ <- assert ((0 <=? pos) && (pos <=? size));
          do (b1, s1, c1, a1, threw, moved) <- grow_for safe b size cap a true 1;
          if threw : bool then Ok (v, a, Threw) else
          do f <- full s1 c1;
          do _ <- assert (negb f);
          do bf <- need b1;
          do (b2, a2) <- (if pos =? s1 then Ok (bf, a1) else open_gap1 bf a1 pos s1);
          do (b3, a3) <- copy_value b2 a2 pos x;
          Ok (Vec (Some b3) (s1 + 1) c1, a3, Done pos)
      (* hpp:1257-1281 *)
      | UInsertN safe pos n r =>
          do _ <- assert (0 <? n);
          do _ <- assert ((0 <=? pos) && (pos <=? size));
          do (b1, s1, c1, a1, threw, moved) <- grow_for safe b size cap a false n;
          if threw : bool then Ok (v, a, Threw) else
          do _ <- assert (add64 s1 n <=? c1);
          do bf <- need b1;
          if b_len bf <? pos + n then Undef else      (* pointer outside the buffer *)
          do (b2, a2) <- open_gap bf a1 pos n s1;
          do (b3, a3) <- construct_range_with_cref (Some b2) a2 pos (pos + n) r moved;
          Ok (Vec b3 (s1 + n) c1, a3, Done pos)
      (* hpp:1283-1318 *)
      | UInsertRange safe pos l =>
          let n := len l in
          if n =? 0 then Ok (v, a, Done pos) else
          do (b1, s1, c1, a1, threw, moved) <- grow_for safe b size cap a false n;
          if threw : bool then Ok (v, a, Threw) else
          do _ <- assert (add64 s1 n <=? c1);
          do bf <- need b1;
          if b_len bf <? pos + n then Undef else
          do (b2, a2) <- open_gap bf a1 pos n s1;
          do (b3, a3) <- copy_from_iterator (Some b2) a2 pos l;
          Ok (Vec b3 (s1 + n) c1, a3, Done pos)
      (* hpp:1321-1369, both overloads *)
      | UEmplace safe pos r =>
          do (b1, s1, c1, a1, threw, moved) <- grow_for safe b size cap a true 1;
          if threw : bool then Ok (v, a, Threw) else
          do f <- full s1 c1;
          do _ <- assert (negb f);
          do bf <- need b1;
          do (b2, a2) <- (if pos =? s1 then Ok (bf, a1) else open_gap1 bf a1 pos s1);
          do x <- read_ref (if moved then None else Some b2) r;
          do (b3, a3) <- construct b2 a2 pos x;
          Ok (Vec (Some b3) (s1 + 1) c1, a3, Done pos)
      end
  end.

(** Several vectors ([None] = destroyed or never constructed). *)
Record vsys := { vs : list (option vec); vacct : acct }.
Definition vget (s : vsys) (i : nat) : res vec :=
  match nth_error (vs s) i with Some (Some v) => Ok v | _ => Undef end.
Fixpoint vupd (i : nat) (x : option vec) (l : list (option vec)) : list (option vec) :=
  match l, i with [], _ => [] | _ :: r, O => x :: r | y :: r, S j => y :: vupd j x r end.

(** A constructor that throws leaves no object. *)
Definition vpush (s : vsys) (v : option vec) (a : acct) (o : outc) : res (vsys * outc) :=
  Ok ({| vs := vs s ++ [v]; vacct := a |}, o).

Definition vstep (s : vsys) (o : vop) : res (vsys * outc) :=
  let a := vacct s in
  match o with
  | VNew => vpush s (Some (Vec None 0 0)) a (Done 0)
  (* hpp:316-324, 547-557 *)
  | VNewN n =>
      if 0 <? n then
        do m <- allocate n;
        match m with
        | None => vpush s None a Threw
        | Some b => do (b1, a1) <- construct_range_with_cref (Some b) a 0 n (Val dflt) false;
                    vpush s (Some (Vec b1 n n)) a1 (Done 0)
        end
      else vpush s (Some (Vec None 0 0)) a (Done 0)
  | VNewFill n x =>
      if 0 <? n then
        do m <- allocate n;
        match m with
        | None => vpush s None a Threw
        | Some b => do (b1, a1) <- construct_range_with_cref (Some b) a 0 n (Val x) false;
                    vpush s (Some (Vec b1 n n)) a1 (Done 0)
        end
      else vpush s (Some (Vec None 0 0)) a (Done 0)
  (* hpp:559-572 *)
  | VNewRange l =>
      if 0 <? len l then
        do m <- allocate (len l);
        match m with
        | None => vpush s None a Threw
        | Some b => do (b1, a1) <- copy_from_iterator (Some b) a 0 l;
                    vpush s (Some (Vec b1 (len l) (len l))) a1 (Done 0)
        end
      else vpush s (Some (Vec None 0 0)) a (Done 0)
  (* hpp:326-335 *)
  | VCopy j =>
      do v <- vget s j;
      match v with
      | Broken => Undef
      | Vec b size _ =>
          if 0 <? size then
            do m <- allocate size;
            match m with
            | None => vpush s None a Threw
            | Some nb => do src <- need b; do (b1, a1) <- copy_range src nb a size;
                         vpush s (Some (Vec (Some b1) size size)) a1 (Done 0)
            end
          else vpush s (Some (Vec None 0 0)) a (Done 0)
      end
  (* hpp:337-341 *)
  | VMove j =>
      do v <- vget s j;
      Ok ({| vs := vupd j (Some (Vec None 0 0)) (vs s) ++ [Some v]; vacct := a |}, Done 0)
  (* hpp:343-371 *)
  | VAssign i j =>
      do v <- vget s i;
      do w <- vget s j;
      if (i =? j)%nat then Ok (s, Done 0) else
      match v, w with
      | Vec b size cap, Vec wb wsize _ =>
          if cap <? wsize then
            do a1 <- core_destroy b size a;
            do m <- allocate wsize;
            match m with
            | None => Ok ({| vs := vupd i (Some (after_failed_allocate b)) (vs s); vacct := a1 |}, Threw)
            | Some nb => do src <- need wb; do (b1, a2) <- copy_range src nb a1 wsize;
                         Ok ({| vs := vupd i (Some (Vec (Some b1) wsize wsize)) (vs s); vacct := a2 |}, Done 0)
            end
          else
            do (b1, a1) <- core_clear b size cap a;
            if 0 <? wsize then
              do src <- need wb; do d <- need b1; do (b2, a2) <- copy_range src d a1 wsize;
              Ok ({| vs := vupd i (Some (Vec (Some b2) wsize cap)) (vs s); vacct := a2 |}, Done 0)
            else Ok ({| vs := vupd i (Some (Vec b1 0 cap)) (vs s); vacct := a1 |}, Done 0)
      | _, _ => Undef
      end
  (* hpp:372-385 *)
  | VAssignMove i j =>
      do v <- vget s i;
      do w <- vget s j;
      if (i =? j)%nat then Ok (s, Done 0) else
      match v with
      | Broken => Undef
      | Vec b size cap =>
          do a1 <- core_destroy b size a;
          Ok ({| vs := vupd j (Some (Vec None 0 0)) (vupd i (Some w) (vs s)); vacct := a1 |}, Done 0)
      end
  (* hpp:393-397 *)
  | VSwap i j =>
      do v <- vget s i;
      do w <- vget s j;
      Ok ({| vs := vupd j (Some v) (vupd i (Some w) (vs s)); vacct := a |}, Done 0)
  | VDestroy i =>
      do v <- vget s i;
      match v with
      | Broken => match k with KTriv => Ok ({| vs := vupd i None (vs s); vacct := a |}, Done 0) | _ => Undef end
      | Vec b size _ =>
          do a1 <- core_destroy b size a;
          Ok ({| vs := vupd i None (vs s); vacct := a1 |}, Done 0)
      end
  | VOn i o =>
      do v <- vget s i;
      do (v1, a1, r) <- run_uop v a o;
      Ok ({| vs := vupd i (Some v1) (vs s); vacct := a1 |}, r)
  end.
End Malloc.

(** hpp:414-421 at, hpp:697-740 operator[], front, back *)
Definition vat (v : vec) (i : Z) : res Z :=
  match v with
  | Broken => Undef
  | Vec b size _ => do _ <- assert ((0 <=? i) && (i <? size)); do bf <- need b; read bf i
  end.
Definition vfront (v : vec) : res Z :=
  match v with Broken => Undef | Vec b size _ => do _ <- assert (0 <? size); do bf <- need b; read bf 0 end.
Definition vback (v : vec) : res Z :=
  match v with Broken => Undef | Vec b size _ => do _ <- assert (0 <? size); do bf <- need b; read bf (size - 1) end.
Definition vsize (v : vec) : res Z := match v with Broken => Undef | Vec _ size _ => Ok size end.
Definition vcapacity (v : vec) : res Z := match v with Broken => Undef | Vec _ _ cap => Ok cap end.
Definition vempty (v : vec) : res bool := match v with Broken => Undef | Vec _ size _ => Ok (size =? 0) end.
(** Range-for over [begin(), end()). *)
Fixpoint read_all (b : buf) (i : Z) (n : nat) : res (list Z) :=
  match n with O => Ok [] | S m => do v <- read b i; do r <- read_all b (i + 1) m; Ok (v :: r) end.
Definition viterate (v : vec) : res (list Z) :=
  match v with
  | Broken => Undef
  | Vec None size _ => if size =? 0 then Ok [] else Undef
  | Vec (Some b) size _ => read_all b 0 (Z.to_nat size)
  end.

(** hpp:1397-1408 operator== *)
Fixpoint eq_loop (v w : vec) (i : Z) (n : nat) : res bool :=
  match n with
  | O => Ok true
  | S m => do x <- vat v i; do y <- vat w i; if negb (x =? y) then Ok false else eq_loop v w (i + 1) m
  end.
Definition vec_eq (v w : vec) : res bool :=
  do n <- vsize v; do m <- vsize w;
  if negb (n =? m) then Ok false else eq_loop v w 0 (Z.to_nat n).
(** hpp:1410-1428 operator<=> *)
Fixpoint cmp_loop (v w : vec) (i : Z) (n : nat) : res (option comparison) :=
  match n with
  | O => Ok None
  | S m =>
      do x <- vat v i; do y <- vat w i;
      if x <? y then Ok (Some Lt) else if y <? x then Ok (Some Gt) else cmp_loop v w (i + 1) m
  end.
Definition vec_cmp (v w : vec) : res comparison :=
  do n <- vsize v; do m <- vsize w;
  do r <- cmp_loop v w 0 (Z.to_nat (Z.min n m));
  match r with
  | Some c => Ok c
  | None => if n <? m then Ok Lt else if m <? n then Ok Gt else Ok Eq
  end.
End Kind.

Definition no_acct : acct := {| n_con := 0; n_des := 0; n_lost := 0; n_gone := 0 |}.
Definition vinit : vsys := {| vs := []; vacct := no_acct |}.
