(** Model of container/stdb_vector.hpp when constructors of elements throw.

    [left]: how many constructions of elements from a caller's argument still
    succeed; the next one throws.  Moving and copying elements that are already
    in the vector does not throw: the move constructor must be noexcept where
    elements are shifted (hpp:242, 499), and the reallocation is noexcept
    (hpp:209).  The by-value overloads push_back(T&&) and insert(pos, T&&) only
    move (hpp:141) and do not throw either.  The kinds with a counted lifetime
    are meant; the others do not construct. *)
Require Import ZArith List Bool.
From Verif Require Import Base VecSpec VecModel.
Import ListNotations.
Open Scope Z_scope.

(** [Torn]: _start points to a new buffer, _finish into a freed one or is null. *)
Inductive state := Whole (v : vec) | Torn.
(** Returned, bad_alloc, exception of an element constructor. *)
Inductive tout := TDone (r : Z) | TNoMem | TElem.
Definition of_outc (o : outc) : tout := match o with Done r => TDone r | Threw => TNoMem end.

Section Throw.
Variable k : kind.
Variable sz : Z.
Variable dbg : bool.
Variable mal : Z -> bool.

(** hpp:116-118, 100-102: the loops of construct_range_with_cref and
    construct_range; [false]: the exception left the loop. *)
Fixpoint fill_t (b : buf) (a : acct) (i : Z) (n : nat) (r : ref) (dangling : bool) (left : nat)
  : res (buf * acct * bool) :=
  match n with
  | O => Ok (b, a, true)
  | S m =>
      do v <- read_ref (if dangling then None else Some b) r;
      match left with
      | O => Ok (b, a, false)
      | S left' => do (b1, a1) <- construct k b a i v; fill_t b1 a1 (i + 1) m r dangling left'
      end
  end.
(** hpp:106-120 *)
Definition cref_t (ob : option buf) (a : acct) (first last : Z) (r : ref) (dangling : bool) (left : nat)
  : res (option buf * acct * bool) :=
  do _ <- assert dbg (match ob with Some _ => true | None => false end);
  do _ <- assert dbg (first <? last);
  match ob with
  | None => if first <? last then Undef else Ok (None, a, true)
  | Some b => do (b1, a1, ok) <- fill_t b a first (Z.to_nat (last - first)) r dangling left; Ok (Some b1, a1, ok)
  end.
(** hpp:177-179, the loop of copy_from_iterator *)
Fixpoint write_t (b : buf) (a : acct) (i : Z) (l : list Z) (left : nat) : res (buf * acct * bool) :=
  match l with
  | [] => Ok (b, a, true)
  | v :: r =>
      match left with
      | O => Ok (b, a, false)
      | S left' => do (b1, a1) <- construct k b a i v; write_t b1 a1 (i + 1) r left'
      end
  end.
(** hpp:167-181 *)
Definition from_iter_t (ob : option buf) (a : acct) (i : Z) (l : list Z) (left : nat) : res (option buf * acct * bool) :=
  do _ <- assert dbg (match ob with Some _ => true | None => false end);
  do _ <- assert dbg (negb (match l with [] => true | _ => false end));
  match ob with
  | None => match l with [] => Ok (None, a, true) | _ => Undef end
  | Some b => do (b1, a1, ok) <- write_t b a i l left; Ok (Some b1, a1, ok)
  end.
(** hpp:133-135, the loop of copy_range *)
Fixpoint copy_t (src b : buf) (a : acct) (i : Z) (n : nat) (left : nat) : res (buf * acct * bool) :=
  match n with
  | O => Ok (b, a, true)
  | S m =>
      do v <- read src i;
      match left with
      | O => Ok (b, a, false)
      | S left' => do (b1, a1) <- construct k b a i v; copy_t src b1 a1 (i + 1) m left'
      end
  end.
(** hpp:122-138 *)
Definition copy_range_t (src b : buf) (a : acct) (n : Z) (left : nat) : res (buf * acct * bool) :=
  do _ <- assert dbg (0 <? n);
  copy_t src b a 0 (Z.to_nat n) left.
(** new (p) T(v) for a single element, hpp:160, 443, 515, 1334, 1342 *)
Definition new_t (b : buf) (a : acct) (i v : Z) (left : nat) : res (buf * acct * bool) :=
  match left with
  | O => Ok (b, a, false)
  | S _ => do (b1, a1) <- construct k b a i v; Ok (b1, a1, true)
  end.

(** hpp:432-450 realloc_and_emplace_back: when the constructor throws, the new
    buffer is in place with _finish behind the missing element, the old buffer
    and its elements are leaked. *)
Definition emplace_back_t (b : option buf) (size cap : Z) (a : acct) (new_cap : Z) (r : ref) (left : nat)
  : res (state * acct * tout) :=
  match left with
  | S _ => do (v, a1, o) <- realloc_and_emplace_back k sz dbg mal b size cap a new_cap r; Ok (Whole v, a1, of_outc o)
  | O =>
      do _ <- assert dbg (size <? new_cap);
      do m <- allocate sz dbg mal new_cap;
      match m with
      | None => Ok (Whole (after_failed_allocate b), free_buf k b a, TNoMem)
      | Some nb => do _ <- read_ref b r; Ok (Whole (Vec (Some nb) (size + 1) new_cap), free_buf k b a, TElem)
      end
  end.

(** The rest of insert(pos, value) and emplace(pos, args) after making room,
    hpp:1212-1226, 1332-1344, 1354-1368: at the end _finish moves first, in the
    middle it moves after the construction. *)
Definition put_t (b1 : option buf) (s1 c1 : Z) (a1 : acct) (pos : Z) (r : ref) (moved : bool) (left : nat)
  : res (state * acct * tout) :=
  do f <- full dbg s1 c1;
  do _ <- assert dbg (negb f);
  do bf <- need b1;
  do (b2, a2) <- (if pos =? s1 then Ok (bf, a1) else open_gap1 k dbg bf a1 pos s1);
  do x <- read_ref (if moved then None else Some b2) r;
  do (b3, a3, ok) <- new_t b2 a2 pos x left;
  if ok : bool then Ok (Whole (Vec (Some b3) (s1 + 1) c1), a3, TDone pos)
  else Ok (Whole (Vec (Some b3) (if pos =? s1 then s1 + 1 else s1) c1), a3, TElem).

(** Growing resize, hpp:1160-1168, 1183-1190: _finish moves first. *)
Definition resize_t (b : option buf) (size cap : Z) (a : acct) (n : Z) (r : ref) (dangling : bool) (left : nat)
  : res (state * acct * tout) :=
  do (v1, a1, ok) <- (if cap <? n then realloc_with_old_data k sz dbg mal b size cap a n else Ok (Vec b size cap, a, true));
  if negb ok then Ok (Whole v1, a1, TNoMem) else
  match v1 with
  | Broken => Undef
  | Vec b1 s1 c1 =>
      do (b2, a2, fin) <- cref_t b1 a1 s1 n r dangling left;
      Ok (Whole (Vec b2 n c1), a2, if fin : bool then TDone 0 else TElem)
  end.

Definition trun (left : nat) (v : vec) (a : acct) (o : uop) : res (state * acct * tout) :=
  match v with
  | Broken => Undef
  | Vec b size cap =>
      match o with
      (* hpp:596-609: _finish moves first *)
      | UAssignN n r =>
          if cap <? n then
            do (m, a1) <- realloc_drop_old_data k sz dbg mal b size a n;
            match m with
            | None => Ok (Whole (after_failed_allocate b), a1, TNoMem)
            | Some nb =>
                do (b1, a2, ok) <- cref_t (Some nb) a1 0 n r true left;
                Ok (Whole (Vec b1 n n), a2, if ok : bool then TDone 0 else TElem)
            end
          else
            do (b1, a1) <- core_clear k dbg b size cap a;
            do (b2, a2, ok) <- cref_t b1 a1 0 n r false left;
            Ok (Whole (Vec b2 n cap), a2, if ok : bool then TDone 0 else TElem)
      (* hpp:611-631: _finish is set after the copy *)
      | UAssignRange l =>
          if cap <? len l then
            do (m, a1) <- realloc_drop_old_data k sz dbg mal b size a (len l);
            match m with
            | None => Ok (Whole (after_failed_allocate b), a1, TNoMem)
            | Some nb =>
                do (b1, a2, ok) <- from_iter_t (Some nb) a1 0 l left;
                if ok : bool then Ok (Whole (Vec b1 (len l) (len l)), a2, TDone 0) else Ok (Torn, a2, TElem)
            end
          else
            do (b1, a1) <- core_clear k dbg b size cap a;
            if 0 <? len l then
              do (b2, a2, ok) <- from_iter_t b1 a1 0 l left;
              if ok : bool then Ok (Whole (Vec b2 (len l) cap), a2, TDone 0) else Ok (Whole (Vec b2 size cap), a2, TElem)
            else Ok (Whole (Vec b1 size cap), a1, TDone 0)
      (* hpp:921-934: _finish++ is evaluated before the constructor runs *)
      | UPush safe r =>
          do f <- full dbg size cap;
          if safe && f then
            do (st, a1, o) <- emplace_back_t b size cap a (next_capacity sz cap) r left;
            Ok (st, a1, match o with TDone _ => TDone 0 | _ => o end)
          else
            do _ <- assert dbg (negb f);
            do bf <- need b;
            do x <- read_ref b r;
            do (b1, a1, ok) <- new_t bf a size x left;
            Ok (Whole (Vec (Some b1) (size + 1) cap), a1, if ok : bool then TDone 0 else TElem)
      (* hpp:951-965 *)
      | UEmplaceBack safe r =>
          do f <- full dbg size cap;
          if safe && f then emplace_back_t b size cap a (next_capacity sz cap) r left
          else
            do _ <- assert dbg (negb f);
            do bf <- need b;
            do x <- read_ref b r;
            do (b1, a1, ok) <- new_t bf a size x left;
            Ok (Whole (Vec (Some b1) (size + 1) cap), a1, if ok : bool then TDone size else TElem)
      (* hpp:1158-1197 *)
      | UResize n =>
          if size <? n then resize_t b size cap a n (Val dflt) false left
          else do (v1, a1, r) <- run_uop k sz dbg mal v a o; Ok (Whole v1, a1, of_outc r)
      | UResizeVal n r =>
          if size <? n then resize_t b size cap a n r (cap <? n) left
          else do (v1, a1, r) <- run_uop k sz dbg mal v a o; Ok (Whole v1, a1, of_outc r)
      (* hpp:1201-1227 *)
      | UInsert safe pos r =>
          do _ <- assert dbg ((0 <=? pos) && (pos <=? size));
          do (b1, s1, c1, a1, threw, moved) <- grow_for k sz dbg mal safe b size cap a true 1;
          if threw : bool then Ok (Whole v, a, TNoMem) else put_t b1 s1 c1 a1 pos r moved left
      (* hpp:1257-1281: _finish moves after the construction *)
      | UInsertN safe pos n r =>
          do _ <- assert dbg (0 <? n);
          do _ <- assert dbg ((0 <=? pos) && (pos <=? size));
          do (b1, s1, c1, a1, threw, moved) <- grow_for k sz dbg mal safe b size cap a false n;
          if threw : bool then Ok (Whole v, a, TNoMem) else
          do _ <- assert dbg (add64 s1 n <=? c1);
          do bf <- need b1;
          if b_len bf <? pos + n then Undef else
          do (b2, a2) <- open_gap k dbg bf a1 pos n s1;
          do (b3, a3, ok) <- cref_t (Some b2) a2 pos (pos + n) r moved left;
          if ok : bool then Ok (Whole (Vec b3 (s1 + n) c1), a3, TDone pos) else Ok (Whole (Vec b3 s1 c1), a3, TElem)
      (* hpp:1283-1318 *)
      | UInsertRange safe pos l =>
          let n := len l in
          if n =? 0 then Ok (Whole v, a, TDone pos) else
          do (b1, s1, c1, a1, threw, moved) <- grow_for k sz dbg mal safe b size cap a false n;
          if threw : bool then Ok (Whole v, a, TNoMem) else
          do _ <- assert dbg (add64 s1 n <=? c1);
          do bf <- need b1;
          if b_len bf <? pos + n then Undef else
          do (b2, a2) <- open_gap k dbg bf a1 pos n s1;
          do (b3, a3, ok) <- from_iter_t (Some b2) a2 pos l left;
          if ok : bool then Ok (Whole (Vec b3 (s1 + n) c1), a3, TDone pos) else Ok (Whole (Vec b3 s1 c1), a3, TElem)
      (* hpp:1321-1369 *)
      | UEmplace safe pos r =>
          do (b1, s1, c1, a1, threw, moved) <- grow_for k sz dbg mal safe b size cap a true 1;
          if threw : bool then Ok (Whole v, a, TNoMem) else put_t b1 s1 c1 a1 pos r moved left
      (* the others do not construct from an argument *)
      | _ => do (v1, a1, r) <- run_uop k sz dbg mal v a o; Ok (Whole v1, a1, of_outc r)
      end
  end.

(** hpp:386-391 ~core on what an exception left behind; between unrelated
    pointers the loop of destroy_range does not stop where it should. *)
Definition destroy_state (st : state) (a : acct) : res acct :=
  match st with
  | Whole (Vec b size _) => core_destroy k b size a
  | Whole Broken | Torn => match k with KTriv => Ok a | _ => Undef end
  end.

(** Constructors.  Result: the vector ([None]: none, an exception left the constructor). *)
(** hpp:316-324, 547-557: the complete base object core is destroyed, with
    _finish behind the missing elements. *)
Definition new_fill_t (left : nat) (a : acct) (n x : Z) : res (option vec * acct * tout) :=
  if 0 <? n then
    do m <- allocate sz dbg mal n;
    match m with
    | None => Ok (None, a, TNoMem)
    | Some b =>
        do (b1, a1, ok) <- cref_t (Some b) a 0 n (Val x) false left;
        if ok : bool then Ok (Some (Vec b1 n n), a1, TDone 0)
        else do a2 <- core_destroy k b1 n a1; Ok (None, a2, TElem)
    end
  else Ok (Some (Vec None 0 0), a, TDone 0).
(** hpp:559-572: core is destroyed while _finish is still null. *)
Definition new_range_t (left : nat) (a : acct) (l : list Z) : res (option vec * acct * tout) :=
  if 0 <? len l then
    do m <- allocate sz dbg mal (len l);
    match m with
    | None => Ok (None, a, TNoMem)
    | Some b =>
        do (b1, a1, ok) <- from_iter_t (Some b) a 0 l left;
        if ok : bool then Ok (Some (Vec b1 (len l) (len l)), a1, TDone 0)
        else do a2 <- destroy_state Torn a1; Ok (None, a2, TElem)
    end
  else Ok (Some (Vec None 0 0), a, TDone 0).
(** hpp:326-335: the exception leaves the constructor of core itself; nothing is
    destroyed, the buffer is leaked. *)
Definition copy_new_t (left : nat) (a : acct) (w : vec) : res (option vec * acct * tout) :=
  match w with
  | Broken => Undef
  | Vec wb wsize _ =>
      if 0 <? wsize then
        do m <- allocate sz dbg mal wsize;
        match m with
        | None => Ok (None, a, TNoMem)
        | Some nb =>
            do src <- need wb;
            do (b1, a1, ok) <- copy_range_t src nb a wsize left;
            if ok : bool then Ok (Some (Vec (Some b1) wsize wsize), a1, TDone 0)
            else Ok (None, free_buf k (Some b1) a1, TElem)
        end
      else Ok (Some (Vec None 0 0), a, TDone 0)
  end.
(** hpp:343-371, two different vectors: _finish is set after the copy. *)
Definition assign_t (left : nat) (a : acct) (v w : vec) : res (state * acct * tout) :=
  match v, w with
  | Vec b size cap, Vec wb wsize _ =>
      if cap <? wsize then
        do a1 <- core_destroy k b size a;
        do m <- allocate sz dbg mal wsize;
        match m with
        | None => Ok (Whole (after_failed_allocate b), a1, TNoMem)
        | Some nb =>
            do src <- need wb;
            do (b1, a2, ok) <- copy_range_t src nb a1 wsize left;
            if ok : bool then Ok (Whole (Vec (Some b1) wsize wsize), a2, TDone 0) else Ok (Torn, a2, TElem)
        end
      else
        do (b1, a1) <- core_clear k dbg b size cap a;
        if 0 <? wsize then
          do src <- need wb; do d <- need b1;
          do (b2, a2, ok) <- copy_range_t src d a1 wsize left;
          if ok : bool then Ok (Whole (Vec (Some b2) wsize cap), a2, TDone 0) else Ok (Whole (Vec (Some b2) size cap), a2, TElem)
        else Ok (Whole (Vec b1 0 cap), a1, TDone 0)
  | _, _ => Undef
  end.
End Throw.
