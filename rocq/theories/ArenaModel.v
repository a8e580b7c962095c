(** Model of arena/arena.hpp and arena/arena.cc. *)
Require Import ZArith List Bool.
From Verif Require Import Base AlignModel ArenaSpec.
Import ListNotations.
Open Scope Z_scope.

(** arena.hpp:80-83 *)
Definition kByteSize : Z := 8.
Definition kInt256Size : Z := 32.
Definition kCleanupNodeSize : Z := AlignUpTo 8 16.  (* sizeof(CleanupNode) = 16 *)
(** arena.hpp:692, sizeof(Block) = 4 words *)
Definition kBlockHeaderSize : Z := AlignUpTo 8 32.
(** arena.hpp:669 *)
Definition kThresholdHuge : Z := 4.

(** arena.hpp:170-203 Options.  The function pointers are the environment
    below; a boolean says whether an optional hook is installed.  [logger_func]
    and [block_dealloc] are assumed installed. *)
Record options := {
  o_normal : Z; o_huge : Z; o_init : Z;
  o_on_init : bool; o_on_reset : bool; o_on_alloc : bool;
  o_on_newblock : bool; o_on_destroy : bool }.

(** arena.hpp:208-217 *)
Definition default_options : options :=
  {| o_normal := 4 * 1024; o_huge := 2 * 1024 * 1024; o_init := 4 * 1024;
     o_on_init := false; o_on_reset := false; o_on_alloc := false;
     o_on_newblock := false; o_on_destroy := false |}.

(** The build mode and the external functions.  [e_alloc h size] is
    block_alloc(size) after history [h]; [e_cookie h] what on_arena_init
    returns. *)
Record env := {
  e_debug : bool;                       (* Assert active (no NDEBUG) *)
  e_alloc : history -> Z -> option Z;
  e_cookie : history -> Z }.

(** arena.hpp:74-78 CleanupNode *)
Record node := { n_elem : Z; n_fn : Z }.

(** arena.hpp:314-318 Block header; [b_addr] is [this]; [_prev] is the rest of
    the block list. *)
Record block := { b_addr : Z; b_pos : Z; b_size : Z; b_limit : Z }.

(** arena.hpp:659-667 Arena members.  [a_blocks]: the chain from _last_block
    along _prev.  [a_resource]: the arena the memory_resource object points to
    ([None] = nullptr). *)
Record arena := {
  a_opts : options;
  a_blocks : list block;
  a_resource : option nat;
  a_cookie : Z;
  a_space : Z }.

(** Memory: where CleanupNode objects currently are, plus the history.  Block
    headers are kept in [block] records, so any write into a header or outside
    a held block is reported as [Undef] by [touch]. *)
Record mem := { m_nodes : Z -> option node; m_hist : history }.

Definition emit (m : mem) (e : event) : mem :=
  {| m_nodes := m_nodes m; m_hist := e :: m_hist m |}.

Definition set_node (m : mem) (p : Z) (x : node) : mem :=
  {| m_nodes := fun q => if q =? p then Some x else m_nodes m q; m_hist := m_hist m |}.

(** Bytes [p, p+n) get arbitrary contents: nodes stored there are gone. *)
Definition scribble (m : mem) (p n : Z) : mem :=
  {| m_nodes := fun q => if (q <? p + n) && (p <? q + kCleanupNodeSize) then None else m_nodes m q;
     m_hist := m_hist m |}.

(** [p, p+n) lies in a held block, behind its header. *)
Definition accessible (m : mem) (p n : Z) : bool :=
  (n =? 0) ||
  existsb (fun b => (fst b + kBlockHeaderSize <=? p) && (p + n <=? fst b + snd b))
          (live_blocks_list (m_hist m)).

(** The owner of [p, p+n) writes all over it. *)
Definition touch (m : mem) (p n : Z) : res mem :=
  if accessible m p n then Ok (scribble m p n) else Undef.

Definition check_assert (e : env) (c : bool) : res unit :=
  if e_debug e && negb c then AssertFail else Ok tt.

Section WithEnv.
Variable e : env.

(** arena.cc:47-57 Block::AlignPos: (aligned pointer, waste). *)
Definition AlignPos (ptr alignment : Z) : res (Z * Z) :=
  do _ <- check_assert e (kByteSize <=? alignment);
  do _ <- check_assert e (alignment <=? kInt256Size);
  if alignment =? 0 then Undef else
  let reminder := ptr mod alignment in
  let forward := sub64 (mul64 alignment (b2z (negb (reminder =? 0)))) reminder in
  Ok (add64 ptr forward, forward).

(** arena.hpp:239 Pos *)
Definition Pos (b : block) : Z := add64 (b_addr b) (b_pos b).
(** arena.hpp:244-246 CleanupPos *)
Definition CleanupPos (b : block) : Z := add64 (b_addr b) (b_limit b).

(** arena.hpp:289-294 *)
Definition has_enough_space (b : block) (size alignment : Z) : res bool :=
  do (_, waste) <- AlignPos (Pos b) alignment;
  Ok (add64 (add64 (b_pos b) waste) size <=? b_limit b).

(** arena.hpp:255-262 Block::alloc *)
Definition block_take (b : block) (size alignment : Z) : res (block * Z) :=
  do ok <- (if e_debug e then has_enough_space b size alignment else Ok true);
  do _ <- check_assert e ok;
  do (p, waste) <- AlignPos (Pos b) alignment;
  Ok ({| b_addr := b_addr b; b_pos := add64 (b_pos b) (add64 size waste);
         b_size := b_size b; b_limit := b_limit b |}, p).

(** arena.hpp:264-269 alloc_cleanup *)
Definition alloc_cleanup (b : block) : res (block * Z) :=
  do _ <- check_assert e (add64 (b_pos b) kCleanupNodeSize <=? b_limit b);
  let b' := {| b_addr := b_addr b; b_pos := b_pos b; b_size := b_size b;
               b_limit := sub64 (b_limit b) kCleanupNodeSize |} in
  Ok (b', CleanupPos b').

(** arena.hpp:271-274 register_cleanup.  Constructing a node at a misaligned
    address or outside the held blocks is undefined. *)
Definition register_cleanup (b : block) (m : mem) (obj fn : Z) : res (block * mem) :=
  do (b', p) <- alloc_cleanup b;
  if negb (p mod 8 =? 0) then Undef else
  do m' <- touch m p kCleanupNodeSize;
  Ok (b', set_node m' p {| n_elem := obj; n_fn := fn |}).

(** arena.hpp:284-287 remain *)
Definition remain (b : block) : res Z :=
  do _ <- check_assert e (b_pos b <=? b_limit b);
  Ok (sub64 (b_limit b) (b_pos b)).

(** arena.hpp:296-306 run_cleanups: node from this+_limit while node < this+_size. *)
Fixpoint run_nodes (fuel : nat) (node last : Z) (m : mem) : res mem :=
  if last <=? node then Ok m else
  match fuel with
  | O => Undef
  | S k =>
      match m_nodes m node with
      | None => Undef
      | Some x => run_nodes k (node + kCleanupNodeSize) last (emit m (ECleanup (n_elem x) (n_fn x)))
      end
  end.

Definition run_cleanups (b : block) (m : mem) : res mem :=
  run_nodes (Z.to_nat ((b_size b - b_limit b) / kCleanupNodeSize + 1))
            (add64 (b_addr b) (b_limit b)) (add64 (b_addr b) (b_size b)) m.

(** arena.hpp:308-312 Block::cleanups *)
Definition block_cleanups (b : block) : res Z :=
  let space := sub64 (b_size b) (b_limit b) in
  do _ <- check_assert e (space mod kCleanupNodeSize =? 0);
  Ok (space / kCleanupNodeSize).

(** arena.cc:128-133 Block::Reset *)
Definition block_reset (b : block) (m : mem) : res (block * mem) :=
  do m' <- run_cleanups b m;
  Ok ({| b_addr := b_addr b; b_pos := kBlockHeaderSize; b_size := b_size b; b_limit := b_size b |}, m').

(** arena.cc:61-123 newBlock(min_bytes, _last_block).  [id] names the arena in
    hook events.  The block's memory is fresh, so no node is in it. *)
Definition new_block_size (o : options) (first : bool) (min_bytes : Z) : res Z :=
  let required := add64 min_bytes kBlockHeaderSize in
  do size <-
    (if negb first then
       if required <=? o_normal o then Ok (o_normal o)
       else if required <=? o_huge o / kThresholdHuge then AlignUp min_bytes (o_normal o)
       else if (o_huge o / kThresholdHuge <? required) && (required <=? o_huge o) then Ok (o_huge o)
       else Ok 0
     else Ok (o_init o));
  Ok (Z.max size required).

Definition newBlock (id : nat) (a : arena) (m : mem) (min_bytes : Z)
  : res (arena * mem * option block) :=
  let m := if M64 - 1 - kBlockHeaderSize <? min_bytes then emit m ELog else m in
  do size <- new_block_size (a_opts a) (match a_blocks a with [] => true | _ => false end) min_bytes;
  let r := e_alloc e (m_hist m) size in
  let m := emit m (EBlockAlloc id size r) in
  match r with
  | None => Ok (a, m, None)
  | Some addr =>
      let m := scribble m addr size in
      let m := if o_on_newblock (a_opts a)
               then emit m (HNewBlock id (Z.of_nat (length (a_blocks a))) size (a_cookie a)) else m in
      Ok ({| a_opts := a_opts a; a_blocks := a_blocks a; a_resource := a_resource a;
             a_cookie := a_cookie a; a_space := add64 (a_space a) size |}, m,
          Some {| b_addr := addr; b_pos := kBlockHeaderSize; b_size := size; b_limit := size |})
  end.

Definition set_blocks (a : arena) (l : list block) : arena :=
  {| a_opts := a_opts a; a_blocks := l; a_resource := a_resource a;
     a_cookie := a_cookie a; a_space := a_space a |}.

(** arena.hpp:566-569 *)
Definition need_create_new_block (a : arena) (need alignment : Z) : res bool :=
  match a_blocks a with
  | [] => Ok true
  | b :: _ => do ok <- has_enough_space b need alignment; Ok (negb ok)
  end.

(** arena.hpp:590-592 *)
Definition align_size (n : Z) : Z := AlignUpTo kByteSize n.

(** arena.hpp:566 + arena.cc:61, the common prefix of allocateAligned and
    addCleanup: make sure the last block has room; [false] = block_alloc failed. *)
Definition ensure_block (id : nat) (a : arena) (m : mem) (need alignment : Z)
  : res (arena * mem * bool) :=
  do nb <- need_create_new_block a need alignment;
  if nb then
    do (a1, m1, ob) <- newBlock id a m need;
    match ob with
    | None => Ok (a1, m1, false)
    | Some b => Ok (set_blocks a1 (b :: a_blocks a1), m1, true)
    end
  else Ok (a, m, true).

(** arena.cc:139-154 allocateAligned; 0 = nullptr. *)
Definition allocateAligned (id : nat) (a : arena) (m : mem) (bytes alignment : Z)
  : res (arena * mem * Z) :=
  let needed := align_size bytes in
  do (a1, m1, ok) <- ensure_block id a m needed alignment;
  if ok : bool then
    match a_blocks a1 with
    | [] => Undef
    | b :: rest =>
        do (b', p) <- block_take b needed alignment;
        do _ <- check_assert e (Z.land p 7 =? 0);
        Ok (set_blocks a1 (b' :: rest), m1, p)
    end
  else Ok (a1, m1, 0).

(** arena.hpp:574-585 addCleanup *)
Definition addCleanup (id : nat) (a : arena) (m : mem) (obj fn : Z)
  : res (arena * mem * bool) :=
  do (a1, m1, ok) <- ensure_block id a m kCleanupNodeSize kByteSize;
  if ok : bool then
    match a_blocks a1 with
    | [] => Undef
    | b :: rest =>
        do (b', m2) <- register_cleanup b m1 obj fn;
        Ok (set_blocks a1 (b' :: rest), m2, true)
    end
  else Ok (a1, m1, false).

Definition hook_alloc (id : nat) (a : arena) (m : mem) (ty size : Z) : mem :=
  if o_on_alloc (a_opts a) then emit m (HAlloc id ty size (a_cookie a)) else m.

(** The client receives [n] bytes at [p] and uses them. *)
Definition hand_out (id : nat) (m : mem) (p n : Z) : res mem :=
  do m' <- touch m p n; Ok (emit m' (CRange id p n)).

(** arena.hpp:482-490 AllocateAligned *)
Definition AllocateAligned (id : nat) (a : arena) (m : mem) (bytes alignment : Z)
  : res (arena * mem * Z) :=
  do (a1, m1, p) <- allocateAligned id a m bytes alignment;
  if p =? 0 then Ok (a1, m1, 0) else
  let m2 := hook_alloc id a1 m1 0 bytes in
  do m3 <- hand_out id m2 p bytes;
  Ok (a1, m3, p).

(** arena.hpp:496-509 AllocateAlignedAndAddCleanup *)
Definition AllocateAlignedAndAddCleanup (id : nat) (a : arena) (m : mem) (bytes fn elem : Z)
  : res (arena * mem * Z) :=
  do (a1, m1, p) <- allocateAligned id a m bytes kByteSize;
  if p =? 0 then Ok (a1, m1, 0) else
  let el := if elem =? 0 then p else elem in
  do (a2, m2, ok) <- addCleanup id a1 m1 el fn;
  if ok : bool then
    let m3 := emit (hook_alloc id a2 m2 0 bytes) (CRegister id el fn) in
    do m4 <- hand_out id m3 p bytes;
    Ok (a2, m4, p)
  else Ok (a2, m2, 0).

(** arena.hpp:451-475 CreateArray; the elements occupy [num * sizeof(T)]
    unreduced bytes, the requested size is the wrapped product. *)
Definition CreateArray (id : nat) (a : arena) (m : mem) (sz num ty : Z)
  : res (arena * mem * Z) :=
  if sz =? 0 then Undef else
  let m := if (M64 - 1) / sz <? num then emit m ELog else m in
  let size := mul64 sz num in
  do (a1, m1, p) <- allocateAligned id a m size kByteSize;
  if p =? 0 then Ok (a1, m1, 0) else
  do m2 <- hand_out id m1 p (num * sz);
  Ok (a1, hook_alloc id a1 m2 ty size, p).

(** arena.hpp:385-388 Own; result 1 = true, 0 = false *)
Definition Own (id : nat) (a : arena) (m : mem) (obj fn : Z) : res (arena * mem * Z) :=
  do (a1, m1, ok) <- addCleanup id a m obj fn;
  if ok : bool then Ok (a1, emit m1 (CRegister id obj fn), 1) else Ok (a1, m1, 0).

(** arena.hpp:330-332 memory_resource::do_allocate (no hook). *)
Definition resource_allocate (id : nat) (a : arena) (m : mem) (bytes alignment : Z)
  : res (arena * mem * Z) :=
  do (a1, m1, p) <- allocateAligned id a m bytes (Z.max kByteSize alignment);
  if p =? 0 then Ok (a1, m1, 0) else
  do m2 <- hand_out id m1 p bytes;
  Ok (a1, m2, p).

(** arena.hpp:616-632 free_all_blocks (loop over the chain). *)
Fixpoint free_all_blocks (l : list block) (m : mem) (acc : Z) : res (mem * Z) :=
  match l with
  | [] => Ok (m, acc)
  | b :: r =>
      do k <- remain b;
      do m1 <- run_cleanups b m;
      free_all_blocks r (emit m1 (EBlockFree (b_addr b))) (add64 acc k)
  end.

(** arena.hpp:637-657 free_blocks_except_head; with no block the debug build
    asserts, the release build dereferences null. *)
Fixpoint free_blocks_except_head (l : list block) (m : mem) (acc : Z) : res (block * mem * Z) :=
  match l with
  | [] => if e_debug e then AssertFail else Undef
  | [b] => do k <- remain b; Ok (b, m, add64 acc k)
  | b :: r =>
      do k <- remain b;
      do m1 <- run_cleanups b m;
      free_blocks_except_head r (emit m1 (EBlockFree (b_addr b))) (add64 acc k)
  end.

(** arena.hpp:396-407 Reset: new arena and the returned size. *)
Definition Reset (id : nat) (a : arena) (m : mem) : res (arena * mem * Z) :=
  do (b, m1, waste) <- free_blocks_except_head (a_blocks a) m 0;
  let m2 := if o_on_reset (a_opts a)
            then emit m1 (HReset id (a_cookie a) (a_space a) waste) else m1 in
  let reset_size := a_space a in
  do (b', m3) <- block_reset b m2;
  Ok ({| a_opts := a_opts a; a_blocks := [b']; a_resource := a_resource a;
         a_cookie := a_cookie a; a_space := b_size b |},
      emit m3 (CReset id), reset_size).

(** arena.hpp:369-378 destructor *)
Definition destroy (id : nat) (a : arena) (m : mem) : res mem :=
  do (m1, waste) <- free_all_blocks (a_blocks a) m 0;
  let m2 := if o_on_destroy (a_opts a)
            then emit m1 (HDestroy id (a_cookie a) (a_space a) waste) else m1 in
  Ok (emit m2 (CDestroy id)).

(** arena.hpp:353-363 + 540-550 constructor; allocation of the memory_resource
    object is assumed to succeed. *)
Definition construct (id : nat) (o : options) (m : mem) : arena * mem :=
  let '(c, m1) := if o_on_init o then (e_cookie e (m_hist m), emit m (HInit id (e_cookie e (m_hist m))))
                  else (0, m) in
  ({| a_opts := o; a_blocks := []; a_resource := Some id; a_cookie := c; a_space := 0 |},
   emit m1 (CNew id)).

(** arena.hpp:157-162 move constructor: (new arena, moved-from arena). *)
Definition move_construct (a : arena) : arena * arena :=
  (a, {| a_opts := a_opts a; a_blocks := []; a_resource := None; a_cookie := 0; a_space := 0 |}).

(** arena.hpp:412 *)
Definition SpaceAllocated (a : arena) : Z := a_space a.
(** arena.hpp:420-422; null dereference without a block *)
Definition SpaceRemains (a : arena) : res Z :=
  match a_blocks a with [] => Undef | b :: _ => remain b end.
(** arena.hpp:525-533 *)
Fixpoint cleanups_of (l : list block) (acc : Z) : res Z :=
  match l with
  | [] => Ok acc
  | b :: r => do k <- block_cleanups b; cleanups_of r (add64 acc k)
  end.
Definition cleanups (a : arena) : res Z := cleanups_of (a_blocks a) 0.

(** arena.hpp:122-129, arena.cc:156-175 check.  [ptr - block] is computed in
    64 bits and read as int64_t. *)
Inductive contain_status := NotContain | BlockHeader | BlockCleanup | BlockUsed | BlockUnUsed.
Definition to_int64 (x : Z) : Z :=
  let y := x mod M64 in if y <? 2 ^ 63 then y else y - M64.
Fixpoint check_blocks (l : list block) (ptr : Z) : contain_status :=
  match l with
  | [] => NotContain
  | b :: r =>
      let offset := to_int64 (ptr - b_addr b) in
      let pos := to_int64 (b_pos b) in
      let limit := to_int64 (b_limit b) in
      let size := to_int64 (b_size b) in
      if (0 <=? offset) && (offset <? kBlockHeaderSize) then BlockHeader
      else if (kBlockHeaderSize <=? offset) && (offset <? pos) then BlockUsed
      else if (pos <=? offset) && (offset <? limit) then BlockUnUsed
      else if (limit <=? offset) && (offset <? size) then BlockCleanup
      else check_blocks r ptr
  end.
Definition check (a : arena) (ptr : Z) : contain_status := check_blocks (a_blocks a) ptr.

(** A program state: any number of arenas ([None] = destroyed). *)
Record sys := { s_arenas : list (option arena); s_mem : mem }.

Definition get_arena (s : sys) (i : nat) : res arena :=
  match nth_error (s_arenas s) i with
  | Some (Some a) => Ok a
  | _ => Undef                             (* use of a destroyed arena *)
  end.

Fixpoint upd {A} (i : nat) (x : A) (l : list A) : list A :=
  match l, i with
  | [], _ => []
  | _ :: r, O => x :: r
  | y :: r, S j => y :: upd j x r
  end.

Definition put (s : sys) (i : nat) (a : arena) (m : mem) : sys :=
  {| s_arenas := upd i (Some a) (s_arenas s); s_mem := m |}.

(** Lift a function on (arena, mem) to the program state. *)
Definition on_arena (s : sys) (i : nat) (f : arena -> mem -> res (arena * mem * Z)) : res (sys * Z) :=
  do a <- get_arena s i;
  do (a', m', r) <- f a (s_mem s);
  Ok (put s i a' m', r).

(** Client operations on one arena.  [OCreate]'s [body] is what the
    constructor itself does with the arena. *)
Inductive op :=
| OAllocate (bytes alignment : Z)
| OAllocateCleanup (bytes fn elem : Z)
| OCreate (sz ty : Z) (dtor : option Z) (body : list op)  (* dtor = None: is_destructor_skippable *)
| OCreateArray (sz num ty : Z)
| OOwn (obj fn : Z)
| OResource (bytes alignment : Z).

(** arena.hpp:429-444 Create is the [OCreate] case: allocate, construct (the
    constructor may use the arena), register the destructor, report. *)
Fixpoint exec (o : op) (i : nat) (s : sys) {struct o} : res (sys * Z) :=
  match o with
  | OAllocate bytes al => on_arena s i (fun a m => AllocateAligned i a m bytes al)
  | OAllocateCleanup bytes fn el => on_arena s i (fun a m => AllocateAlignedAndAddCleanup i a m bytes fn el)
  | OCreateArray sz num ty => on_arena s i (fun a m => CreateArray i a m sz num ty)
  | OOwn obj fn => on_arena s i (fun a m => Own i a m obj fn)
  | OResource bytes al =>
      do a <- get_arena s i;
      match a_resource a with
      | None => Undef
      | Some j => on_arena s j (fun a m => resource_allocate j a m bytes al)
      end
  | OCreate sz ty dtor body =>
      do (s1, p) <- on_arena s i (fun a m => allocateAligned i a m sz kByteSize);
      if p =? 0 then Ok (s1, 0) else
      do m1 <- hand_out i (s_mem s1) p sz;
      let s2 := {| s_arenas := s_arenas s1; s_mem := m1 |} in
      do s3 <- (fix go (l : list op) (s : sys) : res sys :=
                  match l with
                  | [] => Ok s
                  | x :: r => do (s', _) <- exec x i s; go r s'
                  end) body s2;
      do (s4, ok) <- match dtor with
                     | None => Ok (s3, 1)
                     | Some fn => on_arena s3 i (fun a m => Own i a m p fn)
                     end;
      if ok =? 0 then Ok (s4, 0) else
      do a <- get_arena s4 i;
      Ok ({| s_arenas := s_arenas s4; s_mem := hook_alloc i a (s_mem s4) ty sz |}, p)
  end.

Inductive sop :=
| SNew (o : options)
| SOp (i : nat) (o : op)
| SReset (i : nat)
| SMove (i : nat)
| SDestroy (i : nat).

Definition step (s : sys) (o : sop) : res (sys * Z) :=
  match o with
  | SNew op =>
      let id := length (s_arenas s) in
      let '(a, m) := construct id op (s_mem s) in
      Ok ({| s_arenas := s_arenas s ++ [Some a]; s_mem := m |}, Z.of_nat id)
  | SOp i o => exec o i s
  | SReset i => on_arena s i (fun a m => Reset i a m)
  | SMove i =>
      do a <- get_arena s i;
      let id := length (s_arenas s) in
      let '(b, old) := move_construct a in
      Ok ({| s_arenas := upd i (Some old) (s_arenas s) ++ [Some b];
             s_mem := emit (s_mem s) (CMove i id) |}, Z.of_nat id)
  | SDestroy i =>
      do a <- get_arena s i;
      do m <- destroy i a (s_mem s);
      Ok ({| s_arenas := upd i None (s_arenas s); s_mem := m |}, 0)
  end.

Definition init : sys := {| s_arenas := []; s_mem := {| m_nodes := fun _ => None; m_hist := [] |} |}.

Fixpoint run (s : sys) (l : list sop) : res sys :=
  match l with
  | [] => Ok s
  | o :: r => do (s', _) <- step s o; run s' r
  end.
End WithEnv.
