(** Arenas whose on_arena_allocation and on_arena_newblock hooks use arenas.
    Both are given the cookie only, but the cookie is what on_arena_init
    returned, and on_arena_init is given the arena (arena.hpp:198, 547-548), so the
    cookie may lead back to it.

    As in ArenaHookModel.v the event of a hook is followed by the operations
    the hook performs, at the place of the call.  Hooks called by those
    operations are events only: a hook that calls itself without end is not
    described. *)
Require Import ZArith List Bool.
From Verif Require Import Base ArenaSpec ArenaModel ArenaReentModel ArenaHookModel.
Import ListNotations.
Open Scope Z_scope.

(** What the two hooks of arena [i] do when called after history [h]. *)
Record calls := {
  c_alloc : history -> nat -> list (nat * op);
  c_block : history -> nat -> list (nat * op) }.

Section WithEnv.
Variable e : env.
Variable c : calls.

(** arena.cc:61-123 newBlock and its callers' [_last_block = curr]
    (arena.cc:141-148, arena.hpp:575-582): the hook runs after block_alloc,
    before the block is linked to [prev_block], which is the _last_block read
    before the call.  Blocks the hook made the arena obtain are not reachable
    from [prev_block]; older blocks are as the hook left them. *)
Definition ensure_c (i : nat) (s : sys) (need alignment : Z) : res (sys * bool) :=
  do a <- get_arena s i;
  do nb <- need_create_new_block e a need alignment;
  if nb then
    do (a1, m1, ob) <- newBlock e i a (s_mem s) need;
    match ob with
    | None => Ok (put s i a1 m1, false)
    | Some b =>
        let s1 := {| s_arenas := s_arenas s; s_mem := m1 |} in
        do s2 <- (if o_on_newblock (a_opts a) then run_script e (c_block c (m_hist m1) i) s1 else Ok s1);
        do a2 <- get_arena s2 i;
        let prev := skipn (length (a_blocks a2) - length (a_blocks a)) (a_blocks a2) in
        Ok (put s2 i {| a_opts := a_opts a2; a_blocks := b :: prev; a_resource := a_resource a2;
                        a_cookie := a_cookie a2; a_space := add64 (a_space a2) (b_size b) |} (s_mem s2), true)
    end
  else Ok (s, true).

(** arena.cc:139-154 *)
Definition allocate_c (i : nat) (s : sys) (bytes alignment : Z) : res (sys * Z) :=
  let needed := align_size bytes in
  do (s1, ok) <- ensure_c i s needed alignment;
  if ok : bool then
    do a1 <- get_arena s1 i;
    match a_blocks a1 with
    | [] => Undef
    | b :: rest =>
        do (b', p) <- block_take e b needed alignment;
        do _ <- check_assert e (Z.land p 7 =? 0);
        Ok (put s1 i (set_blocks a1 (b' :: rest)) (s_mem s1), p)
    end
  else Ok (s1, 0).

(** arena.hpp:574-585 *)
Definition addCleanup_c (i : nat) (s : sys) (obj fn : Z) : res (sys * bool) :=
  do (s1, ok) <- ensure_c i s kCleanupNodeSize kByteSize;
  if ok : bool then
    do a1 <- get_arena s1 i;
    match a_blocks a1 with
    | [] => Undef
    | b :: rest =>
        do (b', m2) <- register_cleanup e b (s_mem s1) obj fn;
        Ok (put s1 i (set_blocks a1 (b' :: rest)) m2, true)
    end
  else Ok (s1, false).

Definition Own_c (i : nat) (s : sys) (obj fn : Z) : res (sys * Z) :=
  do (s1, ok) <- addCleanup_c i s obj fn;
  if ok : bool then Ok (emits s1 (CRegister i obj fn), 1) else Ok (s1, 0).

Definition hand_c (i : nat) (s : sys) (p n : Z) : res sys :=
  do m <- hand_out i (s_mem s) p n; Ok {| s_arenas := s_arenas s; s_mem := m |}.

(** The call of on_arena_allocation (arena.hpp:437-439, 469-471, 484-486,
    500-504) is its event, [told_c], and what the hook does, [called_c]. *)
Definition told_c (i : nat) (s : sys) (ty n : Z) : res sys :=
  do a <- get_arena s i;
  Ok {| s_arenas := s_arenas s; s_mem := hook_alloc i a (s_mem s) ty n |}.

Definition called_c (i : nat) (s : sys) : res sys :=
  do a <- get_arena s i;
  if o_on_alloc (a_opts a) then run_script e (c_alloc c (m_hist (s_mem s)) i) s else Ok s.

(** arena.hpp:429-509, 385-388, 330-332: as [exec] in ArenaModel.v. The
    registration of a cleanup is complete before on_arena_allocation runs, the
    client has the range only after it has run. *)
Fixpoint exec_c (o : op) (i : nat) (s : sys) {struct o} : res (sys * Z) :=
  match o with
  | OAllocate bytes al =>
      do (s1, p) <- allocate_c i s bytes al;
      if p =? 0 then Ok (s1, 0) else
      do s2 <- told_c i s1 0 bytes;
      do s3 <- called_c i s2;
      do s4 <- hand_c i s3 p bytes;
      Ok (s4, p)
  | OAllocateCleanup bytes fn elem =>
      do (s1, p) <- allocate_c i s bytes kByteSize;
      if p =? 0 then Ok (s1, 0) else
      let el := if elem =? 0 then p else elem in
      do (s2, ok) <- addCleanup_c i s1 el fn;
      if ok : bool then
        do s3 <- told_c i s2 0 bytes;
        do s4 <- called_c i (emits s3 (CRegister i el fn));
        do s5 <- hand_c i s4 p bytes;
        Ok (s5, p)
      else Ok (s2, 0)
  | OCreateArray sz num ty =>
      if sz =? 0 then Undef else
      let s0 := if (M64 - 1) / sz <? num then emits s ELog else s in
      let size := mul64 sz num in
      do (s1, p) <- allocate_c i s0 size kByteSize;
      if p =? 0 then Ok (s1, 0) else
      do s2 <- hand_c i s1 p (num * sz);
      do s3 <- told_c i s2 ty size;
      do s4 <- called_c i s3;
      Ok (s4, p)
  | OOwn obj fn => Own_c i s obj fn
  | OResource bytes al =>
      do a <- get_arena s i;
      match a_resource a with
      | None => Undef
      | Some j =>
          do (s1, p) <- allocate_c j s bytes (Z.max kByteSize al);
          if p =? 0 then Ok (s1, 0) else
          do s2 <- hand_c j s1 p bytes;
          Ok (s2, p)
      end
  | OCreate sz ty dtor body =>
      do (s1, p) <- allocate_c i s sz kByteSize;
      if p =? 0 then Ok (s1, 0) else
      do s2 <- hand_c i s1 p sz;
      do s3 <- (fix go (l : list op) (s : sys) : res sys :=
                  match l with
                  | [] => Ok s
                  | x :: r => do (s', _) <- exec_c x i s; go r s'
                  end) body s2;
      do (s4, ok) <- match dtor with None => Ok (s3, 1) | Some fn => Own_c i s3 p fn end;
      if ok =? 0 then Ok (s4, 0) else
      do s5 <- told_c i s4 ty sz;
      do s6 <- called_c i s5;
      Ok (s6, p)
  end.

(** All five hooks. *)
Definition step_c (k : hooks) (s : sys) (o : sop) : res (sys * Z) :=
  match o with
  | SOp i o => exec_c o i s
  | _ => step_h e k s o
  end.

Fixpoint run_c (k : hooks) (s : sys) (l : list sop) : res sys :=
  match l with
  | [] => Ok s
  | o :: r => do (s', _) <- step_c k s o; run_c k s' r
  end.
End WithEnv.
