(** Arenas whose metrics hooks use arenas: on_arena_init that allocates its
    cookie in the arena it is told about, on_arena_reset and
    on_arena_destruction that allocate or register cleanups.  In ArenaModel.v
    these hooks are single events; here the event and the operations the hook
    performs, at the place of the call.  Also the failing allocation of the
    memory_resource object in init().

    The cleanups themselves use no arena here (ArenaReentModel.v is about
    those).  on_arena_allocation and on_arena_newblock are not given the arena
    and are events here; ArenaCallModel.v is about those. *)
Require Import ZArith List Bool.
From Verif Require Import Base ArenaSpec ArenaModel ArenaReentModel.
Import ListNotations.
Open Scope Z_scope.

(** What the hooks of arena [i] do when called after history [h]: operations on
    arenas, in order.  [k_resource h]: [new memory_resource] succeeds. *)
Record hooks := {
  k_init : history -> nat -> list (nat * op);
  k_reset : history -> nat -> list (nat * op);
  k_destroy : history -> nat -> list (nat * op);
  k_resource : history -> bool }.

Section WithEnv.
Variable e : env.
Variable k : hooks.

(** arena.hpp:353-363 constructors and 540-550 init: every member is set, then
    the memory_resource is allocated, then the hook runs, and what it returns
    becomes the cookie; until then the cookie is null. *)
Definition set_cookie (a : arena) (c : Z) : arena :=
  {| a_opts := a_opts a; a_blocks := a_blocks a; a_resource := a_resource a;
     a_cookie := c; a_space := a_space a |}.

Definition construct_h (o : options) (s : sys) : res sys :=
  let n := length (s_arenas s) in
  let ok := k_resource k (m_hist (s_mem s)) in
  let m0 := if ok then s_mem s else emit (s_mem s) ELog in
  let a0 := {| a_opts := o; a_blocks := []; a_resource := if ok then Some n else None;
               a_cookie := 0; a_space := 0 |} in
  let s0 := {| s_arenas := s_arenas s ++ [Some a0]; s_mem := m0 |} in
  if o_on_init o then
    do s1 <- run_script e (k_init k (m_hist m0) n) s0;
    do a1 <- get_arena s1 n;
    let c := e_cookie e (m_hist (s_mem s1)) in
    Ok (put s1 n (set_cookie a1 c) (emit (emit (s_mem s1) (HInit n c)) (CNew n)))
  else Ok (emits s0 (CNew n)).

(** arena.hpp:396-407 Reset: the hook runs when _last_block is the oldest block
    already, but _space_allocated is still the old total; what is read from
    _last_block afterwards is the block that is last then. *)
Definition Reset_h (i : nat) (s : sys) : res (sys * Z) :=
  do a <- get_arena s i;
  do (b, m1, waste) <- free_blocks_except_head e (a_blocks a) (s_mem s) 0;
  let s1 := put s i (set_blocks a [b]) m1 in
  do s2 <- (if o_on_reset (a_opts a)
            then run_script e (k_reset k (m_hist m1) i) (emits s1 (HReset i (a_cookie a) (a_space a) waste))
            else Ok s1);
  do a2 <- get_arena s2 i;
  match a_blocks a2 with
  | [] => Undef
  | b2 :: rest =>
      do (b3, m3) <- block_reset b2 (s_mem s2);
      Ok (put s2 i {| a_opts := a_opts a2; a_blocks := b3 :: rest; a_resource := a_resource a2;
                      a_cookie := a_cookie a2; a_space := b_size b2 |} (emit m3 (CReset i)),
          a_space a2)
  end.

(** arena.hpp:369-378 destructor: the hook runs when every block is given back
    and _last_block is null; nothing is given back after it. *)
Definition destroy_h (i : nat) (s : sys) : res (sys * Z) :=
  do a <- get_arena s i;
  do (m1, waste) <- free_all_blocks e (a_blocks a) (s_mem s) 0;
  let s1 := put s i (set_blocks a []) m1 in
  do s2 <- (if o_on_destroy (a_opts a)
            then run_script e (k_destroy k (m_hist m1) i) (emits s1 (HDestroy i (a_cookie a) (a_space a) waste))
            else Ok s1);
  Ok ({| s_arenas := upd i None (s_arenas s2); s_mem := emit (s_mem s2) (CDestroy i) |}, 0).

Definition step_h (s : sys) (o : sop) : res (sys * Z) :=
  match o with
  | SNew op => do s' <- construct_h op s; Ok (s', Z.of_nat (length (s_arenas s)))
  | SReset i => Reset_h i s
  | SDestroy i => destroy_h i s
  | _ => step e s o
  end.

Fixpoint run_h (s : sys) (l : list sop) : res sys :=
  match l with
  | [] => Ok s
  | o :: r => do (s', _) <- step_h s o; run_h s' r
  end.
End WithEnv.
