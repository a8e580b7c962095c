(** Objects built in arenas by constructors that use arenas
    (arena.hpp:429-475, 676-687).

    [OCreate] of ArenaModel.v has a constructor that performs a fixed list of
    operations on the arena it is built in, [OCreateArray] one that does nothing
    with arenas.  Here a constructor may perform any operations on any arenas,
    creating further objects included, and may go by the address it is called
    with, by the index in the array, and by what the operations return.
    Construct passes the arena, its memory_resource or neither
    (arena.hpp:679-685); the other arenas come with the arguments or from
    elsewhere.  Constructors do not throw (both functions are noexcept), do not
    reset, move or destroy arenas, and come to an end. *)
Require Import ZArith List Bool.
From Verif Require Import Base ArenaSpec ArenaModel ArenaReentModel ArenaHookModel ArenaCallModel.
Import ListNotations.
Open Scope Z_scope.

Inductive xop :=
| XOp (o : op)
| XCreate (sz ty : Z) (dtor : option Z) (ctor : Z -> xprog)
| XArray (sz num ty : Z) (ctor : nat -> Z -> xprog)
with xprog :=
| XDone
| XDo (j : nat) (x : xop) (next : Z -> xprog).

(** Constructor calls in the order they begin: arena, address, size. *)
Definition built := list (nat * Z * Z).

Section WithEnv.
Variable e : env.
Variable c : calls.

(** arena.hpp:429-444 Create, 452-475 CreateArray, 678-687 Construct; hooks as
    in ArenaCallModel.v. *)
Fixpoint exec_x (x : xop) (i : nat) (s : sys) {struct x} : res (sys * Z * built) :=
  match x with
  | XOp o => do (s', r) <- exec_c e c o i s; Ok (s', r, [])
  | XCreate sz ty dtor ctor =>
      do (s1, p) <- allocate_c e c i s sz kByteSize;
      if p =? 0 then Ok (s1, 0, []) else
      do s2 <- hand_c i s1 p sz;
      do (s3, tr) <- run_x (ctor p) s2;
      let tr := (i, p, sz) :: tr in
      do (s4, ok) <- match dtor with None => Ok (s3, 1) | Some fn => Own_c e c i s3 p fn end;
      if ok =? 0 then Ok (s4, 0, tr) else
      do s5 <- told_c i s4 ty sz;
      do s6 <- called_c e c i s5;
      Ok (s6, p, tr)
  | XArray sz num ty ctor =>
      if sz =? 0 then Undef else
      let s0 := if (M64 - 1) / sz <? num then emits s ELog else s in
      let size := mul64 sz num in
      do (s1, p) <- allocate_c e c i s0 size kByteSize;
      if p =? 0 then Ok (s1, 0, []) else
      do s2 <- hand_c i s1 p (num * sz);
      do (s3, tr) <- (fix go (n k : nat) (s : sys) : res (sys * built) :=
                        match n with
                        | O => Ok (s, [])
                        | S n =>
                            let q := p + Z.of_nat k * sz in
                            do (s', t) <- run_x (ctor k q) s;
                            do (s'', tr) <- go n (S k) s';
                            Ok (s'', (i, q, sz) :: t ++ tr)
                        end) (Z.to_nat num) O s2;
      do s4 <- told_c i s3 ty size;
      do s5 <- called_c e c i s4;
      Ok (s5, p, tr)
  end
with run_x (q : xprog) (s : sys) {struct q} : res (sys * built) :=
  match q with
  | XDone => Ok (s, [])
  | XDo j x next =>
      do (s1, r, t) <- exec_x x j s;
      do (s2, t') <- run_x (next r) s1;
      Ok (s2, t ++ t')
  end.

(** The steps of a program: those of C90 and the building of objects. *)
Inductive xsop := XS (o : sop) | XB (i : nat) (x : xop).

Definition step_x (k : hooks) (s : sys) (o : xsop) : res (sys * Z * built) :=
  match o with
  | XS o => do (s', r) <- step_c e c k s o; Ok (s', r, [])
  | XB i x => exec_x x i s
  end.
End WithEnv.
