(** Model of the iterators of container/stdb_vector.hpp.

    An iterator is a null pointer or a pointer to a slot of the vector's buffer,
    given by its index; pointer arithmetic that leaves the buffer is undefined.
    All iterators belong to one vector, whose buffer stays the same. *)
Require Import ZArith List Bool.
From Verif Require Import Base VecSpec VecModel VecIterSpec.
Import ListNotations.
Open Scope Z_scope.

Definition iter := option Z.

Section V.
Variable k : kind.

(** hpp:842-864 begin(), end(); also for the const versions *)
Definition begin_ (v : vec) : res iter :=
  match v with Broken => Undef | Vec None _ _ => Ok None | Vec (Some _) _ _ => Ok (Some 0) end.
Definition end_ (v : vec) : res iter :=
  match v with Broken => Undef | Vec None _ _ => Ok None | Vec (Some _) size _ => Ok (Some size) end.

(** ptr + n for a T* *)
Definition advance (v : vec) (p : iter) (n : Z) : res iter :=
  match p, v with
  | None, _ => if n =? 0 then Ok None else Undef
  | Some i, Vec (Some b) _ _ => if (0 <=? i + n) && (i + n <=? b_len b) then Ok (Some (i + n)) else Undef
  | _, _ => Undef
  end.
(** hpp:805-816 operator*, operator-> and operator[], which takes a size_t *)
Definition deref (v : vec) (p : iter) : res Z :=
  match p, v with Some i, Vec (Some b) _ _ => read b i | _, _ => Undef end.
Definition at_offset (v : vec) (p : iter) (n : Z) : res iter := advance v p (n mod M64).
(** assignment to what [deref] refers to *)
Definition put (v : vec) (p : iter) (x : Z) : res vec :=
  match p, v with
  | Some i, Vec (Some b) size cap => do b1 <- store k b i x; Ok (Vec (Some b1) size cap)
  | _, _ => Undef
  end.
(** hpp:820-822 *)
Definition distance (p q : iter) : res Z :=
  match p, q with None, None => Ok 0 | Some i, Some j => Ok (i - j) | _, _ => Undef end.
(** hpp:818 defaulted <=> (and == with it): only pointers into one buffer, or two
    null pointers, are compared *)
Definition compare_ (p q : iter) : res Z :=
  match p, q with
  | None, None => Ok 0
  | Some i, Some j => Ok (match i ?= j with Lt => -1 | Eq => 0 | Gt => 1 end)
  | _, _ => Undef
  end.

Definition reg (l : list iter) (i : nat) : res iter := match nth_error l i with Some p => Ok p | None => Undef end.

(** One expression with iterators, as a C++ statement; new iterators are appended.
    [IMove], [IAssignMove]: hpp:759, 769-772 (std::exchange with nullptr);
    [IConst]: hpp:762-765 conversion through operator->;
    the others hpp:756-773, 774-834. *)
Definition istep (v : vec) (rs : list iter) (c : icmd) : res (vec * list iter * Z) :=
  match c with
  | INull => Ok (v, rs ++ [None], 0)
  | IBegin => do p <- begin_ v; Ok (v, rs ++ [p], 0)
  | IEnd => do p <- end_ v; Ok (v, rs ++ [p], 0)
  | ICopy i | IConst i => do p <- reg rs i; Ok (v, rs ++ [p], 0)
  | IMove i => do p <- reg rs i; Ok (v, lset i None rs ++ [p], 0)
  | IAssign i j => do _ <- reg rs i; do p <- reg rs j; Ok (v, lset i p rs, 0)
  | IAssignMove i j => do _ <- reg rs i; do p <- reg rs j; Ok (v, lset i p (lset j None rs), 0)
  | IPreInc i => do p <- reg rs i; do q <- advance v p 1; Ok (v, lset i q rs, 0)
  | IPostInc i => do p <- reg rs i; do q <- advance v p 1; Ok (v, lset i q rs ++ [p], 0)
  | IPreDec i => do p <- reg rs i; do q <- advance v p (-1); Ok (v, lset i q rs, 0)
  | IPostDec i => do p <- reg rs i; do q <- advance v p (-1); Ok (v, lset i q rs ++ [p], 0)
  | IAddTo i n => do p <- reg rs i; do q <- advance v p n; Ok (v, lset i q rs, 0)
  | ISubFrom i n => do p <- reg rs i; do q <- advance v p (- n); Ok (v, lset i q rs, 0)
  | IPlus i n | IPlusRev n i => do p <- reg rs i; do q <- advance v p n; Ok (v, rs ++ [q], 0)
  | IMinus i n => do p <- reg rs i; do q <- advance v p (- n); Ok (v, rs ++ [q], 0)
  | IDistance i j => do p <- reg rs i; do q <- reg rs j; do d <- distance p q; Ok (v, rs, d)
  | ICompare i j => do p <- reg rs i; do q <- reg rs j; do d <- compare_ p q; Ok (v, rs, d)
  | IRead i => do p <- reg rs i; do x <- deref v p; Ok (v, rs, x)
  | IReadAt i n => do p <- reg rs i; do q <- at_offset v p n; do x <- deref v q; Ok (v, rs, x)
  | IWrite i x => do p <- reg rs i; do v1 <- put v p x; Ok (v1, rs, 0)
  | IWriteAt i n x => do p <- reg rs i; do q <- at_offset v p n; do v1 <- put v q x; Ok (v1, rs, 0)
  end.
Fixpoint irun (v : vec) (rs : list iter) (cs : list icmd) : res (vec * list iter * list Z) :=
  match cs with
  | [] => Ok (v, rs, [])
  | c :: r => do (v1, rs1, x) <- istep v rs c; do (v2, rs2, xs) <- irun v1 rs1 r; Ok (v2, rs2, x :: xs)
  end.

(** for (auto it = begin(); it != end(); ++it) collect *it *)
Fixpoint walk (fuel : nat) (v : vec) (p last : iter) : res (list Z) :=
  match fuel with
  | O => Undef
  | S f =>
      do c <- compare_ p last;
      if c =? 0 then Ok [] else
      do x <- deref v p; do q <- advance v p 1; do r <- walk f v q last; Ok (x :: r)
  end.
Definition forward (fuel : nat) (v : vec) : res (list Z) :=
  do p <- begin_ v; do q <- end_ v; walk fuel v p q.
(** hpp:866-889 rbegin(), rend() and std::reverse_iterator: it holds the
    iterator one behind, * reads through a decremented copy, ++ decrements it. *)
Fixpoint rwalk (fuel : nat) (v : vec) (p last : iter) : res (list Z) :=
  match fuel with
  | O => Undef
  | S f =>
      do c <- compare_ p last;
      if c =? 0 then Ok [] else
      do q <- advance v p (-1); do x <- deref v q;
      do q' <- advance v p (-1); do r <- rwalk f v q' last; Ok (x :: r)
  end.
Definition backward (fuel : nat) (v : vec) : res (list Z) :=
  do p <- end_ v; do q <- begin_ v; rwalk fuel v p q.
End V.
