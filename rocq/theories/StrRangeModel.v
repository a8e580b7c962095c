(** basic_string (string.hpp): ranges given by forward iterators that are not pointers. *)
Require Import ZArith List Bool.
From Verif Require Import Base StrSpec StrModel.
Import ListNotations.
Open Scope Z_scope.

(** What one iterator of the range refers to: a character kept elsewhere (the
    element of a std::list, say), or character [k] of string object [j], as a
    reverse_iterator does.  std::distance(s1, s2) is the number of iterators and
    is not negative.  The iterators were made before the call. *)
Inductive cell := Char (v : Z) | CharOf (j : nat) (k : Z).

Section Wide.
Context {ChT : CharType}.
Variables (dbg arena : bool).
Variable mal : nat -> Z -> bool.

(** Where the character is, seen from the object [i] that is worked on (as for
    the pointers of StrModel.resolve). *)
Definition cell_ptr (s : sys) (i : nat) (c : cell) : option ptr :=
  match c with
  | Char v => Some (PExt [Some v])
  | CharOf j k =>
      match sget (s_objs s) j with
      | None => None
      | Some o => let p := ptr_add (data o) k in Some (if Nat.eqb i j then p else export o p)
      end
  end.
Fixpoint cell_ptrs (s : sys) (i : nat) (cs : list cell) : option (list ptr) :=
  match cs with
  | [] => Some []
  | c :: r => match cell_ptr s i c, cell_ptrs s i r with Some p, Some ps => Some (p :: ps) | _, _ => None end
  end.

(** std::copy(s1, s2, q) of such iterators, and string_detail::copy_n
    (hpp:157-164): one character after the other, from the first to the last.
    The move of one character is its assignment. *)
Fixpoint copy_cells (ps : list ptr) (q : ptr) : M unit :=
  match ps with [] => ret tt | p :: r => let* _ := pod_move p q 1 in copy_cells r (ptr_add q 1) end.

(** hpp:2037-2057 insertImpl(i, s1, s2), forward iterators; i = begin() + pos *)
Definition insert_cells (pos : Z) (ps : list ptr) : M unit := guarded dbg
  (let* old_size := size_m in
   let* _ := assertM dbg ((0 <=? pos) && (pos <=? old_size)) in
   let n := slen ps in
   let* _ := expand_noinit dbg arena mal n true in
   let* b := begin_ dbg arena mal in
   let* _ := pod_move (ptr_add b pos) (ptr_add b (pos + n)) (old_size - pos) in
   copy_cells ps (ptr_add b pos)).
(** hpp:1434-1437 insert(p, first, last) by insertImplDiscr hpp:2030-2036, with p = begin() + pos *)
Definition insert_fwd (pos : Z) (ps : list ptr) : M unit :=
  let* _ := begin_ dbg arena mal in
  insert_cells pos ps.
(** hpp:1338-1342 append(first, last): insert(end(), first, last) *)
Definition append_fwd (ps : list ptr) : M unit :=
  let* _ := begin_ dbg arena mal in
  let* sz := size_m in
  insert_cells sz ps.
(** hpp:2127-2155 replaceImpl(i1, i2, s1, s2), forward iterators that are neither
    iterator nor const_iterator: replaceAliased is the overload of hpp:1518-1522,
    which returns false.  i1 = begin() + pos, i2 = i1 + n1. *)
Definition replace_cells (pos n1 : Z) (ps : list ptr) : M unit := guarded dbg
  (let n2 := slen ps in
   let* o := this in
   let b := data o in
   let* _ := (if n2 <? n1 then
                let* _ := copy_cells ps (ptr_add b pos) in
                erase_range dbg arena mal (pos + n2) (pos + n1)
              else
                let* _ := copy_cells (firstn (Z.to_nat n1) ps) (ptr_add b pos) in
                insert_cells (pos + n1) (skipn (Z.to_nat n1) ps)) in
   assert_sane dbg).
(** hpp:1538-1544 replace(i1, i2, first, last) by replaceImplDiscr hpp:2098-2107;
    the caller's begin() makes i1 and i2 *)
Definition replace_fwd (pos n1 : Z) (ps : list ptr) : M unit :=
  let* _ := begin_ dbg arena mal in
  replace_cells pos n1 ps.
(** hpp:1371-1374 assign(first, last): replace(begin(), end(), first, last).  The
    constructor from such a range (hpp:1122-1128) is this on an empty string. *)
Definition assign_fwd (ps : list ptr) : M unit :=
  let* _ := begin_ dbg arena mal in
  let* sz := size_m in
  replace_cells 0 sz ps.

Inductive fop := FInsert (pos : Z) | FAppend | FReplace (pos n1 : Z) | FAssign.
Definition run_fop (o : fop) (ps : list ptr) : M unit :=
  match o with
  | FInsert pos => insert_fwd pos ps
  | FAppend => append_fwd ps
  | FReplace pos n1 => replace_fwd pos n1 ps
  | FAssign => assign_fwd ps
  end.
(** The call on object [i]; the mark of an earlier refused request is cleared, as
    in StrStatements.step. *)
Definition fstep (s : sys) (i : nat) (o : fop) (cs : list cell) : sout :=
  let s := {| s_heap := {| h_blocks := h_blocks (s_heap s); h_calls := h_calls (s_heap s); h_refused := false; h_rfail := h_rfail (s_heap s) |}; s_objs := s_objs s |} in
  match cell_ptrs s i cs with
  | Some ps => on_obj s i (run_fop o ps)
  | None => SUB (s_heap s)
  end.
End Wide.
