(** basic_string (string.hpp): members given a pointer and the length 0, the
    pointer being null as in a default-constructed std::string_view. *)
Require Import ZArith List Bool.
From Verif Require Import Base StrSpec StrModel StrNullModel.
Import ListNotations.
Open Scope Z_scope.

Section Wide.
Context {ChT : CharType}.
Variables (dbg arena : bool) (mal : nat -> Z -> bool) (ar : Z).

(** At a null pointer there is nothing to read.  What else is special about it:
    podCopy (hpp:202) asserts that it gets none, and replaceAliased (hpp:2115)
    forms [&*s1].  The word-wise copy of release builds (hpp:790-806) takes it as
    aligned and copies no word.  std::copy of an empty range reads nothing. *)
Definition place (p : cptr) : ptr := match p with Null => PExt [] | At m => PExt (map Some m) end.

(** hpp:1492-1499 replace(pos, n1, s, 0), down to [&*s1], which is undefined of
    a null pointer. *)
Definition replace_null (pos : Z) : M unit := guarded dbg (
  let* sz := size_m in
  let* _ := enforce (pos <=? sz) in
  let* _ := begin_ dbg arena mal in
  undef).

Inductive zcall := ZNew | ZAppend (i : nat) | ZAssign (i : nat) | ZInsert (i : nat) (pos : Z) | ZReplace (i : nat) (pos n1 : Z).

Definition run_z (s : sys) (c : zcall) (p : cptr) : sout :=
  match c with
  | ZNew => new_obj s ar (init_core dbg arena mal (place p) 0)                 (* hpp:1116, 1133 (view) *)
  | ZAppend i => on_obj s i (append dbg arena mal (place p) 0)                 (* hpp:1845-1874 *)
  | ZAssign i => on_obj s i (assign dbg arena mal (place p) 0)                 (* hpp:1894-1915, 1763-1766 (= view) *)
  | ZInsert i pos => on_obj s i (insert dbg arena mal pos (place p) 0)         (* hpp:1386-1390 *)
  | ZReplace i pos n1 =>
      on_obj s i (match p with Null => replace_null pos | At _ => replace dbg arena mal pos n1 (place p) 0 end)
  end.
End Wide.
