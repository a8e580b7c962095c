(** What a range of forward iterators shows, and what copying it leaves. *)
Require Import ZArith List Bool.
From Verif Require Import Base StrSpec StrModel StrRangeModel.
Import ListNotations.
Open Scope Z_scope.

(** The character an iterator shows when the strings have the values [ss]. *)
Definition shown (ss : list (option (list Z))) (c : cell) : option Z :=
  match c with
  | Char v => Some v
  | CharOf j k => match sget ss j with Some l => if k <? 0 then None else nth_error l (Z.to_nat k) | None => None end
  end.
(** The whole range shows [x]. *)
Definition shows (ss : list (option (list Z))) (cs : list cell) (x : list Z) : Prop := map (shown ss) cs = map Some x.
(** The iterator is not one of string [i]. *)
Definition outside (i : nat) (c : cell) : Prop := match c with Char _ => True | CharOf j _ => j <> i end.
(** The elements kept elsewhere are characters. *)
Definition char_cell {ChT : CharType} (c : cell) : Prop := match c with Char v => is_char v | CharOf _ _ => True end.

(** What the call is to make of the text [l], the range showing [x]; [None]: it is not allowed. *)
Definition f_apply (o : fop) (x l : list Z) : option (list Z) :=
  match o with
  | FInsert pos => if (0 <=? pos) && (pos <=? slen l) then Some (splice pos 0 x l) else None
  | FAppend => Some (l ++ x)
  | FReplace pos n1 => if (0 <=? pos) && (0 <=? n1) && (pos + n1 <=? slen l) then Some (splice pos n1 x l) else None
  | FAssign => Some x
  end.

(** Writing, from position [pos] of string [i] on, one character after the other
    what the iterators show by then.  [None]: one shows nothing. *)
Fixpoint one_by_one (i : nat) (ss : list (option (list Z))) (pos : Z) (cs : list cell) : option (list (option (list Z))) :=
  match cs with
  | [] => Some ss
  | c :: r =>
      match sget ss i, shown ss c with
      | Some l, Some v => one_by_one i (sset i (Some (splice pos 1 [v] l)) ss) (pos + 1) r
      | _, _ => None
      end
  end.
(** The iterators of string [i], which has [n] characters, from the last to the first: [rbegin, rend). *)
Definition backwards (i : nat) (n : Z) : list cell := map (fun k => CharOf i (n - 1 - Z.of_nat k)) (seq 0 (Z.to_nat n)).
(** The second half of the text, and in front of it its mirror image; the middle once. *)
Definition mirrored (l : list Z) : list Z := let h := (slen l + 1) / 2 in stake (slen l - h) (rev l) ++ sdrop (slen l - h) l.
(** The text with room made at [pos]: the characters from there on have moved back,
    the room still has the old ones, and what was there ([u]) behind the old end. *)
Definition opened (pos : Z) (u l : list Z) : list Z := splice (pos + slen u) (slen l - pos) (sdrop pos l) (l ++ u).
