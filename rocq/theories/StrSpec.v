(** stdb::memory::string as seen by its users: operations on sequences of
    characters.  A character is the number its bytes make when read unsigned. *)
Require Import ZArith List Bool.
From Verif Require Import Base.
Import ListNotations.
Open Scope Z_scope.

Definition slen {A} (l : list A) : Z := Z.of_nat (length l).
Definition stake {A} (n : Z) (l : list A) : list A := firstn (Z.to_nat n) l.
Definition sdrop {A} (n : Z) (l : list A) : list A := skipn (Z.to_nat n) l.
Definition srep {A} (n : Z) (c : A) : list A := repeat c (Z.to_nat n).
(** [n] characters from position [p], or as many as there are. *)
Definition piece {A} (p n : Z) (l : list A) : list A := stake n (sdrop p l).
(** The characters [p, p+n) (or up to the end) replaced by [r]. *)
Definition splice {A} (p n : Z) (r l : list A) : list A := stake p l ++ r ++ sdrop (p + n) l.

(** The character types with 1, 2 and 4 bytes: char; char16_t; char32_t and
    wchar_t (Linux). *)
Inductive CharType := Char8 | Char16 | Char32.
Existing Class CharType.
(** sizeof(Char) *)
Definition csize {ChT : CharType} : Z := match ChT with Char8 => 1 | Char16 => 2 | Char32 => 4 end.
Definition is_char {ChT : CharType} (c : Z) : Prop := 0 <= c < 256 ^ csize.
(** So many characters take 2^62 bytes. *)
Definition limit {ChT : CharType} : Z := 2 ^ 62 / csize.

(** A (const char*, size) argument: characters elsewhere, or [n] characters
    from position [off] of string object [j]. *)
Inductive arg := Chars (l : list Z) | Piece (j : nat) (off n : Z).

(** Operations on one string object. *)
Inductive uop :=
| UAppend (a : arg)
| UAppendN (n c : Z)
| UPush (c : Z)
| UPop
| UAssign (a : arg)
| UAssignN (n c : Z)
| UAssignChar (c : Z)               (* s = 'c' *)
| UInsert (pos : Z) (a : arg)
| UInsertN (pos n c : Z)
| UErase (pos n : Z)
| UReplace (pos n1 : Z) (a : arg)
| UReplaceN (pos n1 n2 c : Z)
| UInsertInput (pos : Z) (l : list Z)      (* insert(begin() + pos, b, e), input iterators *)
| UReplaceInput (pos n1 : Z) (l : list Z)  (* replace(i1, i2, b, e), input iterators *)
| UResize (n c : Z)
| UReserve (n : Z)
| UShrink
| UClear
| USet (i c : Z)                    (* s[i] = c *)
| UAtSet (i c : Z)                  (* s.at(i) = c *)
| UBackSet (c : Z).                 (* s.back() = c *)

Inductive sop :=
| SDefault
| SNew (l : list Z)                 (* (const char*, n), string_view, two pointers *)
| SNewN (n c : Z)
| SCopy (j : nat)
| SMove (j : nat)
| SSub (j : nat) (pos n : Z)        (* string(str, pos, n) *)
| SSubstr (j : nat) (pos n : Z)     (* str.substr(pos, n) *)
| SSubstrMove (j : nat) (pos n : Z) (* std::move(str).substr(pos, n) *)
| SClone (j : nat)
| SPlus (j k : nat)                 (* a + b, results are new objects *)
| SPlusML (j k : nat)               (* std::move(a) + b *)
| SPlusMR (j k : nat)               (* a + std::move(b) *)
| SPlusMM (j k : nat)
| SPlusCL (l : list Z) (k : nat)    (* "..." + b *)
| SPlusCLM (l : list Z) (k : nat)
| SPlusHL (c : Z) (k : nat)         (* 'c' + b *)
| SPlusHLM (c : Z) (k : nat)
| SPlusCR (j : nat) (l : list Z)
| SPlusCRM (j : nat) (l : list Z)
| SPlusHR (j : nat) (c : Z)
| SPlusHRM (j : nat) (c : Z)
| SAssign (i j : nat)
| SAssignMove (i j : nat)
| SSwap (i j : nat)
| SDestroy (i : nat)
| SOn (i : nat) (o : uop).

(** What an operation does to the value: the new value, or out_of_range. *)
Inductive val := Val (l : list Z) | Range.

Definition in_size (p : Z) (l : list Z) : bool := p <=? slen l.

Definition u_apply (o : uop) (x l : list Z) : val :=
  match o with
  | UAppend _ => Val (l ++ x)
  | UAppendN n c => Val (l ++ srep n c)
  | UPush c => Val (l ++ [c])
  | UPop => Val (stake (slen l - 1) l)
  | UAssign _ => Val x
  | UAssignN n c => Val (srep n c)
  | UAssignChar c => Val [c]
  | UInsert p _ => if in_size p l then Val (splice p 0 x l) else Range
  | UInsertN p n c => if in_size p l then Val (splice p 0 (srep n c) l) else Range
  | UErase p n => if in_size p l then Val (splice p n [] l) else Range
  | UReplace p n _ => if in_size p l then Val (splice p n x l) else Range
  | UReplaceN p n n2 c => if in_size p l then Val (splice p n (srep n2 c) l) else Range
  | UInsertInput p x' => Val (splice p 0 x' l)
  | UReplaceInput p n x' => Val (splice p n x' l)
  | UResize n c => Val (stake n l ++ srep (n - slen l) c)
  | UReserve _ | UShrink => Val l
  | UClear => Val []
  | USet i c => Val (splice i 1 [c] l)
  | UAtSet i c => if i <? slen l then Val (splice i 1 [c] l) else Range
  | UBackSet c => Val (splice (slen l - 1) 1 [c] l)
  end.

Definition arg_of (o : uop) : option arg :=
  match o with UAppend a | UAssign a | UInsert _ a | UReplace _ _ a => Some a | _ => None end.

(** Several strings: the value of each; [None] for one that does not exist. *)
Definition sget {A} (l : list (option A)) (i : nat) : option A :=
  match nth_error l i with Some x => x | None => None end.
Fixpoint sset {A} (i : nat) (x : A) (l : list A) : list A :=
  match l, i with [], _ => [] | _ :: r, O => x :: r | y :: r, S j => y :: sset j x r end.

Definition arg_val (ss : list (option (list Z))) (a : option arg) : option (list Z) :=
  match a with
  | None => Some []
  | Some (Chars l) => Some l
  | Some (Piece j off n) =>
      match sget ss j with
      | Some l => if (0 <=? off) && (0 <=? n) && (off + n <=? slen l) then Some (piece off n l) else None
      | None => None
      end
  end.

Inductive sres := SVal (ss : list (option (list Z))) | SRange (ss : list (option (list Z))).

(** The results allowed; none: not a meaningful call.  A constructor that
    throws creates nothing.  A moved-from operand of operator+ on the right
    may keep its value. *)
Definition with_ {A} (x : option A) (f : A -> list sres) : list sres := match x with Some a => f a | None => [] end.
Definition s_apply (o : sop) (ss : list (option (list Z))) : list sres :=
  let add l := [SVal (ss ++ [Some l])] in
  let add_moved j l := [SVal (sset j (Some []) ss ++ [Some l])] in
  match o with
  | SDefault => add []
  | SNew l => add l
  | SNewN n c => add (srep n c)
  | SCopy j | SClone j => with_ (sget ss j) add
  | SMove j => with_ (sget ss j) (add_moved j)
  | SSub j p n | SSubstr j p n =>
      with_ (sget ss j) (fun l => if in_size p l then add (piece p n l) else [SRange (ss ++ [None])])
  | SSubstrMove j p n =>
      with_ (sget ss j) (fun l => if in_size p l then add_moved j (piece p n l) else [SRange (ss ++ [None])])
  | SPlus j k => with_ (sget ss j) (fun a => with_ (sget ss k) (fun b => add (a ++ b)))
  | SPlusML j k | SPlusMM j k => with_ (sget ss j) (fun a => with_ (sget ss k) (fun b => add_moved j (a ++ b)))
  | SPlusMR j k => with_ (sget ss j) (fun a => with_ (sget ss k) (fun b => add_moved k (a ++ b) ++ add (a ++ b)))
  | SPlusCL l k => with_ (sget ss k) (fun b => add (l ++ b))
  | SPlusCLM l k => with_ (sget ss k) (fun b => add_moved k (l ++ b) ++ add (l ++ b))
  | SPlusHL c k => with_ (sget ss k) (fun b => add (c :: b))
  | SPlusHLM c k => with_ (sget ss k) (fun b => add_moved k (c :: b) ++ add (c :: b))
  | SPlusCR j l => with_ (sget ss j) (fun a => add (a ++ l))
  | SPlusHR j c => with_ (sget ss j) (fun a => add (a ++ [c]))
  | SPlusCRM j l => with_ (sget ss j) (fun a => add_moved j (a ++ l))
  | SPlusHRM j c => with_ (sget ss j) (fun a => add_moved j (a ++ [c]))
  | SAssign i j => with_ (sget ss i) (fun _ => with_ (sget ss j) (fun l => [SVal (sset i (Some l) ss)]))
  | SAssignMove i j =>
      with_ (sget ss i) (fun _ => with_ (sget ss j) (fun l =>
        [SVal (if (i =? j)%nat then ss else sset j (Some []) (sset i (Some l) ss))]))
  | SSwap i j =>
      with_ (sget ss i) (fun a => with_ (sget ss j) (fun b => [SVal (sset j (Some a) (sset i (Some b) ss))]))
  | SDestroy i => with_ (sget ss i) (fun _ => [SVal (sset i None ss)])
  | SOn i o =>
      with_ (sget ss i) (fun l => with_ (arg_val ss (arg_of o)) (fun x =>
        match u_apply o x l with
        | Val l' => [SVal (sset i (Some l') ss)]
        | Range => [SRange ss]
        end))
  end.
