(** stdb_vector as seen by its users: operations on sequences of values. *)
Require Import ZArith List Bool.
From Verif Require Import Base.
Import ListNotations.
Open Scope Z_scope.

(** How the element type can be copied, moved and destroyed. *)
Inductive kind :=
| KTriv       (* trivially copyable *)
| KReloc      (* Relocatable<T> specialised for a type owning something *)
| KMove       (* move constructor leaves a moved-from object *)
| KCopyMove   (* no move constructor declared: T(std::move(x)) copies *)
| KCopy.      (* move constructor deleted *)

(** A [const T&] argument: an object outside the vector, or element [i] of it. *)
Inductive ref := Val (v : Z) | Elem (i : Z).

(** Operations on one vector; [safe] is the Safety template parameter;
    positions are indices. *)
Inductive uop :=
| UAssignN (n : Z) (r : ref)
| UAssignRange (l : list Z)
| UShrink
| UReserve (n : Z)
| UFill (safe : bool) (n : Z) (l : list Z)      (* filler announces [n], writes [l] *)
| UWriteBuffer (safe : bool) (l : list Z)       (* get_writebuffer(length l), then the client writes [l] *)
| UPush (safe : bool) (r : ref)                 (* push_back(const T&) *)
| UPushMove (safe : bool) (v : Z)               (* push_back(T&&) *)
| UEmplaceBack (safe : bool) (r : ref)
| UClear
| UErase (pos : Z)
| UEraseRange (first last : Z)
| UEraseVal (r : ref)
| UEraseIf (p : Z -> bool)
| UPop
| USet (pos : Z) (r : ref)                      (* v[pos] = r *)
| UResize (n : Z)
| UResizeUnsafe (l : list Z)                    (* resize<Unsafe>(size()+length l), then the client writes [l] *)
| UResizeVal (n : Z) (r : ref)
| UInsert (safe : bool) (pos : Z) (r : ref)
| UInsertMove (safe : bool) (pos : Z) (v : Z)
| UInsertN (safe : bool) (pos n : Z) (r : ref)
| UInsertRange (safe : bool) (pos : Z) (l : list Z)
| UEmplace (safe : bool) (pos : Z) (r : ref).

Inductive vop :=
| VNew
| VNewN (n : Z)                  (* n default elements *)
| VNewFill (n v : Z)
| VNewRange (l : list Z)
| VCopy (j : nat)                (* copy construction *)
| VMove (j : nat)                (* move construction *)
| VAssign (i j : nat)            (* copy assignment i := j *)
| VAssignMove (i j : nat)
| VSwap (i j : nat)
| VDestroy (i : nat)
| VOn (i : nat) (o : uop).

Definition len (l : list Z) : Z := Z.of_nat (length l).
Definition take (n : Z) (l : list Z) : list Z := firstn (Z.to_nat n) l.
Definition drop (n : Z) (l : list Z) : list Z := skipn (Z.to_nat n) l.
Definition fill_with (n v : Z) : list Z := repeat v (Z.to_nat n).
Definition at_ (l : list Z) (i : Z) : option Z := if i <? 0 then None else nth_error l (Z.to_nat i).
Definition the_value (l : list Z) (r : ref) : option Z := match r with Val v => Some v | Elem i => at_ l i end.

(** The default element. *)
Definition dflt : Z := 0.

(** New contents and result (position or count; 0 when the operation returns nothing).
    [None]: not allowed. *)
Definition apply (o : uop) (l : list Z) : option (list Z * Z) :=
  match o with
  | UAssignN n r => if n <? 0 then None else
      match the_value l r with Some v => Some (fill_with n v, 0) | None => None end
  | UAssignRange l' => Some (l', 0)
  | UShrink => Some (l, 0)
  | UReserve n => if n <? 0 then None else Some (l, 0)
  | UFill _ n l' => if len l' =? n then Some (l ++ l', 0) else None
  | UWriteBuffer _ l' => Some (l ++ l', len l)
  | UPush _ r => match the_value l r with Some v => Some (l ++ [v], 0) | None => None end
  | UPushMove _ v => Some (l ++ [v], 0)
  | UEmplaceBack _ r => match the_value l r with Some v => Some (l ++ [v], len l) | None => None end
  | UClear => Some ([], 0)
  | UErase p => if (0 <=? p) && (p <? len l) then Some (take p l ++ drop (p + 1) l, p) else None
  | UEraseRange a b => if (0 <=? a) && (a <=? b) && (b <=? len l) then Some (take a l ++ drop b l, a) else None
  | UEraseVal r => match the_value l r with
                   | Some v => let l' := filter (fun x => negb (x =? v)) l in Some (l', len l - len l')
                   | None => None end
  | UEraseIf p => let l' := filter (fun x => negb (p x)) l in Some (l', len l - len l')
  | UPop => if 0 <? len l then Some (take (len l - 1) l, 0) else None
  | USet p r => if (0 <=? p) && (p <? len l) then
      match the_value l r with Some v => Some (take p l ++ v :: drop (p + 1) l, 0) | None => None end
      else None
  | UResize n => if n <? 0 then None else Some (take n l ++ fill_with (n - len l) dflt, 0)
  | UResizeUnsafe l' => Some (l ++ l', 0)
  | UResizeVal n r => if n <? 0 then None else
      match the_value l r with Some v => Some (take n l ++ fill_with (n - len l) v, 0) | None => None end
  | UInsert _ p r | UEmplace _ p r =>
      if (0 <=? p) && (p <=? len l) then
        match the_value l r with Some v => Some (take p l ++ v :: drop p l, p) | None => None end
      else None
  | UInsertMove _ p v => if (0 <=? p) && (p <=? len l) then Some (take p l ++ v :: drop p l, p) else None
  | UInsertN _ p n r =>
      if (0 <=? p) && (p <=? len l) && (0 <? n) then
        match the_value l r with Some v => Some (take p l ++ fill_with n v ++ drop p l, p) | None => None end
      else None
  | UInsertRange _ p l' => if (0 <=? p) && (p <=? len l) then Some (take p l ++ l' ++ drop p l, p) else None
  end.

(** The lexicographic order on sequences. *)
Inductive lex_lt : list Z -> list Z -> Prop :=
| lex_nil x l : lex_lt [] (x :: l)
| lex_head x y l l' : x < y -> lex_lt (x :: l) (y :: l')
| lex_tail x l l' : lex_lt l l' -> lex_lt (x :: l) (x :: l').

(** Several vectors: contents of each; [None] for one that does not exist. *)
Definition lget {A} (l : list (option A)) (i : nat) : option A :=
  match nth_error l i with Some x => x | None => None end.
Fixpoint lset {A} (i : nat) (x : A) (l : list A) : list A :=
  match l, i with [], _ => [] | _ :: r, O => x :: r | y :: r, S j => y :: lset j x r end.

Definition vapply (o : vop) (ss : list (option (list Z))) : option (list (option (list Z)) * Z) :=
  match o with
  | VNew => Some (ss ++ [Some []], 0)
  | VNewN n => if n <? 0 then None else Some (ss ++ [Some (fill_with n dflt)], 0)
  | VNewFill n v => if n <? 0 then None else Some (ss ++ [Some (fill_with n v)], 0)
  | VNewRange l => Some (ss ++ [Some l], 0)
  | VCopy j => match lget ss j with Some l => Some (ss ++ [Some l], 0) | None => None end
  | VMove j => match lget ss j with Some l => Some (lset j (Some []) ss ++ [Some l], 0) | None => None end
  | VAssign i j => match lget ss i, lget ss j with Some _, Some l => Some (lset i (Some l) ss, 0) | _, _ => None end
  | VAssignMove i j =>
      match lget ss i, lget ss j with
      | Some _, Some l => Some (if (i =? j)%nat then ss else lset j (Some []) (lset i (Some l) ss), 0)
      | _, _ => None
      end
  | VSwap i j => match lget ss i, lget ss j with
                 | Some x, Some y => Some (lset j (Some x) (lset i (Some y) ss), 0)
                 | _, _ => None end
  | VDestroy i => match lget ss i with Some _ => Some (lset i None ss, 0) | None => None end
  | VOn i o => match lget ss i with
               | Some l => match apply o l with Some (l', r) => Some (lset i (Some l') ss, r) | None => None end
               | None => None end
  end.
(** A constructor that throws leaves no vector; other operations leave everything as it was. *)
Definition vthrow (o : vop) (ss : list (option (list Z))) : list (option (list Z)) :=
  match o with
  | VNew | VNewN _ | VNewFill _ _ | VNewRange _ | VCopy _ | VMove _ => ss ++ [None]
  | _ => ss
  end.
