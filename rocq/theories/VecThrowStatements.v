(** What the theorems on throwing element constructors speak about. *)
Require Import ZArith List Bool.
From Verif Require Import Base VecSpec VecModel VecStatements VecThrowModel.
Import ListNotations.
Open Scope Z_scope.

(** How many elements a call makes out of its arguments, for a vector of [size] elements. *)
Definition needs (size : Z) (o : uop) : Z :=
  match o with
  | UAssignN n _ => n
  | UAssignRange l => len l
  | UPush _ _ | UEmplaceBack _ _ | UInsert _ _ _ | UEmplace _ _ _ => 1
  | UResize n | UResizeVal n _ => n - size
  | UInsertN _ _ n _ => n
  | UInsertRange _ _ l => len l
  | _ => 0
  end.

(** A vector of [size] elements and capacity [cap] can be destroyed after the
    call threw with [left] of its elements made. *)
Definition survives (k : kind) (size cap left : Z) (o : uop) : Prop :=
  match o with
  | UInsert _ pos _ | UEmplace _ pos _ => k <> KCopy /\ pos < size
  | UInsertN _ pos _ _ | UInsertRange _ pos _ => k <> KCopy \/ size - pos <= left
  | UAssignRange l => len l <= cap /\ size <= left
  | _ => False
  end.
(** ... and this many objects are never destroyed. *)
Definition leaked (size left : Z) (o : uop) : Z :=
  match o with
  | UInsert _ _ _ | UEmplace _ _ _ => 1
  | UInsertN _ pos n _ => Z.min n (size - pos) + Z.max 0 (pos + left - size)
  | UInsertRange _ pos l => Z.min (len l) (size - pos) + Z.max 0 (pos + left - size)
  | UAssignRange _ => left - size
  | _ => 0
  end.

(** The slots behind the last element hold no object, not even a moved-from one. *)
Definition untouched (v : vec) : Prop :=
  match v with
  | Vec (Some b) size cap => forall j, size <= j < cap -> b_at b j = Raw
  | _ => True
  end.

(** The result of a call that cannot throw from an element. *)
Definition as_before (m : res (vec * acct * outc)) : res (state * acct * tout) :=
  do (v, a, o) <- m; Ok (Whole v, a, of_outc o).

(** How many elements at the front are as before the throwing call. *)
Definition kept (o : uop) : Z :=
  match o with
  | UInsert _ pos _ | UEmplace _ pos _ | UInsertN _ pos _ _ | UInsertRange _ pos _ => pos
  | _ => 0
  end.
Definition state_at (dbg : bool) (st : state) (i : Z) : res Z :=
  match st with Whole v => vat dbg v i | Torn => Undef end.
Definition state_size (st : state) : res Z :=
  match st with Whole v => vsize v | Torn => Undef end.

(** Calls that are more than one vector's business, as steps of VecModel. *)
Definition to_outc (o : tout) : outc := match o with TDone r => Done r | _ => Threw end.
Definition constructed (s : vsys) (m : res (option vec * acct * tout)) : res (vsys * outc) :=
  do (v, a, o) <- m; Ok ({| vs := vs s ++ [v]; vacct := a |}, to_outc o).
Definition assigned (s : vsys) (i : nat) (m : res (state * acct * tout)) : res (vsys * outc) :=
  do (st, a, o) <- m;
  match st with Whole v => Ok ({| vs := vupd i (Some v) (vs s); vacct := a |}, to_outc o) | Torn => Undef end.
