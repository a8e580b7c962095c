(** What a ValueStore has, from the calls made on it alone. *)
Require Import ZArith List Bool.
From Verif Require Import OptModel OptModel2 OptStoreModel.
Import ListNotations.
Open Scope Z_scope.

Definition sets (k : str) (c : scall) : Prop := exists v, c = SSet k v.
Definition appends (k : str) (c : scall) : Prop := (exists v, c = SAppend k v) \/ (exists vs, c = SAppendList k vs).
(** How often key [k] was counted: one call of increment each. *)
Inductive counted (k : str) : list scall -> Z -> Prop :=
| cn_nil : counted k [] 0
| cn_this l n : counted k l n -> counted k (SIncrement k :: l) (n + 1)
| cn_other c l n : c <> SIncrement k -> counted k l n -> counted k (c :: l) n.
(** The value of key [k] after the calls [l], which all returned: that of the last
    call of set, and one more for each call of increment since. *)
Inductive value_of (k : str) (l : list scall) : option value -> Prop :=
| vo_none : (forall c, In c l -> ~ sets k c) -> counted k l 0 -> value_of k l None
| vo_counted n : (forall c, In c l -> ~ sets k c) -> counted k l n -> 0 < n -> value_of k l (Some (VInt n))
| vo_set l1 v l2 : l = l1 ++ SSet k v :: l2 -> (forall c, In c l2 -> ~ sets k c) -> counted k l2 0 -> value_of k l (Some v)
| vo_more l1 m l2 n : l = l1 ++ SSet k (VInt m) :: l2 -> (forall c, In c l2 -> ~ sets k c) -> counted k l2 n -> 0 < n -> value_of k l (Some (VInt (m + n))).
(** The list of key [k]: all that was appended, in order. *)
Inductive list_of (k : str) : list scall -> list value -> Prop :=
| lo_nil : list_of k [] []
| lo_one v l vs : list_of k l vs -> list_of k (SAppend k v :: l) (v :: vs)
| lo_list us l vs : list_of k l vs -> list_of k (SAppendList k us :: l) (us ++ vs)
| lo_other c l vs : ~ appends k c -> list_of k l vs -> list_of k (c :: l) vs.
