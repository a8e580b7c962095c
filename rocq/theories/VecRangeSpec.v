(** What range calls should do: the elements are the values the iterators
    yield, in order. *)
Require Import ZArith List Bool.
From Verif Require Import Base VecSpec VecModel VecRangeModel.
Import ListNotations.
Open Scope Z_scope.

(** The number in [n] bytes at [p]. *)
Inductive object (m : bytes) : Z -> nat -> Z -> Prop :=
| object_none p : object m p 0 0
| object_byte p n x v : m p = Some x -> object m (p + 1) n v -> object m p (S n) (x + 256 * v).
(** The range yields [l]: *(first + i), converted to T, is [nth i l]. *)
Definition yields (m : bytes) (it : iters) (l : list Z) : Prop :=
  len l = it_count it /\ forall i, 0 <= i < it_count it ->
    exists x v, object m (it_at it i) (Z.to_nat (it_size it)) x /\ nth_error l (Z.to_nat i) = Some v /\ v = it_conv it x.

(** The same call with a list of values. *)
Definition with_values (o : rop) (l : list Z) : vop :=
  match o with
  | RNew _ => VNewRange l
  | RAssign i _ => VOn i (UAssignRange l)
  | RInsert i safe pos _ => VOn i (UInsertRange safe pos l)
  end.
Definition range_of (o : rop) : iters := match o with RNew it | RAssign _ it | RInsert _ _ _ it => it end.

(** Objects of type T one after another, read as they are. *)
Definition contiguous (sz : Z) (it : iters) : Prop := forall i, 0 <= i <= it_count it -> it_at it i = it_at it 0 + i * sz.
Definition of_same_type (sz : Z) (it : iters) : Prop := it_size it = sz /\ forall x, 0 <= x < 256 ^ sz -> it_conv it x = x.
Definition is_byte (x : Z) : Prop := 0 <= x < 256.
(** Memory that can be read everywhere. *)
Definition all_bytes (m : bytes) : Prop := forall p, exists x, m p = Some x /\ is_byte x.
Definition bytes_only (m : bytes) : Prop := forall p x, m p = Some x -> is_byte x.
