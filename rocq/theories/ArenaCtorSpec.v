(** What is asked of constructors that use arenas, and what they are promised. *)
Require Import ZArith List Bool.
From Verif Require Import Base ArenaSpec ArenaModel ArenaStatements ArenaHookModel ArenaHookSpec ArenaCallModel ArenaCallSpec
  ArenaCtorModel.
Import ListNotations.
Open Scope Z_scope.

(** Living arenas, whose memory_resource is used only if its arena lives;
    requests of at most 2^62 bytes.  Whatever the operations return. *)
Fixpoint xop_ok (A : Z) (s : sys) (x : xop) (i : nat) {struct x} : Prop :=
  alive s i /\
  match x with
  | XOp o => op_ok A o /\ (uses_resource o = true -> resource_alive s i)
  | XCreate sz _ _ ctor => 0 <= sz <= max_request /\ forall p, xprog_ok A s (ctor p)
  | XArray sz num _ ctor => 0 < sz /\ 0 <= num /\ sz * num <= max_request /\ forall k p, xprog_ok A s (ctor k p)
  end
with xprog_ok (A : Z) (s : sys) (q : xprog) {struct q} : Prop :=
  match q with
  | XDone => True
  | XDo j x next => xop_ok A s x j /\ forall r, xprog_ok A s (next r)
  end.

(** The object of size [n] that [x] asks for. *)
Definition x_range (x : xop) : option (Z * Z) :=
  match x with
  | XOp o => op_range o
  | XCreate sz _ _ _ => Some (sz, 8)
  | XArray sz num _ _ => Some (num * sz, 8)
  end.
Definition x_served_by (s : sys) (i : nat) (x : xop) (j : nat) : Prop :=
  match x with XOp o => served_by s i o j | _ => j = i end.

Definition permitted_x (A : Z) (k : hooks) (c : calls) (s : sys) (o : xsop) : Prop :=
  match o with
  | XS o => permitted_c A k c s o
  | XB i x => xop_ok A s x i /\ calls_ok A c s
  end.
Definition tame_x (s s' : sys) (o : xsop) : Prop := match o with XS o => tame s s' o | _ => True end.

Inductive reach_x (e : env) (k : hooks) (c : calls) (A : Z) : sys -> Prop :=
| rx_init : reach_x e k c A init
| rx_step s o s' r t : reach_x e k c A s -> permitted_x A k c s o -> step_x e c k s o = Ok (s', r, t) -> tame_x s s' o ->
    reach_x e k c A s'.

(** The operations of ArenaModel.v on arena [i] as such constructions. *)
Fixpoint inject (i : nat) (o : op) : xop :=
  match o with
  | OCreate sz ty dtor body =>
      XCreate sz ty dtor (fun _ =>
        (fix go (l : list op) : xprog :=
           match l with [] => XDone | y :: l => XDo i (inject i y) (fun _ => go l) end) body)
  | OCreateArray sz num ty => XArray sz num ty (fun _ _ => XDone)
  | o => XOp o
  end.

(** An object that lies inside one of these ranges. *)
Definition within (l : list (nat * Z * Z)) (x : nat * Z * Z) : Prop :=
  let '(i, p, n) := x in exists q k, In (i, q, k) l /\ q <= p /\ p + n <= q + k.
Definition objects_apart (x y : nat * Z * Z) : Prop := apart (snd (fst x)) (snd x) (snd (fst y)) (snd y).

(** [h'] comes after [h]. *)
Definition later (h h' : history) : Prop := exists evs, h' = evs ++ h /\ Forall request evs.
