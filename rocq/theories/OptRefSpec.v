(** What is asked of references to options.  Independent of OptRefModel but for
    the names of calls and setters. *)
Require Import ZArith List.
From Verif Require Import OptModel OptSpec2 OptLifeModel OptLifeSpec OptRefModel.
Import ListNotations.
Open Scope Z_scope.

(** The capacities a stdb_vector goes through that grows one by one, for
    elements of [sz] bytes, 64 or more: 1, 2, 3, 5, 8, 12, ...  From 128 KiB on they double. *)
Fixpoint capacity_no (sz : Z) (k : nat) : Z :=
  match k with
  | O => 1
  | S m => let c := capacity_no sz m in if c * sz + sz <=? 131072 then (3 * c + 1) / 2 else 2 * c
  end.
(** An element put in as number [i] (from 0) has not been moved while there are [n]. *)
Definition in_place (sz : Z) (i n : nat) : Prop :=
  forall k, Z.of_nat i < capacity_no sz k -> Z.of_nat n <= capacity_no sz k.

(** What was set last; what it was before if nothing was. *)
Fixpoint last_of {A} (f : setter -> option A) (l : list setter) (a : A) : A :=
  match l with [] => a | s :: r => last_of f r (match f s with Some b => b | None => a end) end.
Definition to_action (s : setter) := match s with SAction a => Some a | _ => None end.
Definition to_type (s : setter) := match s with SType t => Some t | SChoices _ => Some TChoice | _ => None end.
Definition to_dest (s : setter) := match s with SDest d => Some d | _ => None end.
Definition to_default (s : setter) := match s with SDefault d => Some d | _ => None end.
Definition to_env (s : setter) := match s with SEnv v => Some v | _ => None end.
Definition to_choices (s : setter) := match s with SChoices l => l | _ => [] end.
Definition set_as (l : list setter) (o o' : option_) : Prop :=
  names o' = names o /\ act o' = last_of to_action l (act o) /\ typ o' = last_of to_type l (typ o) /\
  dest o' = last_of to_dest l (dest o) /\ default o' = last_of to_default l (default o) /\
  env o' = last_of to_env l (env o) /\ choices o' = choices o ++ concat (map to_choices l).
(** A list with element [i] replaced. *)
Definition only_at {A} (i : nat) (R : A -> A -> Prop) (l l' : list A) : Prop :=
  (forall j, j <> i -> nth_error l' j = nth_error l j) /\
  exists x x', nth_error l i = Some x /\ nth_error l' i = Some x' /\ R x x'.

Section Values.
Variable sz : Z.
Variables (real : type -> list Z -> Z) (getenv : list Z -> option (list Z)).
Notation rstep := (rstep sz real getenv).

(** Runs of a program that uses one parser and references to its options, with
    the references it has got: the number of the option of each. *)
Inductive runs : list nat -> refs -> Prop :=
| run_new p : new p -> runs [] (start p)
| run_call l x c x' e : runs l x -> rstep x (RCall c) = Some (x', e) -> Z.of_nat (length (options (r_parser x'))) <= 2 ^ 32 ->
    runs (match c, e with PAdd _, Returned _ => l ++ [(length (options (r_parser x')) - 1)%nat] | _, _ => l end) x'
| run_set l x k st x' e : runs l x -> rstep x (RSet k st) = Some (x', e) -> runs l x'.

(** Setters through reference [k], one after the other. *)
Inductive sets (k : nat) : refs -> list setter -> refs -> Prop :=
| sets_none x : sets k x [] x
| sets_one x st x1 l x2 : rstep x (RSet k st) = Some (x1, Returned empty_store) -> sets k x1 l x2 -> sets k x (st :: l) x2.
End Values.
