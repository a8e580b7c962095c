(** Executions of arena strings together with arenas, and what is said about them. *)
Require Import ZArith List Bool.
From Verif Require Import Base ArenaSpec StrSpec StrArenaModel.
From Verif Require ArenaModel ArenaStatements StrModel StrStatements.
Import ListNotations.
Open Scope Z_scope.
#[local] Existing Instance Char8.

(** The strings use the memory resource of arena [i], which allocates from
    arena [j] (the same, unless [i] was made by moving [j]). *)
Definition serves (S : ArenaModel.sys) (i j : nat) : Prop :=
  exists a, nth_error (ArenaModel.s_arenas S) i = Some (Some a) /\ ArenaModel.a_resource a = Some j /\ ArenaStatements.alive S j.
(** What others may do with the arenas while the strings are in use: anything
    but reset, move or destroy the arena of the strings. *)
Definition leaves (i j : nat) (o : ArenaModel.sop) : Prop :=
  match o with
  | ArenaModel.SReset k => k <> j
  | ArenaModel.SMove k | ArenaModel.SDestroy k => k <> i /\ k <> j
  | _ => True
  end.

(** Executions; [n] counts the calls on strings.  Calls may end with an exception. *)
Inductive jreach (e : ArenaModel.env) (A : Z) (dbg : bool) (ar : Z) (i j : nat) : nat -> jsys -> Prop :=
| j_start S : ArenaStatements.reach e A S -> serves S i j ->
    jreach e A dbg ar i j O {| j_arenas := S; j_strs := StrModel.s_init; j_at := [] |}
| j_other n J o S' r : jreach e A dbg ar i j n J -> ArenaStatements.permitted A (j_arenas J) o -> leaves i j o ->
    ArenaModel.step e (j_arenas J) o = Ok (S', r) ->
    jreach e A dbg ar i j n {| j_arenas := S'; j_strs := j_strs J; j_at := j_at J |}
| j_call n J ss o l S' r s' : jreach e A dbg ar i j n J ->
    StrStatements.sees (j_strs J) ss -> StrStatements.allowed ar ss o ->
    string_call e dbg ar i J o l S' r -> (r = StrModel.SRet s' \/ exists x, r = StrModel.SThr x s') ->
    jreach e A dbg ar i j (S n) (after J l S' s').

(** The ranges of memory the strings got from the arena, as entries of [live_ranges]. *)
Definition buffers (j : nat) (J : jsys) : list (nat * Z * Z) :=
  map (fun x => (j, fst x, snd x)) (combine (j_at J) (map bytes (StrModel.h_blocks (StrModel.s_heap (j_strs J))))).
Definition ranges (J : jsys) : list (nat * Z * Z) := live_ranges (ArenaModel.m_hist (ArenaModel.s_mem (j_arenas J))).
Definition apart_ranges (x y : nat * Z * Z) : Prop := apart (snd (fst x)) (snd x) (snd (fst y)) (snd y).

(** The byte at address [a], as far as the strings have written to it. *)
Definition stored (J : jsys) (a : Z) (v : option Z) : Prop :=
  exists k p b off, nth_error (j_at J) k = Some p /\ nth_error (StrModel.h_blocks (StrModel.s_heap (j_strs J))) k = Some b /\
    0 <= off < StrModel.bk_len b /\ a = p + StrModel.header (StrModel.bk_kind b) + off /\ v = StrModel.bk_at b off.
(** data(): the characters of a medium string are at the start of its block, those
    of a large one behind the reference count. *)
Definition data_address (J : jsys) (c : StrModel.core) : option Z :=
  match nth_error (j_at J) (Z.to_nat (StrModel.c_data c)) with
  | Some p => if StrModel.category c =? StrModel.is_small then None
              else Some (if StrModel.category c =? StrModel.is_medium then p else p + 8)
  | None => None
  end.
(** The bytes from address [p]. *)
Definition text_at (J : jsys) (p : Z) (l : list Z) : Prop :=
  forall k c, nth_error l k = Some c -> stored J (p + Z.of_nat k) (Some c).
Definition hist (S : ArenaModel.sys) : history := ArenaModel.m_hist (ArenaModel.s_mem S).
