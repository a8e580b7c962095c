(** Arena strings whose memory comes from an arena: the model of arena_string
    (StrModel with [arena = true]) and the model of Arena (ArenaModel) run
    together, the arena answering the requests of the strings
    (arena_string.hpp:59, 385, 503 through arena.hpp:330-332, do_allocate). *)
Require Import ZArith List Bool.
From Verif Require Import Base ArenaSpec StrSpec.
From Verif Require ArenaModel ArenaStatements StrModel StrStatements.
Import ListNotations.
Open Scope Z_scope.
#[local] Existing Instance Char8.

(** The arenas and all other memory; the strings; the address of each of the
    blocks the strings have got so far (StrModel numbers the blocks in this
    order). *)
Record jsys := { j_arenas : ArenaModel.sys; j_strs : StrModel.sys; j_at : list Z }.

(** polymorphic_allocator<char>::allocate(n) asks the resource of arena [i]
    for [n] bytes aligned to 1; 0 = nullptr.  Requests of more than 2^62
    bytes are refused, see [C86_big_request] in PropStrArena. *)
Definition fits (n : Z) : bool := (0 <=? n) && (n <=? max_request).
Definition ask (e : ArenaModel.env) (i : nat) (S : ArenaModel.sys) (n : Z) : res (ArenaModel.sys * Z) :=
  if fits n then ArenaModel.step e S (ArenaModel.SOp i (ArenaModel.OResource n 1)) else Ok (S, 0).

(** The requests made during a call, each with its result. *)
Fixpoint serve (e : ArenaModel.env) (i : nat) (S : ArenaModel.sys) (l : list (Z * Z)) (S' : ArenaModel.sys) : Prop :=
  match l with
  | [] => S' = S
  | (n, p) :: r => exists S1, ask e i S n = Ok (S1, p) /\ serve e i S1 r S'
  end.

(** What the strings see of the answers: request [k] of StrModel is answered by [mal]. *)
Definition answered (k0 : nat) (l : list (Z * Z)) (mal : nat -> Z -> bool) : Prop :=
  forall k n p, nth_error l k = Some (n, p) -> mal (k0 + k)%nat n = negb (p =? 0).

(** Bytes asked for when the block was obtained. *)
Definition bytes (b : StrModel.block) : Z := StrModel.header (StrModel.bk_kind b) + StrModel.bk_len b.

(** A call: the strings do what StrModel says when their requests are answered
    as the arena answers them, and would do so whatever the answers to other
    requests: the requests listed are those made. *)
Definition took (s s' : StrModel.heap) (l : list (Z * Z)) : Prop :=
  map bytes (StrModel.h_blocks s') = map bytes (StrModel.h_blocks s) ++ map fst (filter (fun x => negb (snd x =? 0)) l) /\
  StrModel.h_calls s' = (StrModel.h_calls s + length l)%nat.
Definition places (l : list (Z * Z)) : list Z := map snd (filter (fun x => negb (snd x =? 0)) l).

Section Joint.
Variables (e : ArenaModel.env) (dbg : bool) (ar : Z) (i : nat).

Definition string_call (J : jsys) (o : sop) (l : list (Z * Z)) (S' : ArenaModel.sys) (r : StrModel.sout) : Prop :=
  serve e i (j_arenas J) l S' /\
  (forall mal, answered (StrModel.h_calls (StrModel.s_heap (j_strs J))) l mal -> StrStatements.step dbg true mal ar (j_strs J) o = r) /\
  match r with
  | StrModel.SRet s' | StrModel.SThr _ s' => took (StrModel.s_heap (j_strs J)) (StrModel.s_heap s') l
  | StrModel.STerm h | StrModel.SUB h => took (StrModel.s_heap (j_strs J)) h l
  | StrModel.SAFail => True
  end.
Definition after (J : jsys) (l : list (Z * Z)) (S' : ArenaModel.sys) (s' : StrModel.sys) : jsys :=
  {| j_arenas := S'; j_strs := s'; j_at := j_at J ++ places l |}.
End Joint.
