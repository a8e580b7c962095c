(** Properties C51, C52 and C74: stdb::memory::arena_string, that is the model
    of StrModel with [arena = true] and the memory resource [ar]; 0 stands for
    the default one, which debug builds do not accept.  [reach], [sees], [step_ok]: as in PropString. *)
Require Import ZArith List Bool Lia.
From Verif Require Import Base StrSpec StrModel StrStatements StrCases StrProofs9 StrProofs12 StrProofs14.
Import ListNotations.
Open Scope Z_scope.
#[local] Existing Instance Char8.

Section AStr.
Variables (dbg : bool) (mal : nat -> Z -> bool) (ar : Z).
Hypothesis MS : mal_sane mal.
(** In debug builds arena strings need a memory resource of their own. *)
Hypothesis AR : dbg = true -> ar <> 0.
Notation reach := (reach dbg true mal ar).
Notation step := (step dbg true mal ar).

(** C51: every call does to the strings what it does to independent character sequences.
    Missing: the calls excluded by [allowed ar]: insert and replace of a piece of the
    string itself, operator=(char), counts of 2^62 and more; see the refutations. *)
Theorem C51_value_semantics_partial : forall n s ss o, reach n s -> short n -> sees s ss -> allowed ar ss o ->
  step_ok o s ss (step s o).
Proof. exact (fun n s ss o => reach_step dbg true mal ar n s ss o MS AR). Qed.
(** C51: terminated, size() <= capacity(), room for capacity() + 1 characters, as for ordinary strings. *)
Theorem C51_terminated_within_capacity : forall n s i c, reach n s -> short n -> sget (s_objs s) i = Some c ->
  exists cap, capacity (s_heap s) c = Ret cap (s_heap s) c /\ size c <= cap /\ room (s_heap s) c (cap + 1) /\ after_last (s_heap s) c = Some 0.
Proof. exact (reach_capacity dbg true mal ar MS AR). Qed.
(** C51: appending or assigning a piece of itself. *)
Theorem C51_own_piece : forall n s ss i l off k, reach n s -> short n -> sees s ss -> sget ss i = Some l ->
  0 <= off -> 0 <= k -> off + k <= slen l ->
  gives (step s (SOn i (UAppend (Piece i off k)))) (sset i (Some (l ++ piece off k l)) ss) /\
  gives (step s (SOn i (UAssign (Piece i off k)))) (sset i (Some (piece off k l)) ss).
Proof.
  intros n s ss i l off k H SH SE El H1 H2 H3. split; eapply (reach_on dbg true mal ar MS AR); try eassumption; try reflexivity; try exact I;
  apply own_arg; assumption.
Qed.
(** C51: concatenation. *)
Theorem C51_concatenation : forall n s ss o v, reach n s -> short n -> sees s ss -> concat_val o ss = Some v -> sop_ok ar ss o ->
  match step s o with
  | SRet s' => exists ss1, sees s' (ss1 ++ [Some v]) /\ length ss1 = length ss /\ forall i, moved o <> Some i -> sget ss1 i = sget ss i
  | SThr BadAlloc s' => h_refused (s_heap s') = true
  | STerm h => h_refused h = true
  | SUB h => h_rfail h = true
  | _ => False
  end.
Proof. exact (reach_plus dbg true mal ar MS AR). Qed.

(** C52: the characters of every string are in memory of the resource of its allocator, not freed.
    Missing: the calls excluded by [allowed ar] and strings with different arenas. *)
Theorem C52_own_resource_partial : forall n s i c, reach n s -> short n -> sget (s_objs s) i = Some c -> category c <> is_small ->
  exists k, blk (s_heap s) (c_data c) = Some k /\ bk_live k = true /\ bk_res k = c_al c.
Proof. exact (reach_live dbg true mal ar MS AR). Qed.
(** C52: and no call gives memory to a resource it is not from, nor to free or
    realloc (the model is undefined there), nor uses memory that is not its own;
    unlike with ordinary strings also when allocations fail.
    Missing: as above. *)
Theorem C52_never_misplaced_partial : forall n s ss o, reach n s -> short n -> sees s ss -> allowed ar ss o ->
  match step s o with
  | SRet s' | SThr _ s' => h_rfail (s_heap s') = false
  | STerm _ => True
  | SAFail | SUB _ => False
  end.
Proof. exact (fun n s ss o => arena_step dbg mal ar n s ss o MS AR). Qed.

(** C74: on the default resource the reference count is the number of strings
    sharing the buffer, and other buffers have one string. *)
Theorem C74_counts_exact : ar = 0 -> forall n s b k, reach n s -> short n -> blk (s_heap s) b = Some k -> bk_live k = true ->
  match bk_kind k with Plain => holders s b = 1 | Counted r => holders s b = r end.
Proof. exact (fun Z n s b k => reach_refs dbg true mal ar MS AR n s b k Z). Qed.
(** C74: when all strings are destroyed all memory has been given back. *)
Theorem C74_no_leak : ar = 0 -> forall n s b k, reach n s -> short n -> (forall i, sget (s_objs s) i = None) -> blk (s_heap s) b = Some k -> bk_live k = false.
Proof. exact (fun Z n s b k => reach_no_leak dbg true mal ar MS AR n s b k Z). Qed.
(** C74: and no call gives memory back twice, at another address, or with a size
    other than the one asked for (the model, [free_block], is undefined there).
    Missing: the calls excluded by [allowed 0]: insert of a piece of the string
    itself, counts of 2^62 and more. *)
Theorem C74_freed_as_allocated_partial : ar = 0 -> forall n s ss o, reach n s -> short n -> sees s ss -> allowed 0 ss o ->
  match step s o with
  | SRet s' | SThr _ s' => h_rfail (s_heap s') = false
  | STerm _ => True
  | SAFail | SUB _ => False
  end.
Proof. intros Z n s ss o H SH SE AL. apply (arena_step dbg mal ar n s ss o MS AR H SH SE). rewrite Z. exact AL. Qed.
End AStr.
Print Assumptions C51_value_semantics_partial.
Print Assumptions C51_terminated_within_capacity.
Print Assumptions C51_own_piece.
Print Assumptions C51_concatenation.
Print Assumptions C52_own_resource_partial.
Print Assumptions C52_never_misplaced_partial.
Print Assumptions C74_counts_exact.
Print Assumptions C74_no_leak.
Print Assumptions C74_freed_as_allocated_partial.

(** ** Examples and refutations *)
Example arena_run_is_reached : forall dbg ops P, slen ops < 2 ^ 40 -> after dbg true plenty 7 ops P ->
  exists n s ss, reach dbg true plenty 7 n s /\ short n /\ sees s ss /\ P s ss.
Proof. intros dbg ops P H1. apply (after_reach dbg true plenty 7 ops P plenty_sane); [discriminate|exact H1]. Qed.
Definition arena_prog : list sop :=
  [SNew (letters 300); SCopy 0; SCopy 1; SOn 1 (UPush 65); SNew (letters 5); SOn 3 (UAppend (Piece 0 0 40)); SMove 2; SSwap 0 3; SAssign 2 4; SOn 0 (UErase 2 7); SDestroy 1].
Definition resources (s : sys) : list (option (Z * option Z)) :=
  map (option_map (fun c => (c_al c, if category c =? is_small then None else option_map bk_res (blk (s_heap s) (c_data c))))) (s_objs s).
Example C51_ex : forall dbg, after dbg true plenty 7 arena_prog (fun s ss =>
  shown s = map (option_map (map Some)) ss /\
  ss = [Some (stake 2 (letters 5) ++ sdrop 9 (letters 5 ++ letters 40)); None; Some (letters 300); Some (letters 300); Some (letters 300)]).
Proof. intros []; vm_compute; split; reflexivity. Qed.
Example C52_ex : forall dbg, after dbg true plenty 7 arena_prog (fun s ss =>
  let y := Some (7, Some 7) in resources s = [y; None; y; y; y]).
Proof. intros []; vm_compute; reflexivity. Qed.

Example default_run_is_reached : forall ops P, slen ops < 2 ^ 40 -> after false true plenty 0 ops P ->
  exists n s ss, reach false true plenty 0 n s /\ short n /\ sees s ss /\ P s ss.
Proof. intros ops P H1. apply (after_reach false true plenty 0 ops P plenty_sane); [discriminate|exact H1]. Qed.
(** The first buffer is shared by two strings and the second freed; when all
    strings are destroyed the nine buffers asked for are freed. *)
Definition buffers (s : sys) : list (bool * Z * bkind) := map (fun k => (bk_live k, bk_len k, bk_kind k)) (h_blocks (s_heap s)).
Example C74_ex :
  after false true plenty 0 arena_prog (fun s ss => holders s 0 = 2 /\
    buffers s = [(true, 301, Counted 2); (false, 452, Counted 0); (true, 47, Plain); (true, 301, Counted 1)]) /\
  after false true plenty 0 (arena_prog ++ [SOn 2 (UReserve 900); SOn 2 (UReserve 2000); SOn 0 (UAppendN 100 66); SOn 0 UShrink;
      SOn 4 (UReplace 3 5 (Piece 4 0 9)); SDestroy 0; SDestroy 2; SDestroy 3; SDestroy 4])
    (fun s ss => map (fun b => fst (fst b)) (buffers s) = repeat false 9 /\ ss = repeat None 5).
Proof. vm_compute. repeat split. Qed.

(** C51 is false of operator=(char) on a shared string in debug builds: the
    temporary has no arena, so std::logic_error is thrown. *)
Theorem C51_assign_char_refuted : after true true plenty 7 [SNew (letters 300); SCopy 0] (fun s _ =>
  ends (step true true plenty 7 s (SOn 0 (UAssignChar 65))) = Throws LogicError).
Proof. vm_compute. reflexivity. Qed.
Print Assumptions C51_assign_char_refuted.
(** C51 is false of replace with a piece of the string itself: debug builds end
    the program, release builds give memory of the arena to free. *)
Theorem C51_replace_own_piece_refuted :
  after true true plenty 7 [SNew (letters 3)] (fun s _ => ends (step true true plenty 7 s (SOn 0 (UReplace 0 1 (Piece 0 1 2)))) = Terminates) /\
  after false true plenty 7 [SNew (letters 30)] (fun s _ => ends (step false true plenty 7 s (SOn 0 (UReplace 0 1 (Piece 0 1 2)))) = Undefined).
Proof. split; vm_compute; reflexivity. Qed.
Print Assumptions C51_replace_own_piece_refuted.
(** C52 is false of strings with different arenas: swap exchanges the characters
    but not the allocators, so each string keeps memory of the other's arena. *)
Definition then_ (ar : Z) (o : sop) (x : option sys) : option sys :=
  match x with Some s => match step false true plenty ar s o with SRet s' => Some s' | _ => None end | None => None end.
Theorem C52_swap_refuted :
  option_map resources (then_ 8 (SNew (letters 30)) (then_ 7 (SNew (letters 30)) (Some s_init))) = Some [Some (7, Some 7); Some (8, Some 8)] /\
  option_map resources (then_ 7 (SSwap 0 1) (then_ 8 (SNew (letters 30)) (then_ 7 (SNew (letters 30)) (Some s_init)))) = Some [Some (7, Some 8); Some (8, Some 7)].
Proof. split; vm_compute; reflexivity. Qed.
Print Assumptions C52_swap_refuted.
