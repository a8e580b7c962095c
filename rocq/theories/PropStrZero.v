(** Property C102: a null pointer with the length 0 is the empty text.

    See PropString.v for [reach] and [sees]. *)
Require Import ZArith List Bool Lia.
From Verif Require Import Base StrSpec StrModel StrStatements StrCases StrProofs9 StrProofs12 StrProofs13 StrProofs14 StrFindSpec StrFindModel StrFindProofs StrApiModel StrApiProofs StrApiProofs2 StrNullModel StrZeroModel.
Import ListNotations.
Open Scope Z_scope.

(** What is to be shown after the call: nothing is added, or put in place of
    everything. *)
Definition after_nothing (c : zcall) (ss : list (option (list Z))) : list (option (list Z)) :=
  match c with
  | ZNew => ss ++ [Some []]
  | ZAssign i => sset i (Some []) ss
  | _ => ss
  end.
Definition beyond (c : zcall) (ss : list (option (list Z))) : Prop :=
  match c with
  | ZInsert i pos | ZReplace i pos _ => exists l, sget ss i = Some l /\ slen l < pos
  | _ => False
  end.
Definition proper (c : zcall) (ss : list (option (list Z))) : Prop :=
  match c with
  | ZNew => True
  | ZAppend i | ZAssign i => sget ss i <> None
  | ZInsert i pos => sget ss i <> None /\ 0 <= pos < M64
  | ZReplace i pos n1 => sget ss i <> None /\ 0 <= pos < M64 /\ 0 <= n1 < M64
  end.
Definition replaces (c : zcall) : bool := match c with ZReplace _ _ _ => true | _ => false end.

Lemma sset_same {A} (l : list (option A)) i x : sget l i = Some x -> sset i (Some x) l = l.
Proof.
  revert i. induction l as [|y l IH]; intros [|i] H; cbn in *; try discriminate.
  - unfold sget in H. cbn in H. now subst.
  - unfold sget in H. cbn in H. f_equal. apply IH. exact H.
Qed.
Lemma splice_none (l : list Z) pos : 0 <= pos -> splice pos 0 [] l = l.
Proof.
  intros H. unfold splice, stake, sdrop. rewrite Z.add_0_r. cbn [app]. apply firstn_skipn.
Qed.

Section Zero.
Context {ChT : CharType}.
Variables (dbg arena : bool) (mal : nat -> Z -> bool) (ar : Z).

(** The constructor, append and assign do not use the pointer at all, whatever
    it is: the assertions of podCopy are not reached. *)
Theorem C102_unused : forall p q h o,
  init_core dbg arena mal p 0 h o = init_core dbg arena mal q 0 h o /\
  append dbg arena mal p 0 h o = append dbg arena mal q 0 h o /\
  assign dbg arena mal p 0 h o = assign dbg arena mal q 0 h o.
Proof.
  intros p q h o. split; [|split; reflexivity]. reflexivity.
Qed.

Hypothesis MS : mal_sane mal.
Hypothesis AO : ar_ok dbg arena ar.
Definition cleaned (s : sys) : sys := {| s_heap := clean (s_heap s); s_objs := s_objs s |}.

(** In every execution: the call throws std::out_of_range exactly if the position
    is behind the end, then no string changes; otherwise the strings show what
    they are to show.  Memory can run out. Missing: replace ([C102_replace_refuted]). *)
Theorem C102_written_partial : forall n s ss c, reach dbg arena mal ar n s -> short n -> sees s ss -> proper c ss -> replaces c = false ->
  match run_z dbg arena mal ar (cleaned s) c Null with
  | SRet s' => ~ beyond c ss /\ sees s' (after_nothing c ss)
  | SThr OutOfRange s' => beyond c ss /\ sees s' ss /\ s_objs s' = s_objs s
  | SThr BadAlloc s' => h_refused (s_heap s') = true
  | STerm h => h_refused h = true
  | SUB h => h_rfail h = true
  | _ => False
  end.
Proof.
  intros n s ss c H SH SE PR NR.
  set (o := match c with ZNew => SNew [] | ZAppend i => SOn i (UAppend (Chars [])) | ZAssign i => SOn i (UAssign (Chars []))
            | ZInsert i pos => SOn i (UInsert pos (Chars [])) | ZReplace i pos n1 => SOn i (UReplace pos n1 (Chars [])) end).
  assert (E : run_z dbg arena mal ar (cleaned s) c Null = step dbg arena mal ar s o) by (destruct c; try discriminate NR; reflexivity).
  assert (CE : chars []) by (split; [apply Forall_nil|unfold limit, csize; destruct ChT; reflexivity]).
  assert (AL : allowed ar ss o).
  { destruct c as [|i|i|i pos|]; try discriminate NR; cbn [proper] in PR; subst o; split.
    - discriminate.
    - exact CE.
    - cbn. destruct (sget ss i); [discriminate|congruence].
    - intros l _. exact CE.
    - cbn. destruct (sget ss i); [discriminate|congruence].
    - intros l _. exact CE.
    - destruct PR as [PR _]. cbn. destruct (sget ss i) as [l|]; [|congruence]. cbn. destruct (in_size pos l); discriminate.
    - intros l _. cbn. split; [exact (proj2 PR)|]. split; [exact CE|exact I]. }
  pose proof (reach_step dbg arena mal ar n s ss o MS AO H SH SE AL) as Y. rewrite E. clear E AL.
  assert (CR : creates o = match c with ZNew => true | _ => false end) by (subst o; destruct c; try discriminate NR; reflexivity).
  destruct (step dbg arena mal ar s o) as [s'|e s'|h| |h]; cbn [step_ok] in Y; auto.
  - destruct Y as (ss' & I1 & I2). subst o. destruct c as [|i|i|i pos|]; try discriminate NR; cbn [beyond after_nothing proper] in *.
    + destruct I1 as [I1|[]]. inversion I1; subst. auto.
    + cbn in I1. destruct (sget ss i) as [l|] eqn:El; [|now destruct I1]. cbn in I1. destruct I1 as [I1|[]].
      inversion I1; subst. rewrite app_nil_r in I2. rewrite (sset_same ss i l El) in I2. auto.
    + cbn in I1. destruct (sget ss i) as [l|] eqn:El; [|now destruct I1]. cbn in I1. destruct I1 as [I1|[]].
      inversion I1; subst. auto.
    + cbn in I1. destruct (sget ss i) as [l|] eqn:El; [|now destruct I1]. cbn in I1. unfold in_size in I1.
      destruct (Z.leb_spec pos (slen l)) as [LE|GT]; destruct I1 as [I1|[]]; [|discriminate]. inversion I1; subst.
      rewrite splice_none in I2 by lia. rewrite (sset_same ss i l El) in I2. split; auto.
      intros (l' & E1 & E2). assert (l' = l) by congruence. subst. lia.
  - destruct e; try contradiction.
    + destruct Y as [Y _]. exact Y.
    + destruct Y as ((ss' & I1 & I2) & _ & OB). rewrite CR in OB. subst o.
      destruct c as [|i|i|i pos|]; try discriminate NR; cbn [beyond proper] in *.
      * destruct I1 as [I1|[]]. discriminate.
      * cbn in I1. destruct (sget ss i) as [l|] eqn:El; [|now destruct I1]. cbn in I1. destruct I1 as [I1|[]]. discriminate.
      * cbn in I1. destruct (sget ss i) as [l|] eqn:El; [|now destruct I1]. cbn in I1. destruct I1 as [I1|[]]. discriminate.
      * cbn in I1. destruct (sget ss i) as [l|] eqn:El; [|now destruct I1]. cbn in I1. unfold in_size in I1.
        destruct (Z.leb_spec pos (slen l)) as [LE|GT]; destruct I1 as [I1|[]]; [discriminate|]. inversion I1; subst.
        rewrite app_nil_r in OB. split; [exists l; auto|auto].
Qed.

(** Any other pointer with the length 0 does the same. *)
Theorem C102_same_partial : forall s c memory, replaces c = false -> (forall i pos, c <> ZInsert i pos) ->
  run_z dbg arena mal ar s c Null = run_z dbg arena mal ar s c (At memory).
Proof.
  intros s c memory NR NI. destruct c as [|i|i|i pos|]; try discriminate NR; try (exfalso; eapply NI; reflexivity); reflexivity.
Qed.
End Zero.

(** ** Reading: [cmem Null] is memory none of which can be read. *)
Section Read.
Context {ChT : CharType}.
Variables (h : heap) (c : core) (l : list Z).
Hypothesis R : reads h c l.
Hypothesis SZ : slen l < npos.
Let a := str_mem h c.

Lemma null_like : like (cmem Null) []. Proof. intros i Hi. unfold slen in Hi. cbn in Hi. lia. Qed.
Lemma a_like : like a l. Proof. apply (like_more _ l [0]). apply reads_like. exact R. Qed.
Lemma a_size : size c = slen l. Proof. apply R. Qed.

(** The searches find the empty text, and no character of the empty set. *)
Theorem C102_search : forall pos, 0 <= pos < M64 ->
  (exists r, find_n Find a (cmem Null) (size c) 0 pos = Ok r /\ least pos (occurs_at [] l) (found r)) /\
  (exists r, find_n RFind a (cmem Null) (size c) 0 pos = Ok r /\ greatest pos (occurs_at [] l) (found r)) /\
  (exists r, find_n FirstOf a (cmem Null) (size c) 0 pos = Ok r /\ least pos (in_set [] l) (found r)) /\
  (exists r, find_n LastOf a (cmem Null) (size c) 0 pos = Ok r /\ greatest pos (in_set [] l) (found r)) /\
  (exists r, find_n FirstNotOf a (cmem Null) (size c) 0 pos = Ok r /\ least pos (not_in_set [] l) (found r)) /\
  (exists r, find_n LastNotOf a (cmem Null) (size c) 0 pos = Ok r /\ greatest pos (not_in_set [] l) (found r)).
Proof.
  intros pos HP. rewrite a_size.
  pose proof a_like as AL. pose proof null_like as NL. cbn [find_n].
  split; [exact (find_correct a (cmem Null) l [] pos AL NL SZ ltac:(reflexivity) HP)|].
  split; [exact (rfind_correct a (cmem Null) l [] pos AL NL SZ HP)|].
  split; [exact (first_of a (cmem Null) l [] pos AL NL SZ HP)|]. split; [exact (last_of a (cmem Null) l [] pos AL NL SZ HP)|].
  split; [exact (first_not_of a (cmem Null) l [] pos AL NL SZ HP)|]. exact (last_not_of a (cmem Null) l [] pos AL NL SZ HP).
Qed.

(** compare(pos1, n1, s, 0) compares with the empty text; starts_with and
    ends_with of an empty view are true. *)
Theorem C102_compare : forall pos n1, 0 <= pos < M64 -> 0 <= n1 < M64 ->
  match compare_at a (size c) pos n1 (cmem Null) 0 with
  | Ok (Some r) => pos <= slen l /\ orders (piece pos n1 l) [] r
  | Ok None => slen l < pos
  | _ => False
  end.
Proof.
  intros pos n1 HP HN. rewrite a_size. change 0 with (slen (@nil Z)).
  rewrite (compare_at_like a (cmem Null) l [] pos n1 a_like null_like) by lia.
  destruct (Z.leb_spec pos (slen l)); [|assumption]. split; [assumption|]. apply lex_orders.
Qed.
Theorem C102_starts_ends : starts_with a (size c) (cmem Null) 0 = Ok true /\ ends_with a (size c) (cmem Null) 0 = Ok true.
Proof.
  destruct (starts_ok h c l R _ [] null_like) as (b & E & B). destruct (ends_ok h c l R _ [] null_like) as (b' & E' & B').
  change (slen (@nil Z)) with 0 in E, E'. unfold a. rewrite E, E'. split; f_equal.
  - apply B. exists l. reflexivity.
  - apply B'. exists l. rewrite app_nil_r. reflexivity.
Qed.
End Read.
Print Assumptions C102_unused.
Print Assumptions C102_written_partial.
Print Assumptions C102_same_partial.
Print Assumptions C102_search.
Print Assumptions C102_compare.
Print Assumptions C102_starts_ends.

#[local] Existing Instance Char8.
(** Strings that share a buffer, and a short one. *)
Example C102_ex : forall dbg, after dbg false plenty 0 [SNew (letters 300); SCopy 0; SNew [97; 98]] (fun s ss =>
  ss = [Some (letters 300); Some (letters 300); Some [97; 98]] /\
  shown_by (run_z dbg false plenty 0 s ZNew Null) = Some [Some (map Some (letters 300)); Some (map Some (letters 300)); Some (map Some [97; 98]); Some []] /\
  shown_by (run_z dbg false plenty 0 s (ZAssign 1) Null) = Some [Some (map Some (letters 300)); Some []; Some (map Some [97; 98])] /\
  shown_by (run_z dbg false plenty 0 s (ZAppend 2) Null) = Some [Some (map Some (letters 300)); Some (map Some (letters 300)); Some (map Some [97; 98])] /\
  shown_by (run_z dbg false plenty 0 s (ZInsert 1 7) Null) = Some [Some (map Some (letters 300)); Some (map Some (letters 300)); Some (map Some [97; 98])] /\
  StrCases.ends (run_z dbg false plenty 0 s (ZInsert 2 3) Null) = Throws OutOfRange).
Proof. intros []; vm_compute; repeat split. Qed.

(** Full statement: replace(pos, n1, nullptr, 0) erases, as it does with any
    other pointer.  It forms [&*s1] of the null pointer. *)
Theorem C102_replace_refuted : forall dbg, after dbg false plenty 0 [SNew [97; 98; 99]] (fun s ss =>
  ss = [Some [97; 98; 99]] /\
  shown_by (run_z dbg false plenty 0 s (ZReplace 0 1 1) (At [])) = Some [Some (map Some [97; 99])] /\
  StrCases.ends (run_z dbg false plenty 0 s (ZReplace 0 1 1) Null) = Undefined /\
  StrCases.ends (run_z dbg false plenty 0 s (ZReplace 0 4 1) Null) = Throws OutOfRange).
Proof. intros []; vm_compute; repeat split. Qed.
Print Assumptions C102_replace_refuted.

Example C102_read_ex : 
  map (fun f => find_n f (list_mem [97; 98]) (cmem Null) 2 0 1) [Find; RFind; FirstOf; LastOf; FirstNotOf; LastNotOf] =
  [Ok 1; Ok 1; Ok npos; Ok npos; Ok 1; Ok 1] /\
  compare_at (list_mem [97; 98]) 2 1 5 (cmem Null) 0 = Ok (Some 1) /\ compare_at (list_mem [97; 98]) 2 3 5 (cmem Null) 0 = Ok None /\
  find_n Find (list_mem [97; 98]) (cmem Null) 2 1 0 = Undef.
Proof. vm_compute. repeat split. Qed.
