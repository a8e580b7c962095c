(** Properties C33 to C37, C41 to C43, C45, C48, C49 and C60: stdb::memory::string.

    [reach dbg false mal 0 n s] (StrStatements): the strings [s] are the result
    of [n] permitted calls, with assertions on or off ([dbg]; on also switches
    the small-string optimisation off) and the malloc [mal]; calls may have
    thrown, but no realloc has failed so far.  [sees s ss]: size(), the
    characters and the terminator of every string are those of [ss].
    [step_ok], [gives]: what a call may do; without lack of memory it returns
    and the strings have the values given.  [ChT]: characters of one, two or
    four bytes ([csize]); [limit] characters are 2^62 bytes. *)
Require Import ZArith List Bool Lia.
From Verif Require Import Base StrSpec StrModel StrStatements StrCases StrProofs9 StrProofs12 StrProofs13 StrProofs14.
Import ListNotations.
Open Scope Z_scope.

(** ** C33 *)

(** C33: what is stored in a medium or large object is what is found there. *)
Theorem C33_heap_decodes {ChT : CharType} : forall o b n cap cat, 0 <= n < M64 -> 0 <= cap < limit -> cat = is_medium \/ cat = is_large ->
  let c := set_capacity (set_size (set_data o b) n) cap cat in
  category c = cat /\ size c = n /\ ml_capacity c = cap /\ c_data c = b.
Proof. exact heap_decode. Qed.
Print Assumptions C33_heap_decodes.

(** C33: up to 23 bytes of characters put into any object are found there, with the terminator. *)
Theorem C33_small_decodes {ChT : CharType} : forall h o l, Forall is_char l -> slen l <= 23 / csize -> forall dbg,
  exists c, init_small dbg (PExt (map Some l)) (slen l) h o = Ret tt h c /\
    category c = is_small /\ reads h c l /\ data c = PSelf 0 /\ c_al c = c_al o.
Proof. exact small_decode. Qed.
Print Assumptions C33_small_decodes.

(** C33: the word-wise copy of release builds stores the same; whatever follows
    the characters in memory ([src i] for [i >= n]) has no influence on what is read. *)
Theorem C33_words_decode {ChT : CharType} : forall src n o l h, (forall k, is_char (src k)) -> 0 <= n <= 23 / csize -> slen l = n ->
  (forall i, 0 <= i < n -> nth (Z.to_nat i) l 0 = src i) -> reads h (init_small_words src n o) l.
Proof. exact words_reads. Qed.
Print Assumptions C33_words_decode.

(** C33: a string constructed from [l] is inline up to 23 bytes (not in
    debug builds), medium up to 254, refcounted above. *)
Theorem C33_kind_by_size {ChT : CharType} : forall dbg mal s l s', slen l < limit -> step dbg false mal 0 s (SNew l) = SRet s' ->
  exists c, s_objs s' = s_objs s ++ [Some c] /\ category c = kind_for dbg false (slen l).
Proof. intros dbg mal s l s'. exact (step_new_kind dbg false mal 0 s l s'). Qed.
Print Assumptions C33_kind_by_size.

Section Str.
Context {ChT : CharType}.
Variables (dbg : bool) (mal : nat -> Z -> bool).
Hypothesis MS : mal_sane mal.
Notation reach := (reach dbg false mal 0).
Notation step := (step dbg false mal 0).
Lemma no_arena : ar_ok dbg false 0. Proof. reflexivity. Qed.

(** C33: every string of every execution is in one of the three representations, and size() decodes it. *)
Theorem C33_every_string : forall n s i c, reach n s -> short n -> sget (s_objs s) i = Some c ->
  category c = is_small /\ size c <= 23 / csize \/ category c = is_medium /\ size c = c_size c \/ category c = is_large /\ size c = c_size c.
Proof. exact (reach_kinds dbg false mal 0 MS no_arena). Qed.

(** ** C34 *)

(** C34: in every execution, whatever is shared, every call does to the strings
    what it does to independent character sequences ([s_apply], StrSpec).
    Missing: the calls excluded by [allowed]: inserting a piece of the string
    itself (C42) and counts of 2^62 and more (see the refutation). *)
Theorem C34_value_semantics_partial : forall n s ss o, reach n s -> short n -> sees s ss -> allowed 0 ss o ->
  step_ok o s ss (step s o).
Proof. exact (fun n s ss o => reach_step dbg false mal 0 n s ss o MS no_arena). Qed.
(** C34: and the strings always read as some sequences. *)
Theorem C34_readable : forall n s, reach n s -> short n -> exists ss, sees s ss.
Proof. exact (reach_sees dbg false mal 0 MS no_arena). Qed.

(** ** C35 *)

(** C35: the reference count is the number of strings sharing the buffer; other buffers have one string. *)
Theorem C35_counts_exact : forall n s b k, reach n s -> short n -> blk (s_heap s) b = Some k -> bk_live k = true ->
  match bk_kind k with Plain => holders s b = 1 | Counted r => holders s b = r end.
Proof. exact (fun n s b k => reach_refs dbg false mal 0 MS no_arena n s b k eq_refl). Qed.
(** C35: strings keep their characters in memory not yet freed. *)
Theorem C35_holds_live : forall n s i c, reach n s -> short n -> sget (s_objs s) i = Some c -> category c <> is_small ->
  exists k, blk (s_heap s) (c_data c) = Some k /\ bk_live k = true /\ bk_res k = c_al c.
Proof. exact (reach_live dbg false mal 0 MS no_arena). Qed.
(** C35: when all strings are destroyed no buffer remains. *)
Theorem C35_no_leak : forall n s b k, reach n s -> short n -> (forall i, sget (s_objs s) i = None) -> blk (s_heap s) b = Some k -> bk_live k = false.
Proof. exact (fun n s b k => reach_no_leak dbg false mal 0 MS no_arena n s b k eq_refl). Qed.
(** C35: no call reads, writes or frees memory that is freed or not its own (the
    model is undefined there) and no assertion fails, unless a realloc fails.
    Missing: the calls excluded by [allowed], as in C34. *)
Theorem C35_never_faults_partial : forall n s ss o, reach n s -> short n -> sees s ss -> allowed 0 ss o ->
  match step s o with SUB h => h_rfail h = true | SAFail => False | _ => True end.
Proof.
  intros n s ss o H SH SE AL. pose proof (C34_value_semantics_partial n s ss o H SH SE AL) as Y.
  destruct (step s o) as [s'|e s'|h| |h]; cbn in Y; auto.
Qed.

(** ** C36 *)

(** C36: c_str()[size()] is 0, size() <= capacity(), room for capacity() + 1 characters. *)
Theorem C36_terminated_within_capacity : forall n s i c, reach n s -> short n -> sget (s_objs s) i = Some c ->
  exists cap, capacity (s_heap s) c = Ret cap (s_heap s) c /\ size c <= cap /\ room (s_heap s) c (cap + 1) /\ after_last (s_heap s) c = Some 0.
Proof. exact (reach_capacity dbg false mal 0 MS no_arena). Qed.

(** ** C37 *)

(** C37: after an allocation failed, other than in realloc, every string is as
    before, except that the one worked on may have another value; all can be
    read and the execution goes on (also with destroying them).
    Missing: a failed realloc; calls that end the program; see the refutations. *)
Theorem C37_usable_after_bad_alloc_partial : forall n s ss o s', reach n s -> short n -> sees s ss -> allowed 0 ss o ->
  step s o = SThr BadAlloc s' -> h_rfail (s_heap s') = false ->
  reach (S n) s' /\ exists ss', hurt o ss ss' /\ sees s' ss'.
Proof.
  intros n s ss o s' H SH SE AL ST RF. split.
  - eapply reach_next; [exact H|exact SE|exact AL|right; exists BadAlloc; exact ST|exact RF].
  - pose proof (C34_value_semantics_partial n s ss o H SH SE AL) as Y. rewrite ST in Y. apply Y. exact RF.
Qed.

(** ** C41 *)

(** C41: appending to, or assigning, a string a piece of itself. *)
Theorem C41_append_own_piece : forall n s ss i l off k, reach n s -> short n -> sees s ss -> sget ss i = Some l ->
  0 <= off -> 0 <= k -> off + k <= slen l ->
  gives (step s (SOn i (UAppend (Piece i off k)))) (sset i (Some (l ++ piece off k l)) ss).
Proof.
  intros n s ss i l off k H SH SE El H1 H2 H3. eapply (reach_on dbg false mal 0 MS no_arena); try eassumption; try reflexivity; try exact I.
  apply own_arg; assumption.
Qed.
Theorem C41_assign_own_piece : forall n s ss i l off k, reach n s -> short n -> sees s ss -> sget ss i = Some l ->
  0 <= off -> 0 <= k -> off + k <= slen l ->
  gives (step s (SOn i (UAssign (Piece i off k)))) (sset i (Some (piece off k l)) ss).
Proof.
  intros n s ss i l off k H SH SE El H1 H2 H3. eapply (reach_on dbg false mal 0 MS no_arena); try eassumption; try reflexivity; try exact I.
  apply own_arg; assumption.
Qed.

(** ** C42 *)

(** C42: replace with a piece of the string itself. *)
Theorem C42_replace_own_piece : forall n s ss i l pos m off k, reach n s -> short n -> sees s ss -> sget ss i = Some l ->
  size_t pos -> pos <= slen l -> size_t m -> 0 <= off -> 0 <= k -> off + k <= slen l ->
  gives (step s (SOn i (UReplace pos m (Piece i off k)))) (sset i (Some (splice pos m (piece off k l) l)) ss).
Proof.
  intros n s ss i l pos m off k H SH SE El Hp Hp' Hm H1 H2 H3. eapply (reach_on dbg false mal 0 MS no_arena); try eassumption.
  - apply own_arg; eassumption.
  - cbn [u_apply]. unfold in_size. apply Z.leb_le in Hp'. rewrite Hp'. reflexivity.
  - cbn [uop_ok arg_ok]. repeat match goal with |- _ /\ _ => split end; auto. congruence.
Qed.
(** C42: insert of a piece of the string itself, when the string is shared, or
    has room for the result and the piece starts not behind the position.
    Missing: the other cases, see the refutations. *)
Theorem C42_insert_own_piece_partial : forall n s ss i c l pos off k, reach n s -> short n -> sees s ss ->
  sget (s_objs s) i = Some c -> sget ss i = Some l -> 0 <= off <= pos -> pos <= slen l -> 0 <= k -> off + k <= slen l ->
  is_shared (s_heap s) c = Ret true (s_heap s) c \/ has_room dbg false (s_heap s) c (slen l + k) ->
  gives (step s (SOn i (UInsert pos (Piece i off k)))) (sset i (Some (splice pos 0 (piece off k l) l)) ss).
Proof. exact (reach_insert_own dbg false mal 0 MS no_arena). Qed.

(** ** C43 *)

(** C43: the editing operations, for arguments not referring into the string. *)
Theorem C43_insert : forall n s ss i l pos x, reach n s -> short n -> sees s ss -> sget ss i = Some l -> size_t pos -> pos <= slen l -> chars x ->
  gives (step s (SOn i (UInsert pos (Chars x)))) (sset i (Some (stake pos l ++ x ++ sdrop pos l)) ss).
Proof.
  intros n s ss i l pos x H SH SE El Hp Hp' Hx. apply Z.leb_le in Hp'. eapply (reach_on dbg false mal 0 MS no_arena); try eassumption; try reflexivity.
  - cbn [u_apply]. unfold in_size. rewrite Hp'. unfold splice. rewrite Z.add_0_r. reflexivity.
  - split; [exact Hp|]. split; [exact Hx|exact I].
Qed.
Theorem C43_insert_n : forall n s ss i l pos k c, reach n s -> short n -> sees s ss -> sget ss i = Some l -> size_t pos -> pos <= slen l -> count k -> is_char c ->
  gives (step s (SOn i (UInsertN pos k c))) (sset i (Some (stake pos l ++ srep k c ++ sdrop pos l)) ss).
Proof.
  intros n s ss i l pos k c H SH SE El Hp Hp' Hk Hc. apply Z.leb_le in Hp'. eapply (reach_on dbg false mal 0 MS no_arena); try eassumption; try reflexivity.
  - cbn [u_apply]. unfold in_size. rewrite Hp'. unfold splice. rewrite Z.add_0_r. reflexivity.
  - split; [exact Hp|]. split; assumption.
Qed.
Theorem C43_erase : forall n s ss i l pos k, reach n s -> short n -> sees s ss -> sget ss i = Some l -> size_t pos -> pos <= slen l -> size_t k ->
  gives (step s (SOn i (UErase pos k))) (sset i (Some (stake pos l ++ sdrop (pos + k) l)) ss).
Proof.
  intros n s ss i l pos k H SH SE El Hp Hp' Hk. apply Z.leb_le in Hp'. eapply (reach_on dbg false mal 0 MS no_arena); try eassumption; try reflexivity.
  - cbn [u_apply]. unfold in_size. rewrite Hp'. reflexivity.
  - split; assumption.
Qed.
Theorem C43_replace : forall n s ss i l pos k x, reach n s -> short n -> sees s ss -> sget ss i = Some l -> size_t pos -> pos <= slen l -> size_t k -> chars x ->
  gives (step s (SOn i (UReplace pos k (Chars x)))) (sset i (Some (stake pos l ++ x ++ sdrop (pos + k) l)) ss).
Proof.
  intros n s ss i l pos k x H SH SE El Hp Hp' Hk Hx. apply Z.leb_le in Hp'. eapply (reach_on dbg false mal 0 MS no_arena); try eassumption; try reflexivity.
  - cbn [u_apply]. unfold in_size. rewrite Hp'. reflexivity.
  - split; [exact Hp|]. split; [exact Hk|]. split; [exact Hx|]. congruence.
Qed.
Theorem C43_replace_n : forall n s ss i l pos k m c, reach n s -> short n -> sees s ss -> sget ss i = Some l -> size_t pos -> pos <= slen l -> size_t k -> count m -> is_char c ->
  gives (step s (SOn i (UReplaceN pos k m c))) (sset i (Some (stake pos l ++ srep m c ++ sdrop (pos + k) l)) ss).
Proof.
  intros n s ss i l pos k m c H SH SE El Hp Hp' Hk Hm Hc. apply Z.leb_le in Hp'. eapply (reach_on dbg false mal 0 MS no_arena); try eassumption; try reflexivity.
  - cbn [u_apply]. unfold in_size. rewrite Hp'. reflexivity.
  - split; [exact Hp|]. split; [exact Hk|]. split; assumption.
Qed.
Theorem C43_resize : forall n s ss i l k c, reach n s -> short n -> sees s ss -> sget ss i = Some l -> count k -> is_char c ->
  gives (step s (SOn i (UResize k c))) (sset i (Some (stake k l ++ srep (k - slen l) c)) ss).
Proof. intros n s ss i l k c H SH SE El Hk Hc. eapply (reach_on dbg false mal 0 MS no_arena); try eassumption; try reflexivity. split; assumption. Qed.
(** C43: substr, as a member of an lvalue and of an rvalue, and the constructor (str, pos, n). *)
Theorem C43_substr : forall n s ss j l p k, reach n s -> short n -> sees s ss -> sget ss j = Some l -> size_t p -> p <= slen l -> size_t k ->
  gives (step s (SSubstr j p k)) (ss ++ [Some (stake k (sdrop p l))]) /\
  gives (step s (SSub j p k)) (ss ++ [Some (stake k (sdrop p l))]) /\
  gives (step s (SSubstrMove j p k)) (sset j (Some []) ss ++ [Some (stake k (sdrop p l))]).
Proof.
  intros n s ss j l p k H SH SE El Hp Hp' Hk. pose proof (reach_substr dbg false mal 0 MS no_arena n s ss j l p k H SH SE El Hp Hk) as Y.
  apply Z.leb_le in Hp'. rewrite Hp' in Y. exact Y.
Qed.

(** ** C43, C60: positions behind the end *)

(** C43: out_of_range is thrown and nothing has changed: neither objects nor memory. *)
Theorem C43_out_of_range_unchanged : forall n s ss i l o x, reach n s -> short n -> sees s ss -> sget ss i = Some l ->
  arg_val ss (arg_of o) = Some x ->
  match o with
  | UInsert pos _ | UInsertN pos _ _ | UErase pos _ | UReplace pos _ _ | UReplaceN pos _ _ _ => slen l < pos
  | UAtSet pos _ => slen l <= pos
  | _ => False
  end ->
  step s (SOn i o) = SThr OutOfRange {| s_heap := clean (s_heap s); s_objs := s_objs s |}.
Proof.
  intros n s ss i l o x H SH SE El Ex P. eapply (reach_on_range dbg false mal 0 MS no_arena); try eassumption.
  destruct o; try contradiction; cbn [u_apply]; unfold in_size; try (apply Z.leb_gt in P; rewrite P; reflexivity). apply Z.ltb_ge in P. rewrite P. reflexivity.
Qed.
(** C60: so do at() and substr(); the result of substr does not exist. *)
Theorem C60_string_out_of_range : forall n s ss i l, reach n s -> short n -> sees s ss -> sget ss i = Some l ->
  (forall pos c, slen l <= pos -> step s (SOn i (UAtSet pos c)) = SThr OutOfRange {| s_heap := clean (s_heap s); s_objs := s_objs s |}) /\
  (forall pos k, size_t pos -> size_t k -> slen l < pos ->
     step s (SSubstr i pos k) = SThr OutOfRange {| s_heap := clean (s_heap s); s_objs := s_objs s ++ [None] |} /\
     step s (SSubstrMove i pos k) = SThr OutOfRange {| s_heap := clean (s_heap s); s_objs := s_objs s ++ [None] |}) /\
  (forall pos k, slen l < pos -> step s (SOn i (UErase pos k)) = SThr OutOfRange {| s_heap := clean (s_heap s); s_objs := s_objs s |}) /\
  (forall pos x, slen l < pos -> step s (SOn i (UInsert pos (Chars x))) = SThr OutOfRange {| s_heap := clean (s_heap s); s_objs := s_objs s |}) /\
  (forall pos k x, slen l < pos -> step s (SOn i (UReplace pos k (Chars x))) = SThr OutOfRange {| s_heap := clean (s_heap s); s_objs := s_objs s |}).
Proof.
  intros n s ss i l H SH SE El.
  assert (R : forall o x, arg_val ss (arg_of o) = Some x -> match o with
    | UInsert pos _ | UInsertN pos _ _ | UErase pos _ | UReplace pos _ _ | UReplaceN pos _ _ _ => slen l < pos
    | UAtSet pos _ => slen l <= pos | _ => False end -> step s (SOn i o) = SThr OutOfRange {| s_heap := clean (s_heap s); s_objs := s_objs s |})
    by (intros o x; exact (C43_out_of_range_unchanged n s ss i l o x H SH SE El)).
  split; [|split; [|split; [|split]]]; intros.
  - eapply R; [reflexivity|assumption].
  - pose proof (reach_substr dbg false mal 0 MS no_arena n s ss i l pos k H SH SE El ltac:(assumption) ltac:(assumption)) as Y.
    destruct (Z.leb_spec pos (slen l)); [lia|exact Y].
  - eapply R; [reflexivity|assumption].
  - eapply R; [reflexivity|assumption].
  - eapply R; [reflexivity|assumption].
Qed.

(** ** C45 *)

(** C45: writing through data() of a string that is not shared.
    Missing: shared strings, see the refutation. *)
Theorem C45_data_write_partial : forall n s ss i c l k v, reach n s -> short n -> sees s ss -> sget (s_objs s) i = Some c -> sget ss i = Some l ->
  is_shared (s_heap s) c = Ret false (s_heap s) c -> 0 <= k < slen l -> is_char v ->
  exists s', poke_obj s i k v = SRet s' /\ sees s' (sset i (Some (splice k 1 [v] l)) ss).
Proof. exact (reach_poke dbg false mal 0 MS no_arena). Qed.

(** ** C48 *)

(** C48: reserve gives capacity at least n, an unshared string, and changes no contents. *)
Theorem C48_reserve : forall n s ss i l m s', reach n s -> short n -> sees s ss -> sget ss i = Some l -> 0 <= m < 2 * limit ->
  step s (SOn i (UReserve m)) = SRet s' ->
  sees s' ss /\ exists c cap, sget (s_objs s') i = Some c /\ capacity (s_heap s') c = Ret cap (s_heap s') c /\ m <= cap /\ is_shared (s_heap s') c = Ret false (s_heap s') c.
Proof. exact (reach_reserve dbg false mal 0 MS no_arena). Qed.
(** C48: appending within the capacity of an unshared string asks for no
    memory, succeeds, and the characters stay where they are.
    Missing: empty strings in debug builds, see the refutation ([has_room]). *)
Theorem C48_append_in_place_partial : forall n s ss i c l o x l', reach n s -> short n -> sees s ss -> sget (s_objs s) i = Some c -> sget ss i = Some l ->
  allowed 0 ss (SOn i o) -> appends o -> arg_val ss (arg_of o) = Some x -> u_apply o x l = Val l' -> has_room dbg false (s_heap s) c (slen l') ->
  exists s' c', step s (SOn i o) = SRet s' /\ sees s' (sset i (Some l') ss) /\ no_request (s_heap s) (s_heap s') /\
    sget (s_objs s') i = Some c' /\ (category c <> is_small -> c_data c' = c_data c).
Proof. exact (reach_append dbg false mal 0 MS no_arena). Qed.
(** C48: shrink_to_fit keeps the contents. *)
Theorem C48_shrink_to_fit : forall n s ss i l, reach n s -> short n -> sees s ss -> sget ss i = Some l ->
  gives (step s (SOn i UShrink)) ss.
Proof.
  intros n s ss i l H SH SE El. rewrite <- (StrProofs8.sset_same _ _ _ El). eapply (reach_on dbg false mal 0 MS no_arena); try eassumption; try reflexivity; exact I.
Qed.

(** ** C49 *)

(** C49: every overload of operator+ returns the concatenation; only an operand moved from may change. *)
Theorem C49_concatenation : forall n s ss o v, reach n s -> short n -> sees s ss -> concat_val o ss = Some v -> sop_ok 0 ss o ->
  match step s o with
  | SRet s' => exists ss1, sees s' (ss1 ++ [Some v]) /\ length ss1 = length ss /\ forall i, moved o <> Some i -> sget ss1 i = sget ss i
  | SThr BadAlloc s' => h_refused (s_heap s') = true
  | STerm h => h_refused h = true
  | SUB h => h_rfail h = true
  | _ => False
  end.
Proof. exact (reach_plus dbg false mal 0 MS no_arena). Qed.
(** C49: a left operand moved from is used when it has room: no memory is asked for. *)
Theorem C49_moved_operand_reused : forall n s ss o j c v, reach n s -> short n -> sees s ss -> concat_val o ss = Some v -> sop_ok 0 ss o ->
  moved_left o = Some j -> sget (s_objs s) j = Some c -> has_room dbg false (s_heap s) c (slen v) ->
  exists s' ss1 objs c', step s o = SRet s' /\ sees s' (ss1 ++ [Some v]) /\ (forall i, i <> j -> sget ss1 i = sget ss i) /\
    no_request (s_heap s) (s_heap s') /\ s_objs s' = objs ++ [Some c'] /\ (category c <> is_small -> c_data c' = c_data c).
Proof. exact (reach_plus_moved dbg false mal 0 MS no_arena). Qed.
End Str.
Print Assumptions C33_every_string.
Print Assumptions C34_value_semantics_partial.
Print Assumptions C34_readable.
Print Assumptions C35_counts_exact.
Print Assumptions C35_holds_live.
Print Assumptions C35_no_leak.
Print Assumptions C35_never_faults_partial.
Print Assumptions C36_terminated_within_capacity.
Print Assumptions C37_usable_after_bad_alloc_partial.
Print Assumptions C41_append_own_piece.
Print Assumptions C41_assign_own_piece.
Print Assumptions C42_replace_own_piece.
Print Assumptions C42_insert_own_piece_partial.
Print Assumptions C43_insert.
Print Assumptions C43_insert_n.
Print Assumptions C43_erase.
Print Assumptions C43_replace.
Print Assumptions C43_replace_n.
Print Assumptions C43_resize.
Print Assumptions C43_substr.
Print Assumptions C43_out_of_range_unchanged.
Print Assumptions C60_string_out_of_range.
Print Assumptions C45_data_write_partial.
Print Assumptions C48_reserve.
Print Assumptions C48_append_in_place_partial.
Print Assumptions C48_shrink_to_fit.
Print Assumptions C49_concatenation.
Print Assumptions C49_moved_operand_reused.

(** ** Examples: executions that meet the hypotheses above, with char; see PropStrWide.v for wider characters *)
#[local] Existing Instance Char8.

Example C33_heap_decodes_ex :
  let c := set_capacity (set_size (set_data {| c_data := 7; c_size := 9; c_cap := 20; c_al := 0 |} 3) 200) 4611686018427387903 is_large in
  (category c, size c, ml_capacity c, c_data c) = (is_large, 200, 4611686018427387903, 3).
Proof. reflexivity. Qed.
Example C33_small_decodes_ex :
  match init_small false (PExt (map Some (letters 23))) 23 (s_heap s_init) {| c_data := -1; c_size := 77; c_cap := 123456789; c_al := 0 |} with
  | Ret _ h c => category c = is_small /\ size c = 23 /\ value h c = Some (map Some (letters 23)) /\ after_last h c = Some 0
  | _ => False
  end.
Proof. vm_compute. repeat split. Qed.
Example C33_words_decode_ex :
  let c := init_small_words (fun i => Z.abs i mod 256) 10 (blank 0) in
  value (s_heap s_init) c = Some (map Some [0;1;2;3;4;5;6;7;8;9]) /\ size c = 10.
Proof. vm_compute. split; reflexivity. Qed.
Example C33_kind_by_size_ex : forall dbg,
  after dbg false plenty 0 [SNew (letters 23); SNew (letters 24); SNew (letters 254); SNew (letters 255)]
    (fun s _ => map (option_map category) (s_objs s) =
      [Some (if dbg then is_medium else is_small); Some is_medium; Some is_medium; Some is_large]).
Proof. intros []; vm_compute; reflexivity. Qed.

(** [after ... ops P]: the calls [ops] are permitted, none fails, and [P] holds
    then.  So [reach], [short] and [sees] hold there: *)
Example run_is_reached : forall dbg ops P, slen ops < 2 ^ 40 -> after dbg false plenty 0 ops P ->
  exists n s ss, reach dbg false plenty 0 n s /\ short n /\ sees s ss /\ P s ss.
Proof. intros dbg ops P. exact (after_reach dbg false plenty 0 ops P plenty_sane eq_refl). Qed.
Definition values (ss : list (option (list Z))) := map (option_map (map (@Some Z))) ss.
(** A program in which large strings share a buffer, are unshared, moved, swapped and destroyed. *)
Definition prog : list sop :=
  [SNew (letters 300); SCopy 0; SCopy 1; SOn 1 (UPush 65); SNew (letters 5); SOn 3 (UAppend (Piece 0 0 40)); SMove 2; SSwap 0 3; SAssign 2 4; SOn 0 (UErase 2 7); SDestroy 1].

Example C33_every_string_ex : forall dbg, after dbg false plenty 0 prog (fun s _ =>
  map (option_map (fun c => (category c, size c))) (s_objs s) =
  [Some (is_medium, 38); None; Some (is_large, 300); Some (is_large, 300); Some (is_large, 300)]).
Proof. intros []; vm_compute; reflexivity. Qed.
Example C34_value_semantics_ex : forall dbg, after dbg false plenty 0 prog (fun s ss =>
  shown s = map (fun x => match x with Some l => Some (map Some l) | None => None end) ss /\
  ss = [Some (stake 2 (letters 5) ++ sdrop 9 (letters 5 ++ letters 40)); None; Some (letters 300); Some (letters 300); Some (letters 300)]).
Proof. intros []; vm_compute; split; reflexivity. Qed.
(** C34 is false without the restriction on counts: [s.append(2^64 - 1, 'A')] on 30 characters. *)
Theorem C34_value_semantics_refuted : forall dbg, exists n s ss,
  reach dbg false plenty 0 n s /\ short n /\ sees s ss /\ s_apply (SOn 0 (UAppendN (M64 - 1) 65)) ss <> [] /\
  ends (step dbg false plenty 0 s (SOn 0 (UAppendN (M64 - 1) 65))) = Undefined /\ h_rfail (s_heap s) = false.
Proof.
  intros dbg. destruct (after_reach dbg false plenty 0 [SNew (letters 30)] (fun s ss => sget ss 0%nat = Some (letters 30) /\
    ends (step dbg false plenty 0 s (SOn 0 (UAppendN (M64 - 1) 65))) = Undefined /\ h_rfail (s_heap s) = false) plenty_sane eq_refl) as (n & s & ss & H & SH & SE & E & X).
  - vm_compute. reflexivity.
  - destruct dbg; vm_compute; repeat split.
  - exists n, s, ss. split; [exact H|]. split; [exact SH|]. split; [exact SE|]. split; [|exact X].
    unfold s_apply. rewrite E. cbn. discriminate.
Qed.
Print Assumptions C34_value_semantics_refuted.

Example C35_counts_ex : forall dbg, after dbg false plenty 0 prog (fun s _ =>
  map (fun k => (bk_live k, bk_kind k)) (filter bk_live (h_blocks (s_heap s))) = [(true, Counted 2); (true, Plain); (true, Counted 1)] /\
  map (holders s) (map Z.of_nat (seq 0 (length (h_blocks (s_heap s))))) =
  map (fun k => if bk_live k then match bk_kind k with Plain => 1 | Counted r => r end else 0) (h_blocks (s_heap s))).
Proof. intros []; vm_compute; split; reflexivity. Qed.
Example C35_no_leak_ex : forall dbg, after dbg false plenty 0 (prog ++ [SDestroy 0; SDestroy 2; SDestroy 3; SDestroy 4]) (fun s _ =>
  live_blocks (s_heap s) = 0 /\ negb (length (h_blocks (s_heap s)) =? 0)%nat = true /\ forallb (fun x => match x with Some _ => false | None => true end) (s_objs s) = true).
Proof. intros []; vm_compute; repeat split. Qed.
Example C36_ex : forall dbg, after dbg false plenty 0 prog (fun s _ =>
  map (option_map (fun c => (match capacity (s_heap s) c with Ret n _ _ => Some (size c <=? n) | _ => None end, after_last (s_heap s) c))) (s_objs s) =
  let y := Some (Some true, Some 0) in [y; None; y; y; y]).
Proof. intros []; vm_compute; reflexivity. Qed.

(** C37: the malloc refuses its second request; appending throws and the string is as it was. *)
Example C37_ex : forall dbg, after dbg false (except 1) 0 [SNew (letters 100)] (fun s _ =>
  let r := step dbg false (except 1) 0 s (SOn 0 (UAppend (Chars (letters 400)))) in
  ends r = Throws BadAlloc /\ shown_by r = Some [Some (map Some (letters 100))] /\ match r with SThr _ s' => h_rfail (s_heap s') = false | _ => False end).
Proof. intros []; vm_compute; repeat split. Qed.
(** C37 is false when realloc fails: the buffer was freed although the string
    still points to it; not even destroying the string is possible. *)
Theorem C37_usable_after_bad_alloc_refuted : forall dbg, exists n s ss s',
  reach dbg false (except 1) 0 n s /\ short n /\ sees s ss /\ allowed 0 ss (SOn 0 (UReserve 1000)) /\
  step dbg false (except 1) 0 s (SOn 0 (UReserve 1000)) = SThr BadAlloc s' /\
  shown s' = [None] /\ ends (step dbg false (except 1) 0 s' (SDestroy 0)) = Undefined.
Proof.
  intros dbg. destruct (after_reach dbg false (except 1) 0 [SNew (letters 300)] (fun s ss => ss = [Some (letters 300)] /\
    match step dbg false (except 1) 0 s (SOn 0 (UReserve 1000)) with
    | SThr BadAlloc s' => shown s' = [None] /\ ends (step dbg false (except 1) 0 s' (SDestroy 0)) = Undefined
    | _ => False end) (except_sane 1) eq_refl) as (n & s & ss & H & SH & SE & E & X).
  - vm_compute. reflexivity.
  - destruct dbg; vm_compute; repeat split.
  - destruct (step dbg false (except 1) 0 s (SOn 0 (UReserve 1000))) as [|[] s'| | |] eqn:ST; try contradiction.
    exists n, s, ss, s'. split; [exact H|]. split; [exact SH|]. split; [exact SE|]. split; [|auto].
    subst ss. split; [discriminate|]. apply sop_b_ok. vm_compute. reflexivity.
Qed.
Print Assumptions C37_usable_after_bad_alloc_refuted.
(** C37 is false of the functions declared noexcept: copying a medium string,
    and writing through operator[] of, or pop_back on, a shared one, end the program. *)
Theorem C37_noexcept_refuted : forall dbg,
  after dbg false (except 1) 0 [SNew (letters 100)] (fun s _ => ends (step dbg false (except 1) 0 s (SCopy 0)) = Terminates) /\
  after dbg false (except 1) 0 [SNew (letters 300); SCopy 0] (fun s _ =>
    ends (step dbg false (except 1) 0 s (SOn 0 (USet 0 1))) = Terminates /\ ends (step dbg false (except 1) 0 s (SOn 0 UPop)) = Terminates).
Proof. intros []; vm_compute; repeat split. Qed.
Print Assumptions C37_noexcept_refuted.

Example C41_ex : forall dbg,
  after dbg false plenty 0 [SNew (letters 5); SOn 0 (UAppend (Piece 0 1 3)); SNew (letters 253); SOn 1 (UAppend (Piece 1 250 3)); SCopy 1; SOn 1 (UAssign (Piece 1 2 4))]
    (fun s ss => shown s = values ss /\ ss = [Some (letters 5 ++ [98; 99; 100]); Some [99; 100; 101; 102]; Some (letters 253 ++ [113; 114; 115])]).
Proof. intros []; vm_compute; split; reflexivity. Qed.
Example C42_replace_ex : forall dbg, after dbg false plenty 0 [SNew [1; 2; 3; 4]; SOn 0 (UReplace 1 2 (Piece 0 0 3))] (fun s ss => shown s = values ss /\ ss = [Some [1; 1; 2; 3; 4]]).
Proof. intros []; vm_compute; split; reflexivity. Qed.
(** C42: with room and the piece in front, insert does what it should ... *)
Example C42_insert_ex : after false false plenty 0 [SNew [1; 2; 3; 4]] (fun s ss =>
  match s_objs s with [Some c] => is_shared (s_heap s) c = Ret false (s_heap s) c /\ capacity (s_heap s) c = Ret 23 (s_heap s) c | _ => False end /\
  shown_by (step false false plenty 0 s (SOn 0 (UInsert 2 (Piece 0 1 3)))) = Some [Some (map Some [1; 2; 2; 3; 4; 3; 4])]).
Proof. vm_compute. repeat split. Qed.
(** ... behind the position it does not: [2;3] put in front of [1;2;3] gives [2;1;1;2;3]. *)
Theorem C42_insert_own_piece_refuted : exists n s ss, reach false false plenty 0 n s /\ short n /\ sees s ss /\ ss = [Some [1; 2; 3]] /\
  exists s', step false false plenty 0 s (SOn 0 (UInsert 0 (Piece 0 1 2))) = SRet s' /\ sees s' [Some [2; 1; 1; 2; 3]] /\
  ~ sees s' [Some (splice 0 0 (piece 1 2 [1; 2; 3]) [1; 2; 3])].
Proof.
  destruct (after_reach false false plenty 0 [SNew [1; 2; 3]] (fun s ss => ss = [Some [1; 2; 3]] /\
    match step false false plenty 0 s (SOn 0 (UInsert 0 (Piece 0 1 2))) with
    | SRet s' => match s_objs s' with [Some c] => reads (s_heap s') c [2; 1; 1; 2; 3] | _ => False end
    | _ => False end) plenty_sane eq_refl) as (n & s & ss & H & SH & SE & E & X).
  - vm_compute. reflexivity.
  - vm_compute. repeat split.
  - exists n, s, ss. split; [exact H|]. split; [exact SH|]. split; [exact SE|]. split; [exact E|].
    destruct (step false false plenty 0 s (SOn 0 (UInsert 0 (Piece 0 1 2)))) as [s'| | | |]; try contradiction. exists s'. split; [reflexivity|].
    destruct (s_objs s') as [|[c|] [|]] eqn:EO; try contradiction. split.
    + split; [rewrite EO; reflexivity|]. intros [|[|i]]; rewrite EO; try exact I. exact X.
    + intros (_ & Y). specialize (Y 0%nat). rewrite EO in Y. cbn in Y. destruct X as (_ & X & _), Y as (_ & Y & _). rewrite X in Y. discriminate.
Qed.
Print Assumptions C42_insert_own_piece_refuted.
(** And when the string has to grow, it reads the freed buffer (also in debug builds for short strings). *)
Theorem C42_insert_own_piece_grow_refuted :
  after false false plenty 0 [SNew (letters 30)] (fun s _ => ends (step false false plenty 0 s (SOn 0 (UInsert 0 (Piece 0 1 2)))) = Undefined) /\
  after true false plenty 0 [SNew [1; 2; 3]] (fun s _ => ends (step true false plenty 0 s (SOn 0 (UInsert 0 (Piece 0 1 2)))) = Undefined).
Proof. split; vm_compute; reflexivity. Qed.
Print Assumptions C42_insert_own_piece_grow_refuted.

Example C43_ex : forall dbg, after dbg false plenty 0
  [SNew (letters 10); SOn 0 (UInsert 3 (Chars [1; 2])); SOn 0 (UInsertN 0 2 9); SOn 0 (UErase 4 100); SOn 0 (UReplace 1 1 (Chars (letters 25))); SOn 0 (UReplaceN 2 23 1 7); SOn 0 (UResize 8 5);
   SOn 0 (UErase 9 1); SSubstr 0 1 3; SSubstrMove 0 4 100; SSub 1 9 1]
  (fun s ss => shown s = values ss /\ ss = [Some []; Some [97; 7; 121]; Some [97; 98; 5; 5]; None]).
Proof. intros []; vm_compute; split; reflexivity. Qed.
Example C60_string_ex : forall dbg, after dbg false plenty 0 [SNew (letters 10)] (fun s _ =>
  ends (step dbg false plenty 0 s (SOn 0 (UAtSet 10 1))) = Throws OutOfRange /\ ends (step dbg false plenty 0 s (SOn 0 (UAtSet 9 1))) = Returns /\
  ends (step dbg false plenty 0 s (SSubstr 0 11 1)) = Throws OutOfRange /\ ends (step dbg false plenty 0 s (SSubstr 0 10 1)) = Returns).
Proof. intros []; vm_compute; repeat split. Qed.

Example C45_ex : forall dbg, after dbg false plenty 0 [SNew (letters 300)] (fun s _ =>
  shown_by (poke_obj s 0 0 65) = Some [Some (map Some (65 :: sdrop 1 (letters 300)))]).
Proof. intros []; vm_compute; reflexivity. Qed.
(** C45 is false of shared strings: the write through data() of the copy is seen in the original. *)
Theorem C45_data_write_refuted : forall dbg, after dbg false plenty 0 [SNew (letters 300); SCopy 0] (fun s _ =>
  shown s = values [Some (letters 300); Some (letters 300)] /\
  shown_by (poke_obj s 1 0 65) = Some (values [Some (65 :: sdrop 1 (letters 300)); Some (65 :: sdrop 1 (letters 300))])).
Proof. intros []; vm_compute; split; reflexivity. Qed.
Print Assumptions C45_data_write_refuted.

Example C48_reserve_ex : forall dbg, after dbg false plenty 0 [SNew (letters 10); SOn 0 (UReserve 400); SOn 0 (UAppend (Chars (letters 390)))] (fun s ss =>
  shown s = values ss /\ h_calls (s_heap s) = (if dbg then 2 else 1)%nat).
Proof. intros []; vm_compute; split; reflexivity. Qed.
(** C48 is false of default-constructed strings in debug builds: capacity() is 23, but one character needs malloc. *)
Theorem C48_capacity_is_room_refuted : after true false plenty 0 [SDefault] (fun s _ =>
  match s_objs s with
  | [Some c] => capacity (s_heap s) c = Ret 23 (s_heap s) c /\ is_shared (s_heap s) c = Ret false (s_heap s) c
  | _ => False
  end /\
  match step true false plenty 0 s (SOn 0 (UPush 65)) with SRet s' => h_calls (s_heap s') = S (h_calls (s_heap s)) | _ => False end).
Proof. vm_compute. repeat split. Qed.
Print Assumptions C48_capacity_is_room_refuted.

Example C49_ex : forall dbg, after dbg false plenty 0 [SNew (letters 200); SNew [1; 2]; SPlus 0 1] (fun s ss =>
  shown s = values ss /\ ss = [Some (letters 200); Some [1; 2]; Some (letters 200 ++ [1; 2])] /\
  option_map (fun v => nth 3 v None) (shown_by (step dbg false plenty 0 s (SPlusMR 1 2))) = Some (Some (map Some ([1; 2] ++ letters 200 ++ [1; 2]))) /\
  option_map (fun v => nth 3 v None) (shown_by (step dbg false plenty 0 s (SPlusMR 1 1))) = Some (Some (map Some [1; 2; 1; 2]))).
Proof. intros []; vm_compute; repeat split. Qed.
Example C49_moved_ex : forall dbg, after dbg false plenty 0 [SNew (letters 200); SOn 0 (UReserve 230); SNew [1; 2]] (fun s _ =>
  match step dbg false plenty 0 s (SPlusML 0 1) with
  | SRet s' => no_request (s_heap s) (s_heap s') /\ shown s' = values [Some []; Some [1; 2]; Some (letters 200 ++ [1; 2])]
  | _ => False
  end).
Proof. intros []; vm_compute; split; reflexivity. Qed.
