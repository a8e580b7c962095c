(** Properties C66 to C73: the overloads, iterators, reading, comparing, writing
    and converting members of stdb::memory::string and arena_string.

    [reach], [short], [sees], [gives] (StrStatements): histories of calls, their
    length, the values of the objects, a call that ends with new values.
    [ready] (StrApiSpec) only resets the mark of refused allocations.
    [gives_ptr], [points_to]: the call also returns a pointer to an index. *)
Require Import ZArith List Bool Lia.
From Verif Require Import Base StrSpec StrModel StrStatements StrProofs8 StrProofs9 StrCases StrFindSpec StrFindModel StrFindProofs StrApiModel StrApiSpec StrApiProofs StrApiProofs2.
Import ListNotations.
Open Scope Z_scope.

Section Str.
Context {ChT : CharType}.
Variables (dbg arena : bool) (mal : nat -> Z -> bool) (ar : Z).
Hypotheses (MS : mal_sane mal) (AO : ar_ok dbg arena ar).
Notation reach := (StrStatements.reach dbg arena mal ar).

(** ** C66 *)

(** C66: the overloads taking (str, pos, n). *)
Theorem C66_part : forall n s ss i j l m pos k, reach n s -> short n -> sees s ss -> sget ss i = Some l -> sget ss j = Some m -> size_t pos -> size_t k ->
  (if pos <=? slen m then gives (append_sub dbg arena mal ar (ready s) i j pos k) (sset i (Some (l ++ piece pos k m)) ss)
   else append_sub dbg arena mal ar (ready s) i j pos k = SThr OutOfRange (ready s)) /\
  (if pos <=? slen m then gives (assign_sub dbg arena mal ar (ready s) i j pos k) (sset i (Some (piece pos k m)) ss)
   else assign_sub dbg arena mal ar (ready s) i j pos k = SThr OutOfRange (ready s)).
Proof. intros. split; [eapply append_part|eapply assign_part]; eassumption. Qed.
Theorem C66_insert_part : forall n s ss i j l m pos1 pos k, reach n s -> short n -> sees s ss -> sget ss i = Some l -> sget ss j = Some m -> i <> j ->
  size_t pos1 -> size_t pos -> size_t k ->
  if (pos1 <=? slen l) && (pos <=? slen m) then gives (insert_sub dbg arena mal ar (ready s) i pos1 j pos k) (sset i (Some (stake pos1 l ++ piece pos k m ++ sdrop pos1 l)) ss)
  else insert_sub dbg arena mal ar (ready s) i pos1 j pos k = SThr OutOfRange (ready s).
Proof. intros. eapply insert_part; eassumption. Qed.
Theorem C66_replace_part : forall n s ss i j l m pos1 n1 pos k, reach n s -> short n -> sees s ss -> sget ss i = Some l -> sget ss j = Some m -> (ar <> 0 -> i <> j) ->
  size_t pos1 -> size_t n1 -> size_t pos -> size_t k ->
  if (pos1 <=? slen l) && (pos <=? slen m) then gives (replace_sub dbg arena mal ar (ready s) i pos1 n1 j pos k) (sset i (Some (stake pos1 l ++ piece pos k m ++ sdrop (pos1 + n1) l)) ss)
  else replace_sub dbg arena mal ar (ready s) i pos1 n1 j pos k = SThr OutOfRange (ready s).
Proof. intros. eapply replace_part; eassumption. Qed.
(** C66: the overloads taking a string. *)
Theorem C66_whole : forall n s ss i j l m, reach n s -> short n -> sees s ss -> sget ss i = Some l -> sget ss j = Some m ->
  gives (append_whole dbg arena mal ar (ready s) i j) (sset i (Some (l ++ m)) ss) /\
  gives (assign_whole dbg arena mal ar (ready s) i j) (sset i (Some m) ss).
Proof. intros. split; [eapply append_all|eapply assign_all]; eassumption. Qed.
Theorem C66_insert_whole : forall n s ss i j l m pos, reach n s -> short n -> sees s ss -> sget ss i = Some l -> sget ss j = Some m -> i <> j -> size_t pos ->
  if pos <=? slen l then gives (insert_whole dbg arena mal ar (ready s) i pos j) (sset i (Some (stake pos l ++ m ++ sdrop pos l)) ss)
  else insert_whole dbg arena mal ar (ready s) i pos j = SThr OutOfRange (ready s).
Proof. intros. eapply insert_all; eassumption. Qed.
Theorem C66_replace_whole : forall n s ss i j l m pos n1, reach n s -> short n -> sees s ss -> sget ss i = Some l -> sget ss j = Some m -> (ar <> 0 -> i <> j) -> size_t pos -> size_t n1 ->
  if pos <=? slen l then gives (replace_whole dbg arena mal ar (ready s) i pos n1 j) (sset i (Some (stake pos l ++ m ++ sdrop (pos + n1) l)) ss)
  else replace_whole dbg arena mal ar (ready s) i pos n1 j = SThr OutOfRange (ready s).
Proof. intros. eapply replace_all; eassumption. Qed.
(** C66: the overloads taking a const char*; the text ends before the first zero. *)
Theorem C66_cstring : forall memory x n s ss i l, c_string memory x -> chars x -> reach n s -> short n -> sees s ss -> sget ss i = Some l ->
  gives (append_cstr dbg arena mal ar (ready s) i memory) (sset i (Some (l ++ x)) ss) /\
  gives (assign_cstr dbg arena mal ar (ready s) i memory) (sset i (Some x) ss) /\
  gives (new_cstr dbg arena mal ar (ready s) memory) (ss ++ [Some x]).
Proof. intros. split; [eapply append_c; eassumption|]. split; [eapply assign_c; eassumption|]. eapply new_c; eassumption. Qed.
Theorem C66_insert_cstring : forall memory x n s ss i l pos, c_string memory x -> chars x -> reach n s -> short n -> sees s ss -> sget ss i = Some l -> size_t pos ->
  if pos <=? slen l then gives (insert_cstr dbg arena mal ar (ready s) i pos memory) (sset i (Some (stake pos l ++ x ++ sdrop pos l)) ss)
  else insert_cstr dbg arena mal ar (ready s) i pos memory = SThr OutOfRange (ready s).
Proof. intros. eapply insert_c; eassumption. Qed.
Theorem C66_replace_cstring : forall memory x n s ss i l pos n1, c_string memory x -> chars x -> reach n s -> short n -> sees s ss -> sget ss i = Some l -> size_t pos -> size_t n1 ->
  if pos <=? slen l then gives (replace_cstr dbg arena mal ar (ready s) i pos n1 memory) (sset i (Some (stake pos l ++ x ++ sdrop (pos + n1) l)) ss)
  else replace_cstr dbg arena mal ar (ready s) i pos n1 memory = SThr OutOfRange (ready s).
Proof. intros. eapply replace_c; eassumption. Qed.

(** ** C67.  [p] points to index [k] of object [i], whose characters no other object shares. *)
Theorem C67_begin_end : forall n s ss i l, reach n s -> short n -> sees s ss -> sget ss i = Some l ->
  gives_ptr ss i 0 (on_obj_ptr (ready s) i (begin_iter dbg arena mal)) /\ gives_ptr ss i (slen l) (on_obj_ptr (ready s) i (end_iter dbg arena mal)).
Proof. exact (iter_begin dbg arena mal ar MS AO). Qed.
Theorem C67_insert_partial : forall n s ss i l k p, reach n s -> short n -> sees s ss -> sget ss i = Some l -> points_to s i k p -> 0 <= k <= slen l ->
  (forall c, is_char c ->
    gives_ptr (sset i (Some (stake k l ++ c :: sdrop k l)) ss) i k (on_obj_ptr (ready s) i (at_iter dbg arena mal p (fun pos => insert_char dbg arena mal pos c)))) /\
  (forall c m, count m -> is_char c ->
    gives_ptr (sset i (Some (stake k l ++ srep m c ++ sdrop k l)) ss) i k (on_obj_ptr (ready s) i (at_iter dbg arena mal p (fun pos => insert_n_iter dbg arena mal pos m c)))) /\
  (forall x, chars x ->
    gives_ptr (sset i (Some (stake k l ++ x ++ sdrop k l)) ss) i k (on_obj_ptr (ready s) i (at_iter dbg arena mal p (fun pos => insert_iter dbg arena mal pos (PExt (map Some x)) (slen x))))).
Proof.
  intros n s ss i l k p H SH SE El P Hk.
  assert (AI : forall f, on_obj_ptr (ready s) i (at_iter dbg arena mal p f) = on_obj_ptr (ready s) i (f k)) by (intros f; eapply (at_iter_index dbg arena mal ar MS AO); try eassumption; lia).
  split; [|split]; intros; rewrite AI; [eapply iter_insert_char|eapply iter_insert_n|eapply iter_insert]; eassumption.
Qed.
Theorem C67_erase_partial : forall n s ss i l k p, reach n s -> short n -> sees s ss -> sget ss i = Some l -> points_to s i k p -> 0 <= k ->
  (k < slen l -> gives_ptr (sset i (Some (stake k l ++ sdrop (k + 1) l)) ss) i k (on_obj_ptr (ready s) i (at_iter dbg arena mal p (erase_pos dbg arena mal)))) /\
  (forall m, 0 <= m -> k + m <= slen l ->
    gives_ptr (sset i (Some (stake k l ++ sdrop (k + m) l)) ss) i k (on_obj_ptr (ready s) i (at_iter dbg arena mal p (fun a => erase_iters dbg arena mal a (a + m))))).
Proof.
  intros n s ss i l k p H SH SE El P Hk.
  assert (AI : forall f, on_obj_ptr (ready s) i (at_iter dbg arena mal p f) = on_obj_ptr (ready s) i (f k)) by (intros f; eapply (at_iter_index dbg arena mal ar MS AO); eassumption).
  split; intros; rewrite AI; [eapply iter_erase_one|eapply iter_erase]; try eassumption; lia.
Qed.

(** ** C73 *)
(** C73: writing through a pointer into object [i], while no other object shares its characters, changes that string only. *)
Theorem C73_write_partial : forall n s ss i k l p off v, reach n s -> short n -> sees s ss -> sget ss i = Some l -> points_to s i k p ->
  0 <= k -> 0 <= off -> k + off < slen l -> is_char v ->
  exists s', write_through s i p off v = SRet s' /\ sees s' (sset i (Some (splice (k + off) 1 [v] l)) ss).
Proof. exact (write_kept dbg arena mal ar MS AO). Qed.
End Str.

(** ** C68 to C72: in memory [h] the object [c] has the characters [l].
    The order of C70 is that of char, char16_t and char32_t; wchar_t has a signed one. *)
Section Reading.
Context {ChT : CharType}.
Variables (h : heap) (c : core) (l : list Z).
Hypothesis R : reads h c l.
Let m := str_mem h c.

(** C68: at, operator[] (also at size()), front, back, iteration both ways. *)
Theorem C68_at : forall n, 0 <= n -> at_const m (size c) n = Ok (nth_error l (Z.to_nat n)).
Proof. exact (at_ok h c l R). Qed.
Theorem C68_subscript : forall n, 0 <= n <= slen l -> exists x, sub_const m n = Ok x /\ nth_error (l ++ [0]) (Z.to_nat n) = Some x.
Proof.
  intros n H. eexists. split; [exact (sub_ok h c l R n H)|]. apply nth_error_nth'. rewrite app_length. cbn [length]. unfold slen in H. lia.
Qed.
Theorem C68_front_back : forall dbg x r, (l = x :: r -> front_const m = Ok x) /\ (l = r ++ [x] -> back_const dbg m (size c) = Ok x).
Proof. intros dbg x r. split; [exact (front_ok h c l R x r)|exact (back_ok h c l R dbg x r)]. Qed.
Theorem C68_iteration : forward_loop m (size c) = Ok l /\ backward_loop m (size c) = Ok (rev l).
Proof. split; [exact (forward_ok h c l R)|exact (backward_ok h c l R)]. Qed.
(** C68: copy(s, n, pos) into memory [dst] that has room. *)
Theorem C68_copy : forall dbg dst n pos, 0 <= pos -> 0 <= n -> slen (piece pos n l) <= slen dst ->
  copy_to dbg dst n pos h c =
  if pos <=? slen l then StrModel.Ret (slen (piece pos n l), map Some (piece pos n l) ++ sdrop (slen (piece pos n l)) dst) h c else Thr OutOfRange h c.
Proof. exact (copy_ok h c l R). Qed.

(** C69: the argument is another string (or itself), a view, a character, a const char*. *)
Theorem C69_string : forall d x, reads h d x ->
  (exists b, starts_with m (size c) (str_mem h d) (size d) = Ok b /\ (b = true <-> prefix x l)) /\
  (exists b, ends_with m (size c) (str_mem h d) (size d) = Ok b /\ (b = true <-> suffix x l)).
Proof.
  intros d x H. destruct (reads_like _ _ _ H) as (L & ->). apply like_more in L. split; [exact (starts_ok h c l R _ x L)|exact (ends_ok h c l R _ x L)].
Qed.
Theorem C69_view : forall memory n, 0 <= n <= slen memory ->
  (exists b, starts_with m (size c) (list_mem memory) n = Ok b /\ (b = true <-> prefix (stake n memory) l)) /\
  (exists b, ends_with m (size c) (list_mem memory) n = Ok b /\ (b = true <-> suffix (stake n memory) l)).
Proof.
  intros memory n H. assert (L : like (list_mem memory) (stake n memory)) by (apply (like_more _ _ (sdrop n memory)); rewrite take_drop; apply like_list).
  pose proof (starts_ok h c l R _ _ L) as X. pose proof (ends_ok h c l R _ _ L) as Y. rewrite (slen_stake n memory H) in X, Y. split; assumption.
Qed.
Theorem C69_char : forall x,
  (exists b, starts_with_char m (size c) x = Ok b /\ (b = true <-> prefix [x] l)) /\
  (exists b, ends_with_char m (size c) x = Ok b /\ (b = true <-> suffix [x] l)).
Proof. intros x. split; [exact (starts_char_ok h c l R x)|exact (ends_char_ok h c l R x)]. Qed.
Theorem C69_cstring : forall memory x, c_string memory x ->
  (exists b, starts_with_cstr m (size c) memory = Ok b /\ (b = true <-> prefix x l)) /\
  (exists b, ends_with_cstr m (size c) memory = Ok b /\ (b = true <-> suffix x l)).
Proof. intros memory x H. split; [exact (starts_cstr_ok h c l R memory x H)|exact (ends_cstr_ok h c l R memory x H)]. Qed.

(** C70: the string on the left, then the std::string on the left. *)
Theorem C70_string_first : forall x,
  (exists r, str_std_eq m (size c) x = Ok r /\ (r = true <-> l = x)) /\
  (exists r, str_std_ne m (size c) x = Ok r /\ (r = true <-> l <> x)) /\
  (exists r, str_std_lt m (size c) x = Ok r /\ (r = true <-> lex_lt l x)) /\
  (exists r, str_std_gt m (size c) x = Ok r /\ (r = true <-> lex_lt x l)) /\
  (exists r, str_std_le m (size c) x = Ok r /\ (r = true <-> lex_lt l x \/ l = x)) /\
  (exists r, str_std_ge m (size c) x = Ok r /\ (r = true <-> lex_lt x l \/ l = x)) /\
  (exists r, str_std_ship m (size c) x = Ok r /\ match r with Lt => lex_lt l x | Eq => l = x | Gt => lex_lt x l end).
Proof. exact (str_std_ops h c l R). Qed.
Theorem C70_std_first : forall x,
  (exists r, std_str_eq x m (size c) = Ok r /\ (r = true <-> x = l)) /\
  (exists r, std_str_ne x m (size c) = Ok r /\ (r = true <-> x <> l)) /\
  (exists r, std_str_lt x m (size c) = Ok r /\ (r = true <-> lex_lt x l)) /\
  (exists r, std_str_gt x m (size c) = Ok r /\ (r = true <-> lex_lt l x)) /\
  (exists r, std_str_le x m (size c) = Ok r /\ (r = true <-> lex_lt x l \/ x = l)) /\
  (exists r, std_str_ge x m (size c) = Ok r /\ (r = true <-> lex_lt l x \/ x = l)) /\
  (exists r, std_str_ship x m (size c) = Ok r /\ match r with Lt => lex_lt x l | Eq => x = l | Gt => lex_lt l x end).
Proof. exact (std_str_ops h c l R). Qed.

End Reading.

#[local] Existing Instance Char8.
Section Writing.
Variables (h : heap) (c : core) (l : list Z).
Hypothesis R : reads h c l.
Let m := str_mem h c.
(** C71: a good stream with room gets the characters, padded to its width, which is reset. *)
Theorem C71_insertion_partial : forall os, slen l < 2 ^ 31 -> o_good os = true -> Z.max (slen l) (o_width os) <= o_room os ->
  insertion os m (size c) = Ok (o_with os (o_text os ++ padded (o_width os) (o_left os) (o_fill os) l) (o_room os - Z.max (slen l) (o_width os)) 0 false false).
Proof. exact (insertion_ok h c l R). Qed.
(** C71: nothing is written to a stream that is not good; failbit is set. *)
Theorem C71_not_good : forall os, o_good os = false -> insertion os m (size c) = Ok (o_with os (o_text os) (o_room os) (o_width os) (o_bad os) true).
Proof. exact (insertion_bad h c). Qed.

(** C72: the conversions to std::string_view and std::string; std::to_string. *)
Theorem C72_view : view_chars m (size c) = Ok l.
Proof. exact (view_ok h c l R). Qed.
Theorem C72_to_string_partial : forall x, up_to_zero l x -> std_to_string m (size c) = Ok x.
Proof. exact (std_to_string_ok h c l R). Qed.
End Writing.
Print Assumptions C66_part.
Print Assumptions C66_insert_part.
Print Assumptions C66_replace_part.
Print Assumptions C66_whole.
Print Assumptions C66_insert_whole.
Print Assumptions C66_replace_whole.
Print Assumptions C66_cstring.
Print Assumptions C66_insert_cstring.
Print Assumptions C66_replace_cstring.
Print Assumptions C67_begin_end.
Print Assumptions C67_insert_partial.
Print Assumptions C67_erase_partial.
Print Assumptions C73_write_partial.
Print Assumptions C68_at.
Print Assumptions C68_subscript.
Print Assumptions C68_front_back.
Print Assumptions C68_iteration.
Print Assumptions C68_copy.
Print Assumptions C69_string.
Print Assumptions C69_view.
Print Assumptions C69_char.
Print Assumptions C69_cstring.
Print Assumptions C70_string_first.
Print Assumptions C70_std_first.
Print Assumptions C71_insertion_partial.
Print Assumptions C71_not_good.
Print Assumptions C72_view.
Print Assumptions C72_to_string_partial.

(** ** What is false *)

(** A string of [n] characters, for any [n] the malloc serves. *)
Definition made (dbg : bool) (n : Z) : bool :=
  match bnd (init_default dbg false) (fun _ => expand_noinit dbg false plenty n false) (clean (s_heap s_init)) (blank 0) with
  | StrModel.Ret (PHeap b off) h _ => match blk h b with Some k => in_blk k off n && negb (h_rfail h) | None => false end
  | _ => false
  end.
Lemma many dbg n c : made dbg n = true -> count n -> is_char c ->
  exists s d, reach dbg false plenty 0 1 s /\ sees s [Some (srep n c)] /\ sget (s_objs s) 0 = Some d /\ reads (s_heap s) d (srep n c).
Proof.
  intros M Hn Hc.
  assert (E : exists s', step dbg false plenty 0 s_init (SNewN n c) = SRet s' /\ h_rfail (s_heap s') = false).
  { unfold made in M. unfold step, sstep, new_obj, init_n. cbn [s_heap s_objs]. unfold bnd in *.
    destruct (init_default dbg false (clean (s_heap s_init)) (blank 0)) as [u h1 c1| | | |]; try discriminate.
    destruct (expand_noinit dbg false plenty n false h1 c1) as [p h2 c2| | | |]; try discriminate. destruct p as [|b off|]; try discriminate.
    unfold fill, write. destruct (blk h2 b) as [k|] eqn:B; [|discriminate]. apply andb_prop in M. destruct M as (IB & RF). apply negb_true_iff in RF.
    rewrite IB. assert (SL : slen (srep n (Some c)) = n) by (unfold slen, srep; rewrite repeat_length; destruct Hn; lia). rewrite SL, IB. eexists. split; [reflexivity|]. exact RF. }
  destruct E as (s' & E & RF). assert (SI : sees s_init []) by (split; [reflexivity|intros [|i]; exact I]).
  assert (AL : allowed 0 [] (SNewN n c)) by (split; [discriminate|split; assumption]).
  assert (SH : short 0) by (unfold short; cbn; lia).
  pose proof (reach_step dbg false plenty 0 0 s_init [] _ plenty_sane eq_refl (reach_init _ _ _ _) SH SI AL) as Y. rewrite E in Y. cbn [step_ok s_apply] in Y.
  destruct Y as (ss' & [Y|[]] & SE). injection Y as <-. cbn [app] in SE.
  destruct (sees_obj s' _ 0 _ SE eq_refl) as (d & Ed & _ & Rd).
  exists s', d. split; [eapply reach_next; eauto using reach_init|]. split; [exact SE|]. split; [exact Ed|exact Rd].
Qed.
(** C71 is false of strings of 2^31 characters and more: int32_t(size()) is negative. From
    a string of 2^31 characters no character reaches the stream, and badbit is set. *)
Theorem C71_insertion_refuted : forall dbg, exists s d, let l := srep (2 ^ 31) 97 in
  reach dbg false plenty 0 1 s /\ sees s [Some l] /\ sget (s_objs s) 0 = Some d /\
  forall os, o_good os = true -> 0 <= o_width os -> 0 <= o_room os ->
  exists os', insertion os (str_mem (s_heap s) d) (size d) = Ok os' /\ o_bad os' = true /\ exists k, o_text os' = o_text os ++ srep k (o_fill os).
Proof.
  intros dbg. destruct (many dbg (2 ^ 31) 97) as (s & d & H & SE & Ed & R); [destruct dbg; vm_compute; reflexivity|split; [lia|reflexivity]|split; [lia|reflexivity]|].
  exists s, d. cbv zeta. split; [exact H|]. split; [exact SE|]. split; [exact Ed|]. intros os. apply (insertion_neg _ _ _ R).
  unfold slen, srep. rewrite repeat_length. rewrite Z2Nat.id by lia. lia.
Qed.
Print Assumptions C71_insertion_refuted.
Lemma stake_srep {A} (x : A) k n : 0 <= k <= n -> stake k (srep n x) = srep k x.
Proof.
  intros H. unfold stake, srep. replace (Z.to_nat n) with (Z.to_nat k + (Z.to_nat n - Z.to_nat k))%nat by lia. rewrite repeat_app.
  rewrite firstn_app, repeat_length, Nat.sub_diag, firstn_all2 by (rewrite repeat_length; lia). cbn [firstn]. apply app_nil_r.
Qed.
(** C71: and from 2^32 + 3 characters three are written, to a stream that then is good. *)
Theorem C71_insertion_silent_refuted : forall dbg, exists s d, let l := srep (2 ^ 32 + 3) 97 in
  reach dbg false plenty 0 1 s /\ sees s [Some l] /\ sget (s_objs s) 0 = Some d /\
  forall os, o_good os = true -> o_width os = 0 -> slen l <= o_room os ->
  exists os', insertion os (str_mem (s_heap s) d) (size d) = Ok os' /\ o_good os' = true /\ o_text os' = o_text os ++ srep 3 97.
Proof.
  intros dbg. destruct (many dbg (2 ^ 32 + 3) 97) as (s & d & H & SE & Ed & R); [destruct dbg; vm_compute; reflexivity|split; [lia|reflexivity]|split; [lia|reflexivity]|].
  exists s, d. cbv zeta. split; [exact H|]. split; [exact SE|]. split; [exact Ed|]. intros os G W Rm.
  assert (SL : slen (srep (2 ^ 32 + 3) 97) = 2 ^ 32 + 3) by (unfold slen, srep; rewrite repeat_length, Z2Nat.id by lia; reflexivity).
  destruct (insertion_low _ _ _ R os) as (os' & E & G' & T); [rewrite SL; lia|exact G|exact W|exact Rm|]. exists os'. split; [exact E|]. split; [exact G'|].
  rewrite T, SL. rewrite stake_srep by lia. replace (2 ^ 32 + 3 - 2 ^ 32) with 3 by lia. reflexivity.
Qed.
Print Assumptions C71_insertion_silent_refuted.

(** C72 is false of std::to_string: the text ends at a zero within the string. *)
Theorem C72_to_string_refuted : forall dbg, after dbg false plenty 0 [SNew [97; 0; 98]] (fun s ss => ss = [Some [97; 0; 98]] /\
  map (option_map (fun c => (view_chars (str_mem (s_heap s) c) (size c), std_to_string (str_mem (s_heap s) c) (size c)))) (s_objs s) = [Some (Ok [97; 0; 98], Ok [97])]).
Proof. intros []; vm_compute; split; reflexivity. Qed.
Print Assumptions C72_to_string_refuted.

(** [points_to], computable. *)
Definition alone (s : sys) (i : nat) (k : Z) (p : ptr) : Prop :=
  match sget (s_objs s) i with
  | Some c => p = ptr_add (data c) k /\ match is_shared (s_heap s) c with StrModel.Ret b _ _ => b = false | _ => False end
  | None => False
  end.
Lemma alone_points s i k p : alone s i k p -> points_to s i k p.
Proof.
  unfold alone, points_to. destruct (sget (s_objs s) i) as [c|]; [|contradiction]. intros (-> & H). exists c. split; [reflexivity|]. split; [reflexivity|].
  unfold is_shared, bnd, this in *. destruct (category c =? is_large); [|reflexivity]. unfold refs in *. destruct (blk (s_heap s) (c_data c)) as [q|]; [|contradiction].
  destruct (bk_live q), (bk_kind q); try contradiction. cbn in H. unfold ret. rewrite H. reflexivity.
Qed.
(** C67 and C73 are false when another string was copied from the string after
    the pointer was taken: erase(p) subtracts pointers into different buffers,
    writing through the pointer changes both strings. *)
Definition after_copy (dbg : bool) (P : sys -> ptr -> Prop) : Prop :=
  after dbg false plenty 0 [SNew (letters 300)] (fun s _ =>
    match on_obj_ptr (ready s) 0 (begin_iter dbg false plenty) with
    | (SRet s1, Some p) =>
        alone s1 0 0 p /\
        match step dbg false plenty 0 s1 (SCopy 0) with SRet s2 => P s2 p | _ => False end
    | _ => False
    end).
Theorem C67_erase_refuted : forall dbg, after_copy dbg (fun s p =>
  match on_obj_ptr (ready s) 0 (at_iter dbg false plenty p (erase_pos dbg false plenty)) with (SUB h, None) => h_rfail h = false | _ => False end).
Proof. intros []; vm_compute; repeat split. Qed.
Print Assumptions C67_erase_refuted.
Theorem C73_write_refuted : forall dbg, after_copy dbg (fun s p =>
  let x := Some (map Some (letters 300)) in let y := Some (Some 65 :: map Some (sdrop 1 (letters 300))) in
  shown s = [x; x] /\ match write_through s 0 p 0 65 with SRet s' => shown s' = [y; y] | _ => False end).
Proof. intros []; vm_compute; repeat split. Qed.
Print Assumptions C73_write_refuted.

(** ** Examples *)
Definition two : list sop := [SNew (letters 300); SNew (letters 5)].
Definition some (l : list Z) : option (list (option Z)) := Some (map Some l).
Example C66_part_ex : forall dbg, after dbg false plenty 0 two (fun s _ =>
  shown_by (append_sub dbg false plenty 0 (ready s) 1 0 3 4) = Some [some (letters 300); some (letters 5 ++ [100; 101; 102; 103])] /\
  shown_by (assign_sub dbg false plenty 0 (ready s) 1 0 298 (M64 - 1)) = Some [some (letters 300); some [109; 110]] /\
  StrCases.ends (append_sub dbg false plenty 0 (ready s) 1 0 301 4) = Throws OutOfRange).
Proof. intros []; vm_compute; repeat split. Qed.
Example C66_insert_part_ex : forall dbg, after dbg false plenty 0 two (fun s _ =>
  shown_by (insert_sub dbg false plenty 0 (ready s) 0 2 1 1 2) = Some [some (stake 2 (letters 300) ++ [98; 99] ++ sdrop 2 (letters 300)); some (letters 5)] /\
  StrCases.ends (insert_sub dbg false plenty 0 (ready s) 1 6 0 0 1) = Throws OutOfRange).
Proof. intros []; vm_compute; repeat split. Qed.
Example C66_replace_part_ex : forall dbg, after dbg false plenty 0 two (fun s _ =>
  shown_by (replace_sub dbg false plenty 0 (ready s) 1 1 3 0 298 9) = Some [some (letters 300); some [97; 109; 110; 101]]).
Proof. intros []; vm_compute; repeat split. Qed.
Example C66_whole_ex : forall dbg, after dbg true plenty 7 two (fun s _ =>
  shown_by (append_whole dbg true plenty 7 (ready s) 1 1) = Some [some (letters 300); some (letters 5 ++ letters 5)] /\
  shown_by (assign_whole dbg true plenty 7 (ready s) 1 0) = Some [some (letters 300); some (letters 300)] /\
  shown_by (insert_whole dbg true plenty 7 (ready s) 0 300 1) = Some [some (letters 300 ++ letters 5); some (letters 5)] /\
  shown_by (replace_whole dbg true plenty 7 (ready s) 0 1 298 1) = Some [some ([97] ++ letters 5 ++ [110]); some (letters 5)]).
Proof. intros []; vm_compute; repeat split. Qed.
Example C66_cstring_ex : c_string [104; 105; 0; 7] [104; 105] /\ forall dbg, after dbg false plenty 0 two (fun s _ =>
  shown_by (append_cstr dbg false plenty 0 (ready s) 1 [104; 105; 0; 7]) = Some [some (letters 300); some (letters 5 ++ [104; 105])] /\
  shown_by (assign_cstr dbg false plenty 0 (ready s) 0 [104; 105; 0; 7]) = Some [some [104; 105]; some (letters 5)] /\
  shown_by (insert_cstr dbg false plenty 0 (ready s) 1 1 [104; 105; 0; 7]) = Some [some (letters 300); some [97; 104; 105; 98; 99; 100; 101]] /\
  shown_by (replace_cstr dbg false plenty 0 (ready s) 1 1 4 [104; 105; 0; 7]) = Some [some (letters 300); some [97; 104; 105]] /\
  shown_by (new_cstr dbg false plenty 0 (ready s) [104; 105; 0; 7]) = Some [some (letters 300); some (letters 5); some [104; 105]]).
Proof. split; [split; [intros [X|[X|[]]]; discriminate|exists [7]; reflexivity]|]. intros []; vm_compute; repeat split. Qed.
(** From begin() of a string that was shared: the pointer is to a buffer of its own. *)
Example C67_ex : forall dbg, after dbg false plenty 0 [SNew (letters 300); SCopy 0] (fun s _ =>
  match on_obj_ptr (ready s) 0 (begin_iter dbg false plenty) with
  | (SRet s1, Some p) =>
      alone s1 0 2 (ptr_add p 2) /\
      match on_obj_ptr (ready s1) 0 (at_iter dbg false plenty (ptr_add p 2) (fun pos => insert_char dbg false plenty pos 65)) with
      | (SRet s2, Some q) => shown s2 = [some ([97; 98; 65] ++ sdrop 2 (letters 300)); some (letters 300)] /\
          match on_obj_ptr (ready s2) 0 (at_iter dbg false plenty q (erase_pos dbg false plenty)) with
          | (SRet s3, Some r) => shown s3 = [some (letters 300); some (letters 300)] /\ q = r
          | _ => False
          end
      | _ => False
      end
  | _ => False
  end).
Proof. intros []; vm_compute; repeat split. Qed.
Example C73_ex : forall dbg, after dbg false plenty 0 [SNew (letters 300); SCopy 0] (fun s _ =>
  match on_obj_ptr (ready s) 0 (begin_iter dbg false plenty) with
  | (SRet s1, Some p) => match write_through s1 0 p 1 65 with SRet s2 => shown s2 = [some ([97; 65] ++ sdrop 2 (letters 300)); some (letters 300)] | _ => False end
  | _ => False
  end).
Proof. intros []; vm_compute; reflexivity. Qed.

(** The objects of a run and what they read as. *)
Definition on_first {A} (f : heap -> core -> A) (s : sys) : option A := match s_objs s with Some c :: _ => Some (f (s_heap s) c) | _ => None end.
Example C68_ex : forall dbg, after dbg false plenty 0 [SNew [97; 98; 99]] (fun s _ =>
  on_first (fun h c => let m := str_mem h c in
    (at_const m (size c) 2, at_const m (size c) 3, sub_const m 3, front_const m, back_const dbg m (size c))) s = Some (Ok (Some 99), Ok None, Ok 0, Ok 97, Ok 99) /\
  on_first (fun h c => let m := str_mem h c in (forward_loop m (size c), backward_loop m (size c))) s = Some (Ok [97; 98; 99], Ok [99; 98; 97]) /\
  on_first (fun h c => match copy_to dbg [None; None; Some 7] 9 1 h c with StrModel.Ret r _ _ => Some r | _ => None end) s = Some (Some (2, [Some 98; Some 99; Some 7]))).
Proof. intros []; vm_compute; repeat split. Qed.
Example C69_ex : forall dbg, after dbg false plenty 0 [SNew (letters 300)] (fun s _ =>
  on_first (fun h c => let m := str_mem h c in
    (starts_with m (size c) (list_mem [97; 98; 7]) 2, ends_with m (size c) (list_mem [109; 110]) 2, starts_with_char m (size c) 98, ends_with_char m (size c) 110,
     starts_with_cstr m (size c) [97; 0], ends_with_cstr m (size c) [109; 0])) s = Some (Ok true, Ok true, Ok false, Ok true, Ok true, Ok false)).
Proof. intros []; vm_compute; reflexivity. Qed.
Example C70_ex : forall dbg, after dbg false plenty 0 [SNew [97; 98]] (fun s _ =>
  on_first (fun h c => let m := str_mem h c in let n := size c in
    (str_std_lt m n [97; 98; 0], std_str_lt [97] m n, str_std_eq m n [97; 98], std_str_ship [98] m n, str_std_ge m n [97; 99])) s = Some (Ok true, Ok true, Ok true, Ok Gt, Ok false)).
Proof. intros []; vm_compute; reflexivity. Qed.
Definition out0 (w : Z) (left : bool) : ostream := {| o_text := [33]; o_room := 100; o_width := w; o_left := left; o_fill := 32; o_bad := false; o_fail := false |}.
Example C71_ex : forall dbg, after dbg false plenty 0 [SNew [97; 98]] (fun s _ =>
  let text w left := on_first (fun h c => match insertion (out0 w left) (str_mem h c) (size c) with Ok os => Some (o_text os, o_width os, o_good os) | _ => None end) s in
  (text 0 false, text 4 false, text 4 true) = (Some (Some ([33; 97; 98], 0, true)), Some (Some ([33; 32; 32; 97; 98], 0, true)), Some (Some ([33; 97; 98; 32; 32], 0, true)))).
Proof. intros []; vm_compute; reflexivity. Qed.
Example C72_ex : up_to_zero [97; 98] [97; 98] /\ up_to_zero [97; 0; 98] [97].
Proof. split; (split; [cbn; intuition discriminate|]); [left; reflexivity|right; exists [98]; reflexivity]. Qed.
