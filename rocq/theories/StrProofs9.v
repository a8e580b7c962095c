(** Every step of a system of strings keeps the invariant and does what the
    list operations say. *)
Require Import ZArith List Bool Lia Permutation.
From Verif Require Import Base BaseProofs StrSpec StrModel StrProofs StrProofs2 StrProofs3 StrProofs4 StrProofs5 StrProofs6 StrProofs7 StrStatements StrQuiet StrProofs8.
Import ListNotations.
Open Scope Z_scope.


Section Wide.
Context {ChT : CharType}.

Section S.
Variables (dbg arena : bool) (mal : nat -> Z -> bool) (ar : Z).
Notation INV N := (StrProofs2.Inv dbg arena mal ar N).
Notation BAD N := (StrProofs6.Bad dbg arena mal ar N).
Notation World := (StrProofs8.World dbg arena mal ar).
Notation W N s ss := (World N (s_heap s) (s_objs s) ss).

Definition outcome (M : Z) (o : sop) (s : sys) (ss : vals) (r : sout) : Prop :=
  match r with
  | SRet s' => exists ss', In (SVal ss') (s_apply o ss) /\ W M s' ss'
  | SThr OutOfRange s' => (exists ss', In (SRange ss') (s_apply o ss) /\ W M s' ss') /\ s_heap s' = s_heap s /\ s_objs s' = s_objs s ++ (if creates o then [None] else [])
  | SThr BadAlloc s' => h_refused (s_heap s') = true /\ (h_rfail (s_heap s') = false -> exists ss', hurt o ss ss' /\ W M s' ss')
  | SThr _ _ => False
  | STerm h => h_refused h = true
  | SAFail => False
  | SUB h => h_rfail h = true
  end.
Lemma fine_outcome M o s ss r (G B : sys -> Prop) : fine M G B r ->
  (forall s', G s' -> exists ss', In (SVal ss') (s_apply o ss) /\ W M s' ss') ->
  (forall s', B s' -> exists ss', hurt o ss ss' /\ W M s' ss') -> outcome M o s ss r.
Proof.
  intros F HG HB. destruct r as [s'|e s'|h| |h]; cbn [fine outcome] in *; try exact F; [apply HG; exact F|].
  destruct F as (-> & F & X). split; [exact F|]. intros RF. apply HB, X, RF.
Qed.
Lemma new_outcome M o s ss m l' : W M s ss -> Forall is_char l' -> In (SVal (ss ++ [Some l'])) (s_apply o ss) -> creates o = true ->
  spec m (s_heap s) (blank ar) (fun (_ : unit) h' c' => INV M h' ((c', map Some l') :: zipS (s_objs s) ss))
    (fun e h' _ => unbuilt dbg arena mal ar M (zipS (s_objs s) ss) e h') ->
  outcome M o s ss (new_obj s ar m).
Proof.
  intros X B S C H. eapply fine_outcome; [eapply new_obj_fine; eassumption| |].
  - intros s' Ws. eexists. split; eassumption.
  - intros s' Ws. eexists. split; [|exact Ws]. exists ss. rewrite C. auto.
Qed.
Lemma on_outcome M o s ss i c l l' m : W M s ss -> sget (s_objs s) i = Some c -> sget ss i = Some l -> Forall is_char l' ->
  In (SVal (sset i (Some l') ss)) (s_apply o ss) -> creates o = false -> target o = Some i ->
  (forall R, INV M (s_heap s) ((c, map Some l) :: R) -> goods R -> others s ss i R ->
     spec m (s_heap s) c (fun (_ : unit) h' c' => INV M h' ((c', map Some l') :: R)) (BAD M R)) ->
  outcome M o s ss (on_obj s i m).
Proof.
  intros X Ec El B S C T H. eapply fine_outcome; [eapply on_obj_fine; eassumption| |].
  - intros s' Ws. eexists. split; eassumption.
  - intros s' (x & Bx & Ws). eexists. split; [|exact Ws]. exists (sset i (Some x) ss). rewrite C, app_nil_r. split; [reflexivity|]. right. eauto.
Qed.
Lemma move_outcome M o s ss j c l l' m : W M s ss -> sget (s_objs s) j = Some c -> sget ss j = Some l -> Forall is_char l' ->
  In (SVal (sset j (Some []) ss ++ [Some l'])) (s_apply o ss) -> creates o = true -> target o = Some j ->
  (forall R, INV M (s_heap s) ((c, map Some l) :: R) -> goods R -> others s ss j R ->
     spec m (s_heap s) c (fun (_ : unit) h' c' => INV M h' ((c', map Some l') :: R)) (BAD M R)) ->
  outcome M o s ss (then_move dbg (on_obj s j m) j).
Proof.
  intros X Ec El B S C T H. eapply fine_outcome; [eapply then_move_fine; [exact El|eapply on_obj_fine; eassumption]| |].
  - intros s' Ws. eexists. split; eassumption.
  - intros s' (x & Bx & Ws). eexists. split; [|exact Ws]. exists (sset j (Some x) ss). rewrite C. split; [reflexivity|]. right. eauto.
Qed.

Lemma local_init_spec N h o R m x : INV N h R ->
  (forall t, INV N h ((t, []) :: R) -> spec m h t (fun _ h' t' => INV N h' ((t', x) :: R)) (BAD N R)) ->
  spec (local_from dbg arena (init_default dbg arena) ar m) h o (fun _ h' o' => INV N h' ((o', x) :: R)) (fun e h' _ => unbuilt dbg arena mal ar N R e h').
Proof.
  intros I H. pose proof (local_spec dbg arena mal ar N h o R m x I H) as X.
  destruct (init_default_ok dbg arena mal ar N h R (blank ar) I eq_refl) as (t & E & _).
  unfold new_local, local_from, spec, bnd, build, noexc in *. rewrite E in *. exact X.
Qed.
Lemma local_throw N h o R m e : INV N h R -> (forall t, m h t = Thr e h t) ->
  exists c, local_from dbg arena (init_default dbg arena) ar m h o = Thr e h c.
Proof.
  intros I H. destruct (init_default_ok dbg arena mal ar N h R (blank ar) I eq_refl) as (t & E & _ & HT).
  unfold local_from, bnd, build, on. rewrite E, H. unfold destroy. rewrite (small_cat _ HT). exists o. reflexivity.
Qed.

(** ** Operations on one object *)
Lemma run_uop_spec N h c l R o p n x l' i : INV N h ((c, map Some l) :: R) -> Forall is_char l -> Forall is_char x ->
  uop_ok ar i l o -> u_apply o x l = Val l' ->
  (arg_of o <> None -> n < limit /\ asrc c (map Some l) R p n (map Some x)) ->
  (forall a, arg_of o = Some a -> foreign i a -> src R p n (map Some x)) ->
  spec (run_uop dbg arena mal o p n) h c (fun (_ : unit) h' c' => INV N h' ((c', map Some l') :: R)) (BAD N R).
Proof.
  intros I Bl Bx OK V HA HS. pose proof (good_map _ Bl) as Gl. pose proof (good_map _ Bx) as Gx.
  assert (SL : slen (map Some l) = slen l) by apply slen_map.
  assert (IS : forall p0 l0, in_size p0 l = true -> l0 = l' -> p0 <= slen l) by (intros p0 l0 E _; unfold in_size in E; apply Z.leb_le; exact E).
  destruct o; cbn [run_uop u_apply uop_ok arg_of] in *;
    try (destruct HA as (Hn & HA); [discriminate|]);
    try (destruct (in_size pos l) eqn:IN; [|discriminate]; specialize (IS pos l' IN eq_refl));
    try (injection V as <-; rewrite ?map_app, ?map_splice, ?map_srep; cbn [map]).
  - eapply spec_Keep_Bad; [exact Gl|]. eapply append_spec; eassumption.
  - destruct OK as (C & Bc). eapply spec_Keep_Bad; [exact Gl|]. eapply append_n_spec; eassumption.
  - eapply spec_Keep_Bad; [exact Gl|]. eapply push_back_spec; eassumption.
  - rewrite <- SL. unfold stake. rewrite <- firstn_map. eapply pop_back_spec; [exact I|exact Gl|]. destruct l; [congruence|discriminate].
  - eapply assign_spec; eassumption.
  - destruct OK as (C & Bc). eapply assign_n_spec; eassumption.
  - destruct OK as (Bc & EA). eapply assign_char_spec; eassumption.
  - destruct OK as (P & OA & F). eapply insert_spec; try eassumption; [eapply HS; eauto|]. rewrite SL. unfold size_t in P. lia.
  - destruct OK as (P & C & Bc). eapply insert_n_spec; try eassumption. rewrite SL. unfold size_t in P. lia.
  - destruct OK as (P & C). eapply erase_spec; try eassumption; [rewrite SL; unfold size_t in P; lia|apply C].
  - destruct OK as (P & P2 & OA & F). eapply replace_spec; try eassumption.
    + destruct (Z.eq_dec ar 0) as [EA|EA]; [left; exact EA|]. right. eapply HS; [reflexivity|auto].
    + rewrite SL. unfold size_t in P. lia.
    + apply P2.
  - destruct OK as (P & P2 & C & Bc). eapply replace_n_spec; try eassumption; [rewrite SL; unfold size_t in P; lia|apply P2].
  - destruct OK as (P & C). eapply insert_input_spec; try eassumption; [rewrite SL; exact P|apply C].
  - destruct OK as (P & P1 & P2 & C). eapply replace_input_spec; try eassumption; [rewrite SL; exact P2|apply C].
  - destruct OK as (C & Bc). eapply spec_Keep_Bad; [exact Gl|]. pose proof (resize_spec dbg arena mal ar N h c (map Some l) R n0 c0 I Gl Bc C) as X.
    unfold stake in *. rewrite firstn_map, SL in X. exact X.
  - eapply spec_imp; [eapply spec_Keep_Bad; [exact Gl|eapply reserve_spec; [exact I|exact OK]]| |intros ? ? ? X0; exact X0].
    intros a0 h' o' (RD & _). destruct RD as [(I2 & _)|(I2 & _)]; exact I2.
  - eapply shrink_to_fit_spec; eassumption.
  - pose proof (resize_down dbg arena mal ar N h c (map Some l) R 0 I Gl) as X. eapply spec_Keep_Bad; [exact Gl|]. apply X. pose proof (slen_nonneg (map Some l)). lia.
  - destruct OK as (P & Bc). eapply set_at_spec; try eassumption. rewrite SL. exact P.
  - destruct OK as (P & Bc). destruct (Z.ltb_spec i0 (slen l)); [|discriminate]. injection V as <-. rewrite map_splice. cbn [map].
    eapply set_at_checked_spec; try eassumption. rewrite SL. unfold size_t in P. lia.
  - destruct OK as (NE & Bc). rewrite <- SL. eapply set_back_spec; try eassumption. destruct l; [congruence|discriminate].
Qed.
Lemma run_uop_range N h c l R o p n x : INV N h ((c, map Some l) :: R) -> u_apply o x l = Range ->
  run_uop dbg arena mal o p n h c = Thr OutOfRange h c.
Proof.
  intros I V. assert (SL : slen (map Some l) = slen l) by apply slen_map.
  assert (IS : forall p0, in_size p0 l = false -> slen (map Some l) < p0) by (intros p0 E; unfold in_size in E; apply Z.leb_gt in E; lia).
  destruct o; cbn [run_uop u_apply] in *; try discriminate; try (destruct (in_size pos l) eqn:IN; [discriminate|]; specialize (IS pos IN)).
  - eapply insert_range_ok; eassumption.
  - eapply insert_n_range_ok; eassumption.
  - eapply erase_range_ok; eassumption.
  - eapply replace_range_ok; eassumption.
  - eapply replace_n_range_ok; eassumption.
  - destruct (Z.ltb_spec i (slen l)); [discriminate|]. eapply set_at_range_ok; [eassumption|lia].
Qed.
Lemma bytes_stake n l : Forall is_char l -> Forall is_char (stake n l).
Proof. apply Forall_firstn. Qed.
Lemma u_apply_bytes i l o x l' : Forall is_char l -> Forall is_char x -> uop_ok ar i l o -> u_apply o x l = Val l' -> Forall is_char l'.
Proof.
  intros Bl Bx OK V. destruct o; cbn [u_apply uop_ok] in *; try (destruct (in_size pos l); [|discriminate]); try (destruct (i0 <? slen l); [|discriminate]);
    injection V as <-; repeat match goal with H : _ /\ _ |- _ => destruct H | H : chars _ |- _ => destruct H end;
    rewrite ?Forall_app; repeat split; auto using bytes_splice, bytes_srep, bytes_stake.
Qed.

Lemma plus_arg N s ss R j k a la b lb : W N s ss -> INV N (s_heap s) ((a, map Some la) :: R) -> others s ss j R ->
  sget (s_objs s) j = Some a -> sget ss j = Some la -> sget (s_objs s) k = Some b -> sget ss k = Some lb ->
  asrc a (map Some la) R (if (j =? k)%nat then data b else str b) (slen lb) (map Some lb).
Proof.
  intros X IR OT Ea Ela Eb Elb. destruct (Nat.eqb_spec j k) as [<-|NE].
  - assert (a = b) as <- by congruence. assert (la = lb) as <- by congruence.
    pose proof (asrc_own dbg arena mal ar N (s_heap s) a (map Some la) R 0 (slen la) IR) as Y. rewrite slen_map, ptr_add0 in Y.
    assert (E : piece 0 (slen la) (map Some la) = map Some la) by (rewrite <- (slen_map Some la); apply piece_all). rewrite E in Y.
    pose proof (slen_nonneg la). apply Y; lia.
  - apply asrc_src. destruct X as [I A B]. destruct (i_rep _ _ _ _ _ _ _ I b (map Some lb)) as (RPb & _); [eapply zip_in; eassumption|].
    rewrite <- (slen_map Some lb). eapply src_rep0; [exact RPb|]. apply (OT k); [congruence|exact Eb|exact Elb].
Qed.
Lemma piece_clip {A} pos n (l : list A) : 0 <= pos <= slen l -> slen l - pos <= n -> piece pos n l = piece pos (slen l - pos) l.
Proof. intros H H1. unfold piece. rewrite !stake_all; [reflexivity| |]; rewrite slen_sdrop by lia; lia. Qed.
Theorem sstep_outcome N s ss o : W N s ss -> N + 1 < 2 ^ 63 -> allowed ar ss o -> outcome (N + 1) o s ss (sstep dbg arena mal ar s o).
Proof.
  intros X0 HN (AP & OK).
  assert (X : W (N + 1) s ss) by (eapply World_mono; [|exact X0]; lia).
  pose proof X as [I A B]. pose proof (World_goods _ _ _ _ _ _ _ _ X) as G.
  assert (IN : forall j l, sget ss j = Some l -> exists c, sget (s_objs s) j = Some c /\ In (c, map Some l) (zipS (s_objs s) ss)).
  { intros j l E. destruct (alike_obj _ _ _ _ A E) as (c & Ec). exists c. split; [exact Ec|]. eapply zip_in; eassumption. }
  assert (LEN : forall c l, In (c, map Some l) (zipS (s_objs s) ss) -> 0 <= slen l < limit /\ size c = slen l /\ al_of arena c = ar).
  { intros c l Y. pose proof (In_len _ _ _ _ _ _ _ _ _ I Y) as Z. rewrite slen_map in Z. exact Z. }
  destruct o; cbn [s_apply sop_ok sstep] in *.
  - eapply new_outcome; [exact X|constructor|left; reflexivity|reflexivity|]. eapply spec_noexc; [|intros e h' o' Y; exact Y].
    eapply init_default_spec; [exact I|reflexivity|]. intros t It _. exact It.
  - destruct OK as (Bl & Ll). eapply new_outcome; [exact X|exact Bl|left; reflexivity|reflexivity|].
    eapply spec_imp; [eapply init_core_spec; [exact I|reflexivity|apply src_ext|apply good_map; exact Bl|]| |].
    + lia.
    + intros a h' o' (Y & _). exact Y.
    + intros e h' o' Y. exact Y.
  - destruct OK as (C & Bc). eapply new_outcome; [exact X|apply bytes_srep; exact Bc|left; reflexivity|reflexivity|].
    rewrite map_srep. eapply init_n_spec; [exact I|reflexivity|exact Bc|exact C].
  - (* copy *) destruct (sget ss j) as [l|] eqn:El; [|contradiction AP; reflexivity]. cbn [with_]. destruct (IN j l El) as (c & Ec & Ic).
    destruct (LEN c l Ic) as (Ll & Sl & Al). unfold obj. rewrite Ec, Al.
    destruct (focus _ _ j c l A Ec El) as (R & P1 & _).
    eapply new_outcome; [exact X|exact (B _ _ El)|cbn [s_apply with_]; rewrite El; left; reflexivity|reflexivity|].
    eapply spec_imp; [eapply (copy_core_spec dbg arena mal ar (N + 1)); [eapply Inv_perm; [exact P1|exact I]|reflexivity|apply good_map; exact (B _ _ El)|]| |].
    + intros k r Hh Bk Ck. destruct X0 as [I0 _ _]. eapply refs_le; [exact I0|exact Ic|exact Hh|exact Bk|exact Ck].
    + intros a h' o' (Y & _). eapply Inv_perm; [apply perm_skip; symmetry; exact P1|exact Y].
    + intros e h' o' (E1 & F & Y). split; [exact E1|]. split; [exact F|]. eapply Inv_perm; [symmetry; exact P1|exact Y].
  - (* move *) destruct (sget ss j) as [l|] eqn:El; [|contradiction AP; reflexivity]. cbn [with_]. destruct (IN j l El) as (c & Ec & Ic).
    destruct (move_out_fine dbg arena mal ar (N + 1) s ss j c l X Ec El) as (s2 & -> & W2). cbn [outcome s_apply]. rewrite El. cbn [with_].
    eexists. split; [left; reflexivity|exact W2].
  - (* string(str, pos, n) *) destruct (sget ss j) as [l|] eqn:El; [|contradiction AP; reflexivity]. destruct (IN j l El) as (c & Ec & Ic).
    destruct (LEN c l Ic) as (Ll & Sl & Al). unfold obj. rewrite Ec, Sl. destruct OK as (P & Q). unfold size_t in P, Q.
    assert (SL : slen (map Some l) = slen l) by apply slen_map. cbn [with_] in AP.
    destruct (in_size pos l) eqn:IS; unfold in_size in IS.
    + eapply new_outcome; [exact X|apply bytes_piece; exact (B _ _ El)|cbn [s_apply]; rewrite El; cbn [with_]; unfold in_size; rewrite IS; left; reflexivity|reflexivity|].
      apply local_init_spec; [exact I|]. intros t It. rewrite IS. apply Z.leb_le in IS. eapply spec_eq; [reflexivity|].
      set (n' := if slen l - pos <? n then slen l - pos else n).
      assert (Hn' : 0 <= n' /\ pos + n' <= slen l) by (unfold n'; destruct (Z.ltb_spec (slen l - pos) n); lia).
      assert (E : piece pos n l = piece pos n' l). { unfold n'. destruct (Z.ltb_spec (slen l - pos) n); [|reflexivity]. apply piece_clip; lia. }
      rewrite E. eapply assign_spec; [exact It|apply asrc_src; rewrite map_piece; eapply src_str; [exact I|exact Ic|lia|lia|rewrite SL; lia]|apply good_nil|apply good_map, bytes_piece; exact (B _ _ El)|lia].
    + destruct (local_throw (N + 1) (s_heap s) (blank ar) _ (let* _ := enforce (pos <=? slen l) in assign dbg arena mal (ptr_add (str c) pos) (if slen l - pos <? n then slen l - pos else n)) OutOfRange I) as (c2 & E2).
      { intros t. rewrite IS. reflexivity. }
      unfold new_obj. rewrite E2. cbn [outcome s_heap s_objs s_apply]. rewrite El. cbn [with_]. unfold in_size. rewrite IS.
      split; [|split; reflexivity]. eexists. split; [left; reflexivity|]. eapply World_none; [exact X|exact I].
  - (* substr *) destruct (sget ss j) as [l|] eqn:El; [|contradiction AP; reflexivity]. destruct (IN j l El) as (c & Ec & Ic).
    destruct (LEN c l Ic) as (Ll & Sl & Al). unfold obj. rewrite Ec, Sl, Al. destruct OK as (P & Q). unfold size_t in P, Q.
    assert (SL : slen (map Some l) = slen l) by apply slen_map. cbn [with_] in AP.
    destruct (in_size pos l) eqn:IS; unfold in_size in IS.
    + eapply new_outcome; [exact X|apply bytes_piece; exact (B _ _ El)|cbn [s_apply]; rewrite El; cbn [with_]; unfold in_size; rewrite IS; left; reflexivity|reflexivity|].
      rewrite IS. apply Z.leb_le in IS. eapply spec_eq; [reflexivity|].
      set (n' := Z.min n (slen l - pos)).
      assert (Hn' : 0 <= n' /\ pos + n' <= slen l) by (unfold n'; lia).
      assert (E : piece pos n l = piece pos n' l). { unfold n'. destruct (Z.le_gt_cases n (slen l - pos)); [rewrite Z.min_l by lia; reflexivity|rewrite Z.min_r by lia]. apply piece_clip; lia. }
      rewrite E. eapply spec_imp; [eapply init_core_spec; [exact I|reflexivity|eapply src_str; [exact I|exact Ic|lia|lia|rewrite SL; lia]|rewrite <- map_piece; apply good_map, bytes_piece; exact (B _ _ El)|lia]| |].
      * intros a h' o' (Y & _). rewrite map_piece. exact Y.
      * intros e h' o' Y. exact Y.
    + rewrite IS. unfold new_obj. cbn [outcome s_heap s_objs s_apply bnd enforce throw]. rewrite El. cbn [with_]. unfold in_size. rewrite IS.
      split; [|split; reflexivity]. eexists. split; [left; reflexivity|]. eapply World_none; [exact X|exact I].
  - (* substr && *) destruct (sget ss j) as [l|] eqn:El; [|contradiction AP; reflexivity]. destruct (IN j l El) as (c & Ec & Ic).
    destruct (LEN c l Ic) as (Ll & Sl & Al). destruct OK as (P & Q). unfold size_t in P, Q.
    assert (SL : slen (map Some l) = slen l) by apply slen_map. cbn [with_] in AP.
    destruct (in_size pos l) eqn:IS; unfold in_size in IS.
    + eapply move_outcome; [exact X|exact Ec|exact El|apply bytes_piece; exact (B _ _ El)|cbn [s_apply]; rewrite El; cbn [with_]; unfold in_size; rewrite IS; left; reflexivity|reflexivity|reflexivity|].
      intros R IR GR OT. apply spec_size. rewrite Sl, IS. apply Z.leb_le in IS. eapply spec_eq; [reflexivity|].
      pose proof (good_map _ (B _ _ El)) as Gl.
      eapply spec_bnd; [eapply erase_spec; [exact IR|exact Gl|rewrite SL; lia|lia]|].
      intros [] h2 c2 I2. cbv beta in I2.
      assert (E2 : splice 0 pos [] (map Some l) = map Some (sdrop pos l)).
      { unfold splice, sdrop, stake. cbn [Z.to_nat firstn app Z.add]. rewrite skipn_map. reflexivity. }
      rewrite E2 in I2. apply spec_size. rewrite (size_ok _ _ _ _ _ _ _ _ _ I2), slen_map.
      assert (SD : slen (sdrop pos l) = slen l - pos) by (apply slen_sdrop; lia).
      assert (Gd : good (map Some (sdrop pos l))) by (apply good_map, Forall_skipn; exact (B _ _ El)).
      apply spec_if; intros E; [apply Z.ltb_lt in E|apply Z.ltb_ge in E].
      * eapply spec_Keep_Bad; [exact Gd|]. unfold piece, stake. rewrite <- firstn_map. eapply resize_down; [exact I2|exact Gd|rewrite slen_map; lia].
      * apply spec_ret. unfold piece. rewrite stake_all by lia. exact I2.
    + assert (E1 : on_obj s j (let* sz := size_m in let* _ := enforce (pos <=? sz) in let* _ := erase dbg arena mal 0 pos in
        let* sz1 := size_m in if n <? sz1 then resize dbg arena mal n 0 else ret tt) = SThr OutOfRange s).
      { eapply on_obj_throw; [exact Ec|]. unfold bnd at 1. unfold size_m at 1, this, bnd at 1, ret at 1. rewrite Sl, IS. reflexivity. }
      rewrite E1. cbn [then_move outcome s_heap s_objs s_apply]. rewrite El. cbn [with_]. unfold in_size. rewrite IS.
      split; [|split; reflexivity]. eexists. split; [left; reflexivity|]. eapply World_none; [exact X|exact I].
  - (* clone *) destruct (sget ss j) as [l|] eqn:El; [|contradiction AP; reflexivity]. cbn [with_]. destruct (IN j l El) as (c & Ec & Ic).
    destruct (LEN c l Ic) as (Ll & Sl & Al). unfold obj. rewrite Ec, Al.
    destruct (focus _ _ j c l A Ec El) as (R & P1 & _).
    eapply new_outcome; [exact X|exact (B _ _ El)|cbn [s_apply with_]; rewrite El; left; reflexivity|reflexivity|].
    eapply spec_imp; [eapply (clone_spec dbg arena mal ar (N + 1)); [eapply Inv_perm; [exact P1|exact I]|reflexivity|apply good_map; exact (B _ _ El)|]| |].
    + intros k r Hh Bk Ck. destruct X0 as [I0 _ _]. eapply refs_le; [exact I0|exact Ic|exact Hh|exact Bk|exact Ck].
    + intros a h' o' Y. cbv beta in Y. eapply Inv_perm; [apply perm_skip; symmetry; exact P1|exact Y].
    + intros e h' o' (E1 & F & Y). split; [exact E1|]. split; [exact F|]. eapply Inv_perm; [symmetry; exact P1|exact Y].
  - (* a + b *) destruct (sget ss j) as [la|] eqn:Ela; [|contradiction AP; reflexivity]. cbn [with_] in AP.
    destruct (sget ss k) as [lb|] eqn:Elb; [|contradiction AP; reflexivity].
    destruct (IN j la Ela) as (a & Ea & Ia). destruct (IN k lb Elb) as (b & Eb & Ib). destruct (LEN a la Ia) as (_ & _ & Al).
    unfold obj. rewrite Ea, Eb, Al.
    eapply new_outcome; [exact X| |cbn [s_apply]; rewrite Ela; cbn [with_]; rewrite Elb; left; reflexivity|reflexivity|].
    + rewrite Forall_app. split; [exact (B _ _ Ela)|exact (B _ _ Elb)].
    + rewrite map_app. apply plus_str_spec; [exact Ia|exact Ib|exact G|exact I].
  - (* move(a) + b *) destruct (sget ss j) as [la|] eqn:Ela; [|contradiction AP; reflexivity]. cbn [with_] in AP.
    destruct (sget ss k) as [lb|] eqn:Elb; [|contradiction AP; reflexivity].
    destruct (IN j la Ela) as (a & Ea & Ia). destruct (IN k lb Elb) as (b & Eb & Ib). destruct (LEN b lb Ib) as (Lb & Sb & _).
    unfold obj. rewrite Ea, Eb.
    eapply move_outcome; [exact X|exact Ea|exact Ela| |cbn [s_apply]; rewrite Ela; cbn [with_]; rewrite Elb; left; reflexivity|reflexivity|reflexivity|].
    + rewrite Forall_app. split; [exact (B _ _ Ela)|exact (B _ _ Elb)].
    + intros R IR GR OT. rewrite map_app, Sb. eapply spec_Keep_Bad; [apply good_map; exact (B _ _ Ela)|].
      eapply append_str_spec; [exact IR| |apply good_map; exact (B _ _ Elb)|lia].
      eapply plus_arg; [exact X|exact IR|exact OT|exact Ea|exact Ela|exact Eb|exact Elb].
  - (* a + move(b) *) destruct (sget ss j) as [la|] eqn:Ela; [|contradiction AP; reflexivity]. cbn [with_] in AP.
    destruct (sget ss k) as [lb|] eqn:Elb; [|contradiction AP; reflexivity].
    destruct (IN j la Ela) as (a & Ea & Ia). destruct (IN k lb Elb) as (b & Eb & Ib). destruct (LEN a la Ia) as (La & Sa & Al).
    unfold obj. rewrite Ea, Eb, Al. unfold cap_in. destruct (i_rep _ _ _ _ _ _ _ I b (map Some lb) Ib) as (RPb & _).
    destruct (capacity_ok _ _ _ RPb) as (cap & Cc & _). rewrite Cc. destruct (_ <=? cap) eqn:LE.
    + eapply move_outcome; [exact X|exact Eb|exact Elb| |cbn [s_apply]; rewrite Ela; cbn [with_]; rewrite Elb; left; reflexivity|reflexivity|reflexivity|].
      * rewrite Forall_app. split; [exact (B _ _ Ela)|exact (B _ _ Elb)].
      * intros R IR GR OT. destruct (Nat.eqb_spec j k) as [EJ|NE].
        { subst k. rewrite Eb in Ea. injection Ea as <-. rewrite Elb in Ela. injection Ela as <-. rewrite Sa in *.
          destruct (Inv_head _ _ _ _ _ _ _ _ _ IR) as (RPc & _).
          assert (E : map Some (lb ++ lb) = splice 0 0 (piece 0 (slen lb) (map Some lb)) (map Some lb)).
          { unfold piece, sdrop. cbn [Z.to_nat skipn]. rewrite stake_all by (rewrite slen_map; lia). rewrite map_app. reflexivity. }
          rewrite add_small in LE by lia. apply Z.leb_le in LE.
          assert (D0 : data b = ptr_add (data b) 0) by (unfold data; destruct (category b =? is_small); reflexivity).
          assert (SO : sso_off dbg arena = true \/ sso_off dbg arena = false) by (destruct (sso_off dbg arena); auto).
          destruct (heapy b) eqn:Hb; [|destruct SO as [SO|SO]].
          3:{ rewrite E, D0. eapply insert_own_spec; try exact IR; try (rewrite ?slen_map; lia); [apply good_map; exact (B _ _ Elb)|].
              intros _. rewrite slen_map. split; [unfold is_shared, bnd, this; rewrite (small_cat _ Hb); reflexivity|]. split; [exists cap; split; [exact Cc|exact LE]|left; exact SO]. }
          2:{ assert (Z0 : map Some lb = []) by (exact (i_off _ _ _ _ _ _ _ IR SO b (map Some lb) (or_introl eq_refl) Hb)). destruct lb; [|discriminate Z0]. cbn [app map].
              eapply insert_empty; [exact IR|exact Hb|exact (data_small _ Hb)]. }
          rewrite E, D0. eapply insert_own_spec; try exact IR; try (rewrite ?slen_map; lia); [apply good_map; exact (B _ _ Elb)|].
          intros U. rewrite slen_map. split; [eapply unique_shared; eassumption|]. split; [exists cap; split; [exact Cc|exact LE]|right; exact Hb]. }
        rewrite Sa.
        assert (E : map Some (la ++ lb) = splice 0 0 (map Some la) (map Some lb)) by (rewrite map_app; reflexivity). rewrite E.
        eapply insert_spec; [exact IR| |apply good_map; exact (B _ _ Elb)|apply good_map; exact (B _ _ Ela)|pose proof (slen_nonneg (map Some lb)); lia|lia].
        destruct (i_rep _ _ _ _ _ _ _ I a (map Some la) Ia) as (RPa & _). rewrite <- (slen_map Some la). eapply src_rep0; [exact RPa|]. apply (OT j); [congruence|exact Ea|exact Ela].
    + eapply new_outcome; [exact X| |cbn [s_apply]; rewrite Ela; cbn [with_]; rewrite Elb; right; left; reflexivity|reflexivity|].
      * rewrite Forall_app. split; [exact (B _ _ Ela)|exact (B _ _ Elb)].
      * rewrite map_app. apply plus_str_spec; [exact Ia|exact Ib|exact G|exact I].
  - (* move(a) + move(b) *) destruct (sget ss j) as [la|] eqn:Ela; [|contradiction AP; reflexivity]. cbn [with_] in AP.
    destruct (sget ss k) as [lb|] eqn:Elb; [|contradiction AP; reflexivity].
    destruct (IN j la Ela) as (a & Ea & Ia). destruct (IN k lb Elb) as (b & Eb & Ib). destruct (LEN b lb Ib) as (Lb & Sb & _).
    unfold obj. rewrite Ea, Eb.
    eapply move_outcome; [exact X|exact Ea|exact Ela| |cbn [s_apply]; rewrite Ela; cbn [with_]; rewrite Elb; left; reflexivity|reflexivity|reflexivity|].
    + rewrite Forall_app. split; [exact (B _ _ Ela)|exact (B _ _ Elb)].
    + intros R IR GR OT. rewrite map_app, Sb. eapply spec_Keep_Bad; [apply good_map; exact (B _ _ Ela)|].
      eapply append_str_spec; [exact IR| |apply good_map; exact (B _ _ Elb)|lia].
      eapply plus_arg; [exact X|exact IR|exact OT|exact Ea|exact Ela|exact Eb|exact Elb].
  - (* "..." + b *) destruct (sget ss k) as [lb|] eqn:Elb; [|contradiction AP; reflexivity]. destruct OK as (Bl & Ll).
    destruct (IN k lb Elb) as (b & Eb & Ib). destruct (LEN b lb Ib) as (_ & _ & Al). unfold obj. rewrite Eb, Al.
    eapply new_outcome; [exact X| |cbn [s_apply]; rewrite Elb; left; reflexivity|reflexivity|].
    + rewrite Forall_app. split; [exact Bl|exact (B _ _ Elb)].
    + rewrite map_app. apply plus_cl_spec; [exact Bl|exact Ll|exact Ib|exact G|exact I].
  - (* "..." + move(b) *) destruct (sget ss k) as [lb|] eqn:Elb; [|contradiction AP; reflexivity]. destruct OK as (Bl & Ll).
    destruct (IN k lb Elb) as (b & Eb & Ib). destruct (LEN b lb Ib) as (_ & _ & Al). unfold obj. rewrite Eb, Al.
    unfold cap_in. destruct (i_rep _ _ _ _ _ _ _ I b (map Some lb) Ib) as (RPb & _). destruct (capacity_ok _ _ _ RPb) as (cap & -> & _). destruct (_ <=? cap).
    + eapply move_outcome; [exact X|exact Eb|exact Elb| |cbn [s_apply]; rewrite Elb; left; reflexivity|reflexivity|reflexivity|].
      * rewrite Forall_app. split; [exact Bl|exact (B _ _ Elb)].
      * intros R IR GR OT. assert (E : map Some (l ++ lb) = splice 0 0 (map Some l) (map Some lb)) by (rewrite map_app; reflexivity). rewrite E.
        eapply begin_then; [exact IR|]. intros h' o' I' U' _. eapply spec_Keep_Bad; [apply good_map; exact (B _ _ Elb)|].
        eapply insert_at_spec; [exact I'|apply src_ext|apply good_map; exact (B _ _ Elb)|apply good_map; exact Bl|pose proof (slen_nonneg (map Some lb)); lia|lia].
    + eapply new_outcome; [exact X| |cbn [s_apply]; rewrite Elb; right; left; reflexivity|reflexivity|].
      * rewrite Forall_app. split; [exact Bl|exact (B _ _ Elb)].
      * rewrite map_app. apply plus_cl_spec; [exact Bl|exact Ll|exact Ib|exact G|exact I].
  - (* 'c' + b *) destruct (sget ss k) as [lb|] eqn:Elb; [|contradiction AP; reflexivity].
    destruct (IN k lb Elb) as (b & Eb & Ib). destruct (LEN b lb Ib) as (_ & _ & Al). unfold obj. rewrite Eb, Al.
    eapply new_outcome; [exact X| |cbn [s_apply]; rewrite Elb; left; reflexivity|reflexivity|].
    + constructor; [exact OK|exact (B _ _ Elb)].
    + cbn [map]. apply plus_hl_spec; [exact OK|exact Ib|exact G|exact I].
  - (* 'c' + move(b) *) destruct (sget ss k) as [lb|] eqn:Elb; [|contradiction AP; reflexivity].
    destruct (IN k lb Elb) as (b & Eb & Ib). destruct (LEN b lb Ib) as (_ & _ & Al). unfold obj. rewrite Eb, Al.
    unfold cap_in. destruct (i_rep _ _ _ _ _ _ _ I b (map Some lb) Ib) as (RPb & _). destruct (capacity_ok _ _ _ RPb) as (cap & -> & _). destruct (_ <? cap).
    + eapply move_outcome; [exact X|exact Eb|exact Elb| |cbn [s_apply]; rewrite Elb; left; reflexivity|reflexivity|reflexivity|].
      * constructor; [exact OK|exact (B _ _ Elb)].
      * intros R IR GR OT. assert (E : map Some (c :: lb) = splice 0 0 (srep 1 (Some c)) (map Some lb)) by reflexivity. rewrite E.
        eapply begin_then; [exact IR|]. intros h' o' I' U' _.
        eapply spec_bnd; [eapply spec_Keep_Bad; [apply good_map; exact (B _ _ Elb)|]; eapply insert_n_at_spec; [exact I'|apply good_map; exact (B _ _ Elb)|exact OK|pose proof (slen_nonneg (map Some lb)); lia|lia]|].
        intros q h2 o2 I2. cbv beta in I2. eapply begin_then; [exact I2|]. intros h3 o3 I3 _ _. apply spec_ret. exact I3.
    + eapply new_outcome; [exact X| |cbn [s_apply]; rewrite Elb; right; left; reflexivity|reflexivity|].
      * constructor; [exact OK|exact (B _ _ Elb)].
      * cbn [map]. apply plus_hl_spec; [exact OK|exact Ib|exact G|exact I].
  - (* a + "..." *) destruct (sget ss j) as [la|] eqn:Ela; [|contradiction AP; reflexivity]. destruct OK as (Bl & Ll).
    destruct (IN j la Ela) as (a & Ea & Ia). destruct (LEN a la Ia) as (_ & _ & Al). unfold obj. rewrite Ea, Al.
    eapply new_outcome; [exact X| |cbn [s_apply]; rewrite Ela; left; reflexivity|reflexivity|].
    + rewrite Forall_app. split; [exact (B _ _ Ela)|exact Bl].
    + rewrite map_app. apply plus_cr_spec; [exact Bl|exact Ll|exact Ia|exact G|exact I].
  - (* move(a) + "..." *) destruct (sget ss j) as [la|] eqn:Ela; [|contradiction AP; reflexivity]. destruct OK as (Bl & Ll).
    destruct (IN j la Ela) as (a & Ea & Ia). unfold obj. rewrite Ea.
    eapply move_outcome; [exact X|exact Ea|exact Ela| |cbn [s_apply]; rewrite Ela; left; reflexivity|reflexivity|reflexivity|].
    + rewrite Forall_app. split; [exact (B _ _ Ela)|exact Bl].
    + intros R IR GR OT. rewrite map_app. eapply spec_Keep_Bad; [apply good_map; exact (B _ _ Ela)|].
      eapply append_spec; [exact IR|apply asrc_src, src_ext|apply good_map; exact Bl|exact Ll].
  - (* a + 'c' *) destruct (sget ss j) as [la|] eqn:Ela; [|contradiction AP; reflexivity].
    destruct (IN j la Ela) as (a & Ea & Ia). destruct (LEN a la Ia) as (_ & _ & Al). unfold obj. rewrite Ea, Al.
    eapply new_outcome; [exact X| |cbn [s_apply]; rewrite Ela; left; reflexivity|reflexivity|].
    + rewrite Forall_app. split; [exact (B _ _ Ela)|constructor; [exact OK|constructor]].
    + rewrite map_app. cbn [map]. apply plus_hr_spec; [exact OK|exact Ia|exact G|exact I].
  - (* move(a) + 'c' *) destruct (sget ss j) as [la|] eqn:Ela; [|contradiction AP; reflexivity].
    destruct (IN j la Ela) as (a & Ea & Ia). unfold obj. rewrite Ea.
    eapply move_outcome; [exact X|exact Ea|exact Ela| |cbn [s_apply]; rewrite Ela; left; reflexivity|reflexivity|reflexivity|].
    + rewrite Forall_app. split; [exact (B _ _ Ela)|constructor; [exact OK|constructor]].
    + intros R IR GR OT. rewrite map_app. eapply spec_Keep_Bad; [apply good_map; exact (B _ _ Ela)|].
      cbn [map]. eapply push_back_spec; [exact IR|exact OK].
  - (* a = b *) destruct (sget ss i) as [la|] eqn:Ela; [|contradiction AP; reflexivity]. cbn [with_] in AP.
    destruct (sget ss j) as [lb|] eqn:Elb; [|contradiction AP; reflexivity].
    destruct (IN i la Ela) as (a & Ea & Ia). destruct (IN j lb Elb) as (b & Eb & Ib). destruct (LEN b lb Ib) as (Lb & Sb & _).
    unfold obj. rewrite Eb.
    eapply on_outcome; [exact X|exact Ea|exact Ela|exact (B _ _ Elb)|cbn [s_apply]; rewrite Ela; cbn [with_]; rewrite Elb; left; reflexivity|reflexivity|reflexivity|].
    intros R IR GR OT. eapply guard_bad; [exact IR|]. destruct (Nat.eqb_spec i j) as [<-|NE].
    + assert (la = lb) as <- by congruence. apply spec_ret. exact IR.
    + rewrite Sb. eapply assign_spec; [exact IR| |apply good_map; exact (B _ _ Ela)|apply good_map; exact (B _ _ Elb)|lia].
      apply asrc_src. destruct (i_rep _ _ _ _ _ _ _ I b (map Some lb) Ib) as (RPb & _). rewrite <- (slen_map Some lb). eapply src_rep0; [exact RPb|].
      apply (OT j); [congruence|exact Eb|exact Elb].
  - (* a = move(b) *) destruct (sget ss i) as [la|] eqn:Ela; [|contradiction AP; reflexivity]. cbn [with_] in AP.
    destruct (sget ss j) as [lb|] eqn:Elb; [|contradiction AP; reflexivity].
    destruct (IN i la Ela) as (a & Ea & Ia). destruct (IN j lb Elb) as (b & Eb & Ib). unfold obj. rewrite Ea, Eb.
    destruct (Nat.eqb_spec i j) as [<-|NE].
    + cbn [outcome s_apply]. rewrite Ela. cbn [with_]. rewrite Nat.eqb_refl. eexists. split; [left; reflexivity|exact X].
    + destruct (assign_move_fine dbg arena mal ar (N + 1) s ss i j a la b lb X Ea Ela Eb Elb NE) as (h' & b1 & E1 & E2 & Ws).
      rewrite E1, E2. cbn [outcome s_apply]. rewrite Ela, Elb. cbn [with_]. destruct (Nat.eqb_spec i j); [congruence|]. eexists. split; [left; reflexivity|exact Ws].
  - (* swap *) destruct (sget ss i) as [la|] eqn:Ela; [|contradiction AP; reflexivity]. cbn [with_] in AP.
    destruct (sget ss j) as [lb|] eqn:Elb; [|contradiction AP; reflexivity].
    destruct (IN i la Ela) as (a & Ea & Ia). destruct (IN j lb Elb) as (b & Eb & Ib). unfold obj. rewrite Ea, Eb.
    cbn [outcome s_apply]. rewrite Ela, Elb. cbn [with_]. eexists. split; [left; reflexivity|]. exact (swap_fine dbg arena mal ar (N + 1) s ss i j a la b lb X Ea Ela Eb Elb).
  - (* destroy *) destruct (sget ss i) as [la|] eqn:Ela; [|contradiction AP; reflexivity]. destruct (IN i la Ela) as (a & Ea & Ia). unfold obj. rewrite Ea.
    destruct (destroy_fine dbg arena mal ar (N + 1) s ss i a la X Ea Ela) as (h' & E & Ws). rewrite E. cbn [outcome s_apply]. rewrite Ela. cbn [with_].
    eexists. split; [left; reflexivity|exact Ws].
  - (* one object *) destruct (sget ss i) as [l|] eqn:El; [|contradiction AP; reflexivity]. cbn [with_] in AP.
    destruct (arg_val ss (arg_of o)) as [x|] eqn:Ex; [|contradiction AP; reflexivity]. cbn [with_] in AP.
    destruct (IN i l El) as (c & Ec & Ic). specialize (OK l eq_refl).
    assert (RV : exists p n, resolve s i (arg_of o) = Some (p, n) /\ Forall is_char x /\
      forall R, INV (N + 1) (s_heap s) ((c, map Some l) :: R) -> others s ss i R ->
        (arg_of o <> None -> n < limit /\ asrc c (map Some l) R p n (map Some x)) /\
        (forall a, arg_of o = Some a -> foreign i a -> src R p n (map Some x))).
    { destruct (arg_of o) as [a|] eqn:Ea.
      - destruct (resolve_ok dbg arena mal ar (N + 1) s ss i c l a x X Ec El Ex) as (p & n & E1 & Hn & Bx & Y).
        { destruct o; try discriminate; injection Ea as <-; cbn [uop_ok] in OK; tauto. }
        exists p, n. split; [exact E1|]. split; [exact Bx|]. intros R IR OT. destruct (Y R IR OT) as (Y1 & Y2). split; [auto|]. intros a0 Q. injection Q as <-. exact Y2.
      - cbn [arg_val] in Ex. injection Ex as <-. exists (PExt []), 0. split; [reflexivity|]. split; [constructor|]. intros R _ _. split; [congruence|discriminate]. }
    destruct RV as (p & n & E1 & Bx & Y). rewrite E1. destruct (u_apply o x l) as [l'|] eqn:V.
    + eapply on_outcome; [exact X|exact Ec|exact El|eapply u_apply_bytes; [exact (B _ _ El)|exact Bx|exact OK|exact V]|cbn [s_apply]; rewrite El; cbn [with_]; rewrite Ex; cbn [with_]; rewrite V; left; reflexivity|reflexivity|reflexivity|].
      intros R IR GR OT. destruct (Y R IR OT) as (Y1 & Y2). eapply run_uop_spec; [exact IR|exact (B _ _ El)|exact Bx|exact OK|exact V|exact Y1|exact Y2].
    + destruct (focus _ _ i c l A Ec El) as (R & P1 & _).
      erewrite on_obj_throw; [|exact Ec|eapply (run_uop_range (N + 1)); [eapply Inv_perm; [exact P1|exact I]|exact V]].
      cbn [outcome s_apply]. rewrite El. cbn [with_]. rewrite Ex. cbn [with_]. rewrite V. split; [|split; [reflexivity|cbn [creates]; rewrite app_nil_r; reflexivity]]. eexists. split; [left; reflexivity|exact X].
Qed.

(** ** Histories *)
Theorem reach_world n s : mal_sane mal -> ar_ok dbg arena ar -> reach dbg arena mal ar n s -> short n ->
  h_rfail (s_heap s) = false /\ exists ss, W (Z.of_nat n + 1) s ss.
Proof.
  intros MS AO. induction 1 as [|n s ss o s' H IH SE AL ST RF]; intros SH.
  - split; [reflexivity|]. exists []. apply World_init; [assumption|assumption|lia].
  - split; [exact RF|]. destruct IH as (RF0 & ss0 & Ws); [unfold short in *; lia|].
    assert (ss0 = ss) as -> by (eapply sees_fun; [eapply World_sees; exact Ws|exact SE]).
    pose proof (sstep_outcome (Z.of_nat n + 1) {| s_heap := clean (s_heap s); s_objs := s_objs s |} ss o) as Y.
    cbn [s_heap s_objs] in Y. specialize (Y (World_clean _ _ _ _ _ _ _ _ Ws)).
    assert (HN : Z.of_nat n + 1 + 1 < 2 ^ 63) by (unfold short in SH; lia). specialize (Y HN AL).
    fold (step dbg arena mal ar s o) in Y. replace (Z.of_nat (S n) + 1) with (Z.of_nat n + 1 + 1) by lia.
    destruct ST as [E|(e & E)]; rewrite E in Y; cbn [outcome] in Y.
    + destruct Y as (ss' & _ & Y). exists ss'. exact Y.
    + destruct e; try contradiction.
      * destruct Y as (_ & Y). destruct (Y RF) as (ss' & _ & Y'). exists ss'. exact Y'.
      * destruct Y as ((ss' & _ & Y) & _). exists ss'. exact Y.
Qed.
Theorem reach_step n s ss o : mal_sane mal -> ar_ok dbg arena ar -> reach dbg arena mal ar n s -> short n -> sees s ss -> allowed ar ss o ->
  step_ok o s ss (step dbg arena mal ar s o).
Proof.
  intros MS AO H SH SE AL. destruct (reach_world n s MS AO H SH) as (_ & ss0 & Ws).
  assert (ss0 = ss) as -> by (eapply sees_fun; [eapply World_sees; exact Ws|exact SE]).
  pose proof (sstep_outcome (Z.of_nat n + 1) {| s_heap := clean (s_heap s); s_objs := s_objs s |} ss o) as Y.
  cbn [s_heap s_objs] in Y. specialize (Y (World_clean _ _ _ _ _ _ _ _ Ws)).
  assert (HN : Z.of_nat n + 1 + 1 < 2 ^ 63) by (unfold short in SH; lia). specialize (Y HN AL).
  fold (step dbg arena mal ar s o) in Y. destruct (step dbg arena mal ar s o) as [s'|e s'|h| |h]; cbn [outcome step_ok] in *; try exact Y.
  - destruct Y as (ss' & Y1 & Y2). exists ss'. split; [exact Y1|eapply World_sees; exact Y2].
  - destruct e; try exact Y.
    + destruct Y as (F & Y). split; [exact F|]. intros RF. destruct (Y RF) as (ss' & Y1 & Y2). exists ss'. split; [exact Y1|eapply World_sees; exact Y2].
    + destruct Y as ((ss' & Y1 & Y2) & E). split; [|exact E]. exists ss'. split; [exact Y1|eapply World_sees; exact Y2].
Qed.
End S.
End Wide.
