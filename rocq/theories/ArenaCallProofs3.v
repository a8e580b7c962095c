Require Import ZArith List Bool Lia Permutation.
From Verif Require Import Base BaseProofs AlignModel BasicSpec BasicProofs ArenaSpec ArenaModel ArenaStatements
  ArenaProofs ArenaProofs2 ArenaProofs3 ArenaProofs4 ArenaProofs5 ArenaProofs6 ArenaProofs7
  ArenaReentModel ArenaReentSpec ArenaReentProofs ArenaReentProofs2 ArenaHookModel ArenaHookSpec
  ArenaHookProofs ArenaHookProofs2 ArenaHookProofs3 ArenaHookProofs4 ArenaHookProofs5 ArenaCallModel ArenaCallSpec
  ArenaCallProofs ArenaCallProofs2.
Import ListNotations.
Open Scope Z_scope.

Section S.
Variable e : env.
Variable c : calls.
Variable A : Z.
Hypothesis HA : block_alignment A.
Hypothesis HG : good_block_alloc A (e_alloc e).

Let post := op_post A.

Lemma may_use_frame s s' l : frame (s_arenas s) (s_arenas s') -> may_use A s l -> may_use A s' l.
Proof.
  intros F H j o Hin. destruct (H j o Hin) as (Q1 & Q2 & Q3). split; [eapply frame_alive; eauto|]. split; auto.
  intros Hu. eapply frame_resource; eauto.
Qed.
Lemma frame_back s s' j b : frame (s_arenas s) (s_arenas s') -> nth_error (s_arenas s') j = Some (Some b) ->
  exists a, nth_error (s_arenas s) j = Some (Some a) /\ same_cfg a b.
Proof.
  intros F Hb. specialize (F j). rewrite Hb in F. unfold cfg_rel in F. destruct (nth_error (s_arenas s) j) as [[a|]|]; try easy. eauto.
Qed.
Lemma keeps_off_frame i s s' l : frame (s_arenas s) (s_arenas s') -> keeps_off i s l -> keeps_off i s' l.
Proof.
  intros F H j o Hin. destruct (H j o Hin) as (Q1 & Q2). split; auto. intros Hu b Hb.
  destruct (frame_back _ _ _ _ F Hb) as (a & Ha & _ & -> & _). eauto.
Qed.
Lemma calls_ok_post s s' : post s s' -> calls_ok A c s -> calls_ok A c s'.
Proof.
  intros (_ & F & (evs & E & FA)) H i evs' (b & Hb) FR. cbv zeta. rewrite E, app_assoc.
  destruct (frame_back _ _ _ _ F Hb) as (a & Ha & _).
  destruct (H i (evs' ++ evs)) as (Q1 & Q2 & Q3).
  - now exists a.
  - apply Forall_app. split; auto.
  - split; [eapply may_use_frame; eauto|]. split; [eapply may_use_frame; eauto|]. eapply keeps_off_frame; eauto.
Qed.

Lemma script_post l s s' : inv A s -> may_use A s l -> run_script e l s = Ok s' -> post s s'.
Proof.
  intros HI HM E. destruct (run_script_alloc e A HA HG l s HI HM) as (s2 & evs & E2 & I2 & F2 & H2 & FA).
  rewrite E in E2. inv E2. split; auto. split; auto. exists evs. auto.
Qed.

Lemma called_ok s i : inv A s -> alive s i -> calls_ok A c s ->
  exists s', called_c e c i s = Ok s' /\ post s s' /\
    (forall p n, reserved (s_arenas s) (s_mem s) i p n -> reserved (s_arenas s') (s_mem s') i p n).
Proof.
  intros HI HL HC. pose proof HL as (a & Hi). unfold called_c. rewrite (get_arena_ok _ _ _ Hi). cbn [bind].
  destruct (HC i [] HL ltac:(constructor)) as (Q1 & _). cbv zeta in Q1. simpl app in Q1.
  destruct (o_on_alloc (a_opts a)).
  - destruct (run_script_alloc e A HA HG _ s HI Q1) as (s2 & evs & E2 & _). exists s2. split; auto. split; [eapply script_post; eauto|].
    intros p n. eapply script_reserved; eauto.
  - exists s. split; auto. split; auto. now apply op_post_refl.
Qed.

Lemma told_ok s i ty n : inv A s -> alive s i -> exists s', told_c i s ty n = Ok s' /\ post s s' /\
    s_arenas s' = s_arenas s /\ m_nodes (s_mem s') = m_nodes (s_mem s) /\ live_ranges (m_hist (s_mem s')) = live_ranges (m_hist (s_mem s)).
Proof.
  intros HI (a & Hi). unfold told_c. rewrite (get_arena_ok _ _ _ Hi). cbn [bind]. eexists. split; [reflexivity|].
  split. { split; [now apply hook_alloc_inv|]. split; [apply frame_refl|apply hook_alloc_ext]. }
  cbn [s_arenas s_mem]. split; auto. split; [unfold hook_alloc; now destruct (o_on_alloc _)|]. apply hook_alloc_ranges.
Qed.

Lemma hand_ok s i p n : inv A s -> reserved (s_arenas s) (s_mem s) i p n -> exists s', hand_c i s p n = Ok s' /\ post s s' /\
  In (i, p, n) (live_ranges (m_hist (s_mem s'))).
Proof.
  intros HI HR. unfold hand_c. destruct (hand_out_ok A _ _ i p n HI HR) as (m' & E & HI' & Hr & _). rewrite E. cbn [bind].
  eexists. split; [reflexivity|]. split; [|cbn [s_mem]; rewrite Hr; simpl; auto].
  split; auto. split; [apply frame_refl|eapply hand_out_ext; eauto].
Qed.

Lemma ensure_ok s i need al : inv A s -> alive s i -> calls_ok A c s -> req_ok need -> alignment_ok A al ->
  exists s' ok, ensure_c e c i s need al = Ok (s', ok) /\ post s s' /\
    (forall p n, reserved (s_arenas s) (s_mem s) i p n -> reserved (s_arenas s') (s_mem s') i p n) /\
    (ok = true -> exists a b rest, nth_error (s_arenas s') i = Some (Some a) /\ a_blocks a = b :: rest /\ fits b need al).
Proof.
  intros HI HL HC Hn Hal. pose proof HL as (a & Hi).
  destruct (ensure_block_ok e A _ _ i a need al HA HG HI Hi Hn Hal) as (a' & m' & ok & E & HI' & Hr & Hp & Hc & Hin & Hok).
  pose proof (ensure_block_ext _ _ _ _ _ _ _ _ _ E) as X.
  assert (HR : forall p n, reserved (s_arenas s) (s_mem s) i p n -> reserved (upd i (Some a') (s_arenas s)) m' i p n).
  { intros p n (Q & (d & b & Hd & Hb & Hu) & Hap). rewrite Hi in Hd. inv Hd. split; auto. split; [|rewrite Hr; auto].
    exists a', b. split; [eapply nth_error_upd_eq; eauto|]. auto. }
  set (sl := put s i a' m').
  assert (PL : post s sl). { split; [exact HI'|]. split; [eapply frame_upd; eauto|exact X]. }
  unfold ensure_c. rewrite (get_arena_ok _ _ _ Hi). cbn [bind]. unfold ensure_block in E. bk E. rewrite H. cbn [bind]. destruct x.
  - bk E. destruct x as [[a1 m1] ob]. rewrite H0. cbn [bind]. pose proof (newBlock_blocks e _ _ _ _ _ _ _ H0) as EB.
    destruct ob as [b|]; inv E.
    + set (a1 := {| a_opts := a_opts a; a_blocks := a_blocks a; a_resource := a_resource a; a_cookie := a_cookie a; a_space := add64 (a_space a) (b_size b) |}) in *.
      set (an := set_blocks a1 (b :: a_blocks a1)) in *.
      set (s1 := {| s_arenas := s_arenas s; s_mem := m' |}).
      assert (EO : s1 = other i (Some a) sl).
      { unfold s1, other, sl, put. cbn [s_arenas s_mem]. f_equal. apply nth_ext_list. intros k.
        destruct (Nat.eq_dec i k) as [<-|NE].
        - rewrite upd_upd. rewrite (nth_error_upd_eq _ _ _ _ Hi). exact Hi.
        - now rewrite !nth_error_upd_ne. }
      assert (Hl : nth_error (s_arenas sl) i = Some (Some an)) by (eapply nth_error_upd_eq; eauto).
      pose proof (calls_ok_post s sl PL HC) as HCl.
      assert (HLl : alive sl i) by (exists an; auto).
      assert (RUN : exists s2, (if o_on_newblock (a_opts a) then run_script e (c_block c (m_hist m') i) s1 else Ok s1) = Ok (other i (Some a) s2) /\
                 post sl s2 /\ nth_error (s_arenas s2) i = Some (Some an) /\
                 (forall p n, reserved (s_arenas sl) (s_mem sl) i p n -> reserved (s_arenas s2) (s_mem s2) i p n)).
      { destruct (o_on_newblock (a_opts a)).
        - destruct (HCl i [] HLl ltac:(constructor)) as (_ & Q2 & Q3). cbv zeta in Q2, Q3. simpl app in Q2, Q3.
          change (m_hist (s_mem sl)) with (m_hist m') in Q2, Q3.
          destruct (run_script_alloc e A HA HG _ sl (proj1 PL) Q2) as (s2 & evs & E2 & _).
          destruct (run_script_other e A HA HG i (Some a) _ sl s2 (proj1 PL) Q2 Q3 E2) as (R1 & R2).
          exists s2. rewrite EO. split; auto. split; [eapply script_post; eauto; apply PL|]. split; [congruence|].
          intros p n. eapply script_reserved; eauto.
        - exists sl. rewrite EO. split; auto. split; [apply op_post_refl; apply PL|]. auto. }
      destruct RUN as (s2 & -> & P2 & N2 & R2). cbn [bind].
      assert (G2 : get_arena (other i (Some a) s2) i = Ok a).
      { apply get_arena_ok. unfold other. cbn [s_arenas]. eapply nth_error_upd_eq; eauto. }
      rewrite G2. cbn [bind]. cbv zeta. rewrite Nat.sub_diag. cbn [skipn].
      assert (EP : put (other i (Some a) s2) i {| a_opts := a_opts a; a_blocks := b :: a_blocks a; a_resource := a_resource a;
                        a_cookie := a_cookie a; a_space := add64 (a_space a) (b_size b) |} (s_mem (other i (Some a) s2)) = s2).
      { unfold put, other. cbn [s_arenas s_mem]. rewrite upd_upd.
        change {| a_opts := a_opts a; a_blocks := b :: a_blocks a; a_resource := a_resource a;
                        a_cookie := a_cookie a; a_space := add64 (a_space a) (b_size b) |} with an.
        apply (put_same s2 i an). now apply get_arena_ok. }
      rewrite EP. exists s2, true. split; auto. split; [eapply op_post_trans; eauto|]. split; [intros p n Q; apply R2; now apply HR|].
      intros _. destruct Hok as (b' & rest & Eb & Hf). exists an, b', rest. auto.
    + exists sl, false. split; auto. split; auto. split; [exact HR|discriminate].
  - inv E. exists s, true. split; auto. split; [now apply op_post_refl|]. split; auto. intros _.
    destruct Hok as (b & rest & Eb & Hf). exists a', b, rest. auto.
Qed.

Lemma req_of bytes : 0 <= bytes <= max_request -> req_ok (align_size bytes) /\ bytes <= align_size bytes.
Proof.
  intros Hb. destruct (align_size_ok bytes Hb) as [Hs Hs8]. split; [|lia]. split; auto. split; [lia|]. unfold max_request in *.
  assert (align_size bytes <= 2 ^ 62); [|lia].
  destruct (Z_le_gt_dec (align_size bytes) (2 ^ 62)); auto. exfalso.
  change (2^62) with 4611686018427387904 in *.
  apply Z.mod_divide in Hs8; [|lia]. destruct Hs8 as (k & Hk). lia.
Qed.

Lemma allocate_ok s i bytes al : inv A s -> alive s i -> calls_ok A c s -> 0 <= bytes <= max_request -> alignment_ok A al ->
  exists s' p, allocate_c e c i s bytes al = Ok (s', p) /\ post s s' /\
    (p = 0 \/ (0 < p /\ p mod al = 0 /\ reserved (s_arenas s') (s_mem s') i p bytes)).
Proof.
  intros HI HL HC Hb Hal. destruct (req_of bytes Hb) as [Hreq Hle]. unfold allocate_c.
  destruct (ensure_ok s i (align_size bytes) al HI HL HC Hreq Hal) as (s1 & ok & E & P1 & _ & Hok). rewrite E. cbn [bind]. destruct ok.
  - destruct (Hok eq_refl) as (a1 & b & rest & Hi1 & Eb & Hf). rewrite (get_arena_ok _ _ _ Hi1). cbn [bind]. rewrite Eb.
    destruct (take_ok e A _ _ i a1 b rest _ al HA (proj1 P1) Hi1 Eb Hf Hreq Hal) as (b' & p & E2 & Q1 & Q2 & Q3 & Q4 & Q5 & Q6 & Q7 & HI2 & HR).
    rewrite E2. cbn [bind]. unfold check_assert.
    rewrite land7 by (first [lia | apply (mod8_of_al p al); [apply Hal|auto]]). simpl negb. rewrite andb_false_r. cbn [bind].
    eexists _, p. split; [reflexivity|]. split.
    + eapply op_post_trans; [exact P1|]. split; [exact HI2|]. split; [|apply ext_refl]. eapply frame_upd; eauto. repeat split.
    + right. split; auto. split; auto. apply HR. lia.
  - exists s1, 0. auto.
Qed.

Lemma al8' : alignment_ok A 8.
Proof. split; [auto|destruct HA as [->|[->| ->]]; lia]. Qed.

Lemma addCleanup_c_ok s i obj fn : inv A s -> alive s i -> calls_ok A c s ->
  exists s' ok, addCleanup_c e c i s obj fn = Ok (s', ok) /\ frame (s_arenas s) (s_arenas s') /\ ext (s_mem s) (s_mem s') /\
    (forall p n, reserved (s_arenas s) (s_mem s) i p n -> reserved (s_arenas s') (s_mem s') i p n) /\
    (if ok : bool then post s (emits s' (CRegister i obj fn)) else post s s').
Proof.
  intros HI HL HC. unfold addCleanup_c. rewrite kC16. change kByteSize with 8.
  assert (Hreq : req_ok 16) by (split; [lia|reflexivity]).
  destruct (ensure_ok s i 16 8 HI HL HC Hreq al8') as (s1 & ok & E & P1 & R1 & Hok). rewrite E. cbn [bind]. destruct ok.
  - destruct (Hok eq_refl) as (a1 & b & rest & Hi1 & Eb & Hf). rewrite (get_arena_ok _ _ _ Hi1). cbn [bind]. rewrite Eb.
    assert (Hf' : b_pos b + 16 <= b_limit b).
    { unfold fits in Hf. pose proof (waste_bounds (b_addr b + b_pos b) 8 ltac:(lia)). lia. }
    destruct (register_ok e A _ _ i a1 b rest obj fn HA (proj1 P1) Hi1 Eb Hf') as (b' & m2 & E2 & HI2 & Hh & HR2).
    rewrite E2. cbn [bind]. eexists _, true. split; [reflexivity|].
    assert (F : frame (s_arenas s) (s_arenas (put s1 i (set_blocks a1 (b' :: rest)) m2))).
    { eapply frame_trans; [apply P1|]. eapply frame_upd; eauto. repeat split. }
    assert (X : ext (s_mem s) m2). { destruct P1 as (_ & _ & evs & EE & FE). exists evs. split; auto. congruence. }
    split; auto. split; auto. split; [intros p n Q; apply HR2; now apply R1|].
    split; [exact HI2|]. split; [exact F|]. apply ext_emit; [exact X|exact I].
  - exists s1, false. split; auto. split; [apply P1|]. split; [apply P1|]. auto.
Qed.

Lemma pending_ext m m' i x : ext m m' -> In x (pending (m_hist m) i) -> In x (pending (m_hist m') i).
Proof.
  intros (evs & E & F) Hx. rewrite E. clear E. induction F as [|y evs Hy F IH]; auto.
  destruct y; simpl in *; try contradiction; auto. destruct (arena =? i)%nat; simpl; auto.
Qed.

Lemma Own_c_ok s i obj fn : inv A s -> alive s i -> calls_ok A c s ->
  exists s' r, Own_c e c i s obj fn = Ok (s', r) /\ post s s' /\ (r <> 0 -> In (obj, fn) (pending (m_hist (s_mem s')) i)).
Proof.
  intros HI HL HC. unfold Own_c. destruct (addCleanup_c_ok s i obj fn HI HL HC) as (s1 & ok & E & F & X & R & P). rewrite E. cbn [bind].
  destruct ok; eexists _, _; (split; [reflexivity|]); (split; [exact P|]).
  - intros _. simpl. rewrite Nat.eqb_refl. simpl. auto.
  - congruence.
Qed.

Lemma post_alive s s' i : post s s' -> alive s i -> alive s' i.
Proof. intros (_ & F & _). now apply frame_alive. Qed.

Lemma exec_c_ok : forall o i s, inv A s -> alive s i -> op_ok A o -> (uses_resource o = true -> resource_alive s i) -> calls_ok A c s ->
  exists s' r, exec_c e c o i s = Ok (s', r) /\ post s s' /\
    (forall n al, op_range o = Some (n, al) -> r <> 0 ->
       0 < r /\ r mod al = 0 /\ exists j, served_by s i o j /\ In (j, r, n) (live_ranges (m_hist (s_mem s')))) /\
    (forall x, op_cleanup o r = Some x -> r <> 0 -> In x (pending (m_hist (s_mem s')) i)).
Proof.
  fix IH 1. intros o i s HI HL HO HU HC. destruct o; cbn [exec_c].
  - destruct HO as [Hb Hal]. destruct (allocate_ok s i bytes alignment HI HL HC Hb Hal) as (s1 & p & E & P1 & HR). rewrite E. cbn [bind].
    destruct (Z.eqb_spec p 0) as [->|NZ]. { eexists _, _. split; [reflexivity|]. split; auto. split; [congruence|discriminate]. }
    destruct HR as [HR|(P0 & P2 & HR)]; [lia|].
    destruct (told_ok s1 i 0 bytes (proj1 P1) (post_alive _ _ _ P1 HL)) as (s2 & E2 & Q2 & A2 & N2 & R2). rewrite E2. cbn [bind].
    assert (Q02 : post s s2) by (eapply op_post_trans; eauto).
    destruct (called_ok s2 i (proj1 Q2) (post_alive _ _ _ Q02 HL) (calls_ok_post _ _ Q02 HC)) as (s3 & E3 & Q3 & R3). rewrite E3. cbn [bind].
    destruct (hand_ok s3 i p bytes (proj1 Q3)) as (s4 & E4 & Q4 & IN).
    { apply R3. rewrite A2. eapply reserved_hist; eauto. }
    rewrite E4. cbn [bind]. eexists _, _. split; [reflexivity|].
    split; [eapply op_post_trans; [exact Q02|]; eapply op_post_trans; eauto|]. split; [|discriminate].
    intros n al Hra _. inv Hra. split; auto. split; auto. exists i. split; [reflexivity|auto].
  - destruct (allocate_ok s i bytes kByteSize HI HL HC HO al8') as (s1 & p & E & P1 & HR). rewrite E. cbn [bind].
    destruct (Z.eqb_spec p 0) as [->|NZ]. { eexists _, _. split; [reflexivity|]. split; auto. split; congruence. }
    destruct HR as [HR|(P0 & P2 & HR)]; [lia|]. set (el := if elem =? 0 then p else elem).
    destruct (addCleanup_c_ok s1 i el fn (proj1 P1) (post_alive _ _ _ P1 HL) (calls_ok_post _ _ P1 HC)) as (s2 & ok & E2 & F2 & X2 & R2 & Q2).
    cbv zeta. fold el. rewrite E2. cbn [bind]. destruct ok.
    2: { eexists _, _. split; [reflexivity|]. split; [eapply op_post_trans; eauto|]. split; congruence. }
    assert (HL2 : alive s2 i) by (eapply frame_alive; [exact F2|]; eapply post_alive; eauto). pose proof HL2 as (a2 & Hi2).
    unfold told_c at 1. rewrite (get_arena_ok _ _ _ Hi2). cbn [bind].
    set (s3 := emits {| s_arenas := s_arenas s2; s_mem := hook_alloc i a2 (s_mem s2) 0 bytes |} (CRegister i el fn)).
    assert (Q3 : post s1 s3).
    { destruct Q2 as (I2 & _ & _). unfold s3, emits. cbn [s_arenas s_mem]. split; [|split].
      - eapply Inv_ext; [exact I2|..]; unfold emits, hook_alloc; cbn [s_arenas s_mem]; destruct (o_on_alloc _); try reflexivity;
          simpl; destruct (live_blocks (m_hist (s_mem s2))); reflexivity.
      - exact F2.
      - cbn [s_mem]. apply ext_emit; [|exact I]. eapply ext_trans; [exact X2|apply hook_alloc_ext]. }
    assert (Q03 : post s s3) by (eapply op_post_trans; eauto).
    destruct (called_ok s3 i (proj1 Q3) (post_alive _ _ _ Q03 HL) (calls_ok_post _ _ Q03 HC)) as (s4 & E4 & Q4 & R4). rewrite E4. cbn [bind].
    destruct (hand_ok s4 i p bytes (proj1 Q4)) as (s5 & E5 & Q5 & IN).
    { apply R4. unfold s3. cbn [emits s_arenas s_mem]. eapply reserved_hist; [|apply R2; exact HR].
      transitivity (live_ranges (m_hist (hook_alloc i a2 (s_mem s2) 0 bytes))); [reflexivity|apply hook_alloc_ranges]. }
    rewrite E5. cbn [bind]. eexists _, _. split; [reflexivity|].
    assert (Q45 : post s3 s5) by (eapply op_post_trans; eauto).
    split; [eapply op_post_trans; eauto|]. split.
    + intros n al Hra _. inv Hra. split; auto. split; auto. exists i. split; [reflexivity|auto].
    + intros x Hx _. simpl in Hx. fold el in Hx. inv Hx. eapply pending_ext; [apply Q45|]. unfold s3. simpl. rewrite Nat.eqb_refl. simpl. auto.
  - destruct HO as [Hb Hbody]. destruct (allocate_ok s i sz kByteSize HI HL HC Hb al8') as (s1 & p & E & P1 & HR). rewrite E. cbn [bind].
    destruct (Z.eqb_spec p 0) as [->|NZ]. { eexists _, _. split; [reflexivity|]. split; auto. split; [congruence|discriminate]. }
    destruct HR as [HR|(P0 & P2 & HR)]; [lia|].
    destruct (hand_ok s1 i p sz (proj1 P1) HR) as (s2 & E2 & Q2 & IN2). rewrite E2. cbn [bind].
    assert (Q02 : post s s2) by (eapply op_post_trans; eauto).
    assert (BODY : forall l s2, post s s2 ->
       (fix all (l : list op) : Prop := match l with [] => True | x :: r => op_ok A x /\ all r end) l ->
       ((fix any (l : list op) : bool := match l with [] => false | x :: r => uses_resource x || any r end) l = true -> uses_resource (OCreate sz ty dtor body) = true) ->
       exists s3, (fix go (l : list op) (s : sys) : res sys :=
                  match l with [] => Ok s | x :: r => do (s', _) <- exec_c e c x i s; go r s' end) l s2 = Ok s3 /\ post s2 s3).
    { clear - IH HL HU HC. induction l as [|y l IHl]; intros s2 P2 Hok2 Hres2.
      - exists s2. split; auto. apply op_post_refl. apply P2.
      - destruct Hok2 as [Hy Hl].
        destruct (IH y i s2 (proj1 P2) (post_alive _ _ _ P2 HL) Hy) as (s3 & r3 & E3 & P3 & _).
        { intros Hu. eapply frame_resource; [apply P2|]. apply HU, Hres2. rewrite Hu. reflexivity. }
        { eapply calls_ok_post; eauto. }
        rewrite E3. cbn [bind]. destruct (IHl s3) as (s4 & E4 & P4); auto.
        + eapply op_post_trans; eauto.
        + intros Hu. apply Hres2. rewrite Hu. apply orb_true_r.
        + exists s4. split; auto. eapply op_post_trans; eauto. }
    destruct (BODY body s2 Q02 Hbody (fun u => u)) as (s3 & E3 & Q3). rewrite E3. cbn [bind]. clear BODY E3.
    assert (Q03 : post s s3) by (eapply op_post_trans; eauto).
    assert (HD : exists s4 ok, match dtor with None => Ok (s3, 1) | Some fn => Own_c e c i s3 p fn end = Ok (s4, ok) /\ post s3 s4).
    { destruct dtor as [fn|].
      - destruct (Own_c_ok s3 i p fn (proj1 Q3) (post_alive _ _ _ Q03 HL) (calls_ok_post _ _ Q03 HC)) as (s4 & ok & E4 & Q4 & _). eauto.
      - exists s3, 1. split; auto. apply op_post_refl. apply Q3. }
    destruct HD as (s4 & ok & -> & Q4). cbn [bind]. assert (Q04 : post s s4) by (eapply op_post_trans; eauto).
    destruct (ok =? 0). { eexists _, _. split; [reflexivity|]. split; auto. split; [congruence|discriminate]. }
    destruct (told_ok s4 i ty sz (proj1 Q4) (post_alive _ _ _ Q04 HL)) as (s5 & E5 & Q5 & _). rewrite E5. cbn [bind].
    assert (Q05 : post s s5) by (eapply op_post_trans; eauto).
    destruct (called_ok s5 i (proj1 Q5) (post_alive _ _ _ Q05 HL) (calls_ok_post _ _ Q05 HC)) as (s6 & E6 & Q6 & _). rewrite E6. cbn [bind].
    eexists _, _. split; [reflexivity|]. split; [eapply op_post_trans; eauto|]. split; [|discriminate].
    intros n al Hra _. inv Hra. split; auto. split; auto. exists i. split; [reflexivity|].
    eapply ranges_ext; [apply Q6|]. eapply ranges_ext; [apply Q5|]. eapply ranges_ext; [apply Q4|]. eapply ranges_ext; [apply Q3|]. exact IN2.
  - destruct HO as (H1 & H2 & H3). destruct (Z.eqb_spec sz 0); [lia|].
    destruct (Z.ltb_spec ((M64 - 1) / sz) num) as [L|L].
    { exfalso. assert (num <= (M64 - 1) / sz); [|lia]. apply Z.div_le_lower_bound; auto. unfold max_request, M64 in *. lia. }
    cbv zeta. rewrite mul64_small by (unfold M64, max_request in *; nia).
    destruct (allocate_ok s i (sz * num) kByteSize HI HL HC ltac:(nia) al8') as (s1 & p & E & P1 & HR). rewrite E. cbn [bind].
    destruct (Z.eqb_spec p 0) as [->|NZ]. { eexists _, _. split; [reflexivity|]. split; auto. split; [congruence|discriminate]. }
    destruct HR as [HR|(P0 & P2 & HR)]; [lia|]. rewrite (Z.mul_comm sz num) in HR.
    destruct (hand_ok s1 i p _ (proj1 P1) HR) as (s2 & E2 & Q2 & IN2). rewrite E2. cbn [bind].
    assert (Q02 : post s s2) by (eapply op_post_trans; eauto).
    destruct (told_ok s2 i ty (sz * num) (proj1 Q2) (post_alive _ _ _ Q02 HL)) as (s3 & E3 & Q3 & _). rewrite E3. cbn [bind].
    assert (Q03 : post s s3) by (eapply op_post_trans; eauto).
    destruct (called_ok s3 i (proj1 Q3) (post_alive _ _ _ Q03 HL) (calls_ok_post _ _ Q03 HC)) as (s4 & E4 & Q4 & _). rewrite E4. cbn [bind].
    eexists _, _. split; [reflexivity|]. split; [eapply op_post_trans; eauto|]. split; [|discriminate].
    intros n0 al Hra _. inv Hra. split; auto. split; auto. exists i. split; [reflexivity|].
    eapply ranges_ext; [apply Q4|]. eapply ranges_ext; [apply Q3|]. exact IN2.
  - destruct (Own_c_ok s i obj fn HI HL HC) as (s' & r & E & P & HP). exists s', r. split; auto. split; auto. split; [discriminate|].
    intros x Hx Hr. inv Hx. auto.
  - destruct HO as [Hb Hal]. destruct (HU eq_refl) as (a & j & Hi & Hj & Hlj). rewrite (get_arena_ok _ _ _ Hi). cbn [bind]. rewrite Hj.
    assert (Hal' : alignment_ok A (Z.max kByteSize alignment)).
    { change kByteSize with 8. destruct Hal as [->|[->|[->|Hal]]]; try exact al8'. destruct Hal as (Hx & Hy).
      rewrite Z.max_r; [split; auto|]. destruct Hx as [->|[->| ->]]; lia. }
    destruct (allocate_ok s j bytes _ HI Hlj HC Hb Hal') as (s1 & p & E & P1 & HR). rewrite E. cbn [bind].
    destruct (Z.eqb_spec p 0) as [->|NZ]. { eexists _, _. split; [reflexivity|]. split; auto. split; [congruence|discriminate]. }
    destruct HR as [HR|(P0 & P2 & HR)]; [lia|].
    destruct (hand_ok s1 j p _ (proj1 P1) HR) as (s2 & E2 & Q2 & IN2). rewrite E2. cbn [bind].
    eexists _, _. split; [reflexivity|]. split; [eapply op_post_trans; eauto|]. split; [|discriminate].
    intros n0 al Hra _. inv Hra. split; auto. split; auto. exists j. split; [exists a; auto|auto].
Qed.

Lemma step_c_ok k s o : inv A s -> permitted_c A k c s o ->
  exists s' r, step_c e c k s o = Ok (s', r) /\ (tame s s' o -> inv A s').
Proof.
  intros HI [HP HC]. destruct o as [o|i o|i|i|i]; try (apply (step_h_ok e k A HA HG s _ HI HP)).
  destruct HP as ((H1 & H2 & H3) & _). destruct (exec_c_ok o i s HI H1 H2 H3 HC) as (s' & r & E & P & _).
  exists s', r. split; auto. intros _. apply P.
Qed.
Lemma reach_c_inv k s : reach_c e k c A s -> inv A s.
Proof.
  induction 1 as [|s o s' r HR IH HP HS HT]; [exact (Inv_init A)|].
  destruct (step_c_ok k s o IH HP) as (s2 & r2 & E & HI). rewrite HS in E. inv E. auto.
Qed.
End S.
