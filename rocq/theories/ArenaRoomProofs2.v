(** Each operation and the room it needs; where the room is. *)
Require Import ZArith List Bool Lia.
From Verif Require Import Base BaseProofs ArenaSpec ArenaModel ArenaStatements ArenaProofs ArenaProofs2 ArenaProofs3
  ArenaProofs4 ArenaProofs7 ArenaRoomSpec ArenaRoomProofs.
Import ListNotations.
Open Scope Z_scope.

Section Room.
Variable e : env.
Variable A : Z.
Hypothesis HA : block_alignment A.
Hypothesis HG : good_block_alloc A (e_alloc e).

Ltac on_a HS Hi := unfold on_arena in HS; rewrite (get_arena_ok _ _ _ Hi) in HS; cbn [bind] in HS; bk HS;
  match goal with x : arena * mem * Z |- _ => destruct x as [[? ?] ?] end; inv HS.

(** What follows a successful allocation of [p] and hands it out. *)
Lemma simple_room l m i a b rest bytes need a' m' p m2 :
  Inv A l m -> nth_error l i = Some (Some a) -> a_blocks a = b :: rest -> 0 <= bytes <= max_request -> rounded bytes need ->
  allocateAligned e i a m bytes 8 = Ok (a', m', p) -> ext m' m2 ->
  (p <> 0 -> forall h, asks_nothing h (m_hist m') -> asks_nothing h (m_hist m2)) ->
  served i a b rest need m m2 a' /\ (need <= b_limit b - b_pos b -> p <> 0).
Proof.
  intros HI Hi Eb Hb Hr H X Q. rewrite (rounded_align _ _ Hb Hr).
  destruct (allocate8 e A HA HG l m i a b rest bytes a' m' p HI Hi Eb Hb H) as [F N]. split; [split|].
  - intros K. destruct (F K) as (-> & P & b' & E & D1 & D2 & D3 & D4). split; [apply Q; [lia|]; apply nothing_refl|].
    exists b'. repeat split; auto. lia.
  - intros K. apply (asks_ext i _ m'); auto.
  - intros K. destruct (F K) as (-> & P & _). lia.
Qed.

Lemma op_room s i j o a b rest need s' r :
  Inv A (s_arenas s) (s_mem s) -> served_by s i o j -> nth_error (s_arenas s) j = Some (Some a) ->
  a_blocks a = b :: rest -> op_ok A o -> takes o need -> step e s (SOp i o) = Ok (s', r) ->
  exists a', nth_error (s_arenas s') j = Some (Some a') /\ served j a b rest need (s_mem s) (s_mem s') a' /\
    (need <= b_limit b - b_pos b -> r <> 0).
Proof.
  intros HI HSv Hi Eb Hok HT HS.
  destruct o as [bytes al|bytes fn el|sz ty dtor body|sz num ty|obj fn|bytes al]; simpl in HS, HSv.
  - subst j. destruct HT as [-> HT]. on_a HS Hi.
    exists a0. split; [eapply nth_error_upd_eq; eauto|]. unfold AllocateAligned in H. bk H. destruct x as [[a1 m1] p].
    destruct (Z.eqb_spec p 0) as [->|NZ].
    + inv H. eapply simple_room; eauto; [apply Hok|apply ext_refl].
    + bk H. inv H. eapply simple_room; eauto; [apply Hok| |].
      * eapply ext_trans; [apply hook_alloc_ext|eapply hand_out_ext; eauto].
      * intros _ h N. eapply hand_out_nothing; eauto. now apply hook_nothing.
  - subst j. on_a HS Hi. exists a0. split; [eapply nth_error_upd_eq; eauto|].
    unfold AllocateAlignedAndAddCleanup in H. bk H. destruct x as [[a1 m1] p]. change kByteSize with 8 in H0.
    simpl in HT, Hok. assert (Hne : need = align_size bytes + 16) by (pose proof (rounded_align _ _ Hok HT); lia). clear HT. subst need.
    destruct (allocate8 e A HA HG _ _ i a b rest bytes a1 m1 p HI Hi Eb Hok H0) as [F N].
    pose proof (allocateAligned_ext _ _ _ _ _ _ _ _ _ H0) as X0.
    destruct (allocateAligned_ok e A _ _ i a bytes 8 HA HG HI Hi Hok (al8 e A HA HG)) as (a1' & m1' & p' & E' & HI1 & _).
    rewrite H0 in E'. inv E'.
    destruct (Z.eqb_spec p' 0) as [->|NZ].
    { inv H. split; [split|].
      - intros K. destruct (F ltac:(lia)) as (_ & P & _). lia.
      - intros K. destruct (Z_lt_le_dec (b_limit b - b_pos b) (align_size bytes)) as [L|L]; auto.
        destruct (F L) as (_ & P & _). lia.
      - intros K. destruct (F ltac:(lia)) as (_ & P & _). lia. }
    set (elem := if el =? 0 then p' else el) in *. cbv zeta in H. bk H. destruct x as [[a2 m2] ok].
    pose proof (addCleanup_ext _ _ _ _ _ _ _ _ _ H1) as X1.
    assert (X2 : ext m2 m).
    { destruct ok; [|inv H; apply ext_refl]. bk H. inv H. eapply ext_trans; [apply hook_alloc_ext|].
      eapply ext_trans; [|eapply hand_out_ext; eauto]. apply ext_emit; [apply ext_refl|exact I]. }
    assert (Ea : a2 = a0) by (destruct ok; [bk H|]; inv H; reflexivity). subst a2.
    assert (Hi1 : nth_error (upd i (Some a1') (s_arenas s)) i = Some (Some a1')) by (eapply nth_error_upd_eq; eauto).
    destruct (Z_lt_le_dec (b_limit b - b_pos b) (align_size bytes)) as [L|L].
    { specialize (N L). split; [split; intros K; [pose proof (align_size_ok bytes Hok); lia|]|intros K; lia].
      apply (asks_ext i _ m2); auto. apply (asks_ext i _ m1'); auto. }
    destruct (F L) as (-> & _ & b1 & -> & D1 & D2 & D3 & D4).
    destruct (cleanup_room e A HA HG _ _ i _ b1 rest elem fn a0 m2 ok HI1 Hi1 eq_refl H1) as [F2 N2].
    destruct (waste8 A HA _ _ i _ b1 rest HI1 Hi1 eq_refl) as (W & _). unfold fits in F2, N2. rewrite W, D3, D4 in F2, N2.
    split; [split|].
    + intros K. destruct (F2 ltac:(lia)) as (-> & E2 & b2 & -> & G1 & G2 & G3 & G4). bk H. inv H. split.
      * eapply hand_out_nothing; eauto. cbn. apply nothing_cons; [|discriminate]. apply hook_nothing. rewrite E2. apply nothing_refl.
      * exists b2. split; [reflexivity|]. repeat split; try congruence. lia.
    + intros K. apply (asks_ext i _ m2); auto. apply N2. lia.
    + intros K. destruct (F2 ltac:(lia)) as (-> & _). bk H. inv H. auto.
  - subst j. destruct body as [|]; [|destruct dtor; contradiction]. simpl in Hok. destruct Hok as [Hok _].
    bk HS. destruct x as [s1 p]. on_a H Hi. change kByteSize with 8 in *.
    destruct (allocateAligned_ok e A _ _ i a sz 8 HA HG HI Hi Hok (al8 e A HA HG)) as (a1' & m1' & p' & E' & HI1 & _ & _ & _ & Hres).
    rewrite H0 in E'. injection E' as EE1 EE2 EE3. subst a1' m1' p'. rename a0 into a1', m into m1', p into p'.
    destruct (allocate8 e A HA HG _ _ i a b rest sz a1' m1' p' HI Hi Eb Hok H0) as [F N].
    assert (Hi1 : nth_error (upd i (Some a1') (s_arenas s)) i = Some (Some a1')) by (eapply nth_error_upd_eq; eauto).
    destruct (Z.eqb_spec p' 0) as [->|NZ].
    { inv HS. exists a1'. split; [exact Hi1|]. simpl s_mem.
      assert (L : b_limit b - b_pos b < align_size sz).
      { destruct (Z_lt_le_dec (b_limit b - b_pos b) (align_size sz)) as [L|L]; auto. destruct (F L) as (_ & P & _). lia. }
      specialize (N L). assert (align_size sz <= need).
      { destruct dtor; simpl in HT; pose proof (rounded_align _ _ Hok HT); lia. }
      split; [split; intros K; [lia|auto]|intros K; lia]. }
    destruct Hres as [[]|(P0 & P1 & HR)]; [lia|].
    destruct (hand_out_ok A _ _ i p' sz HI1 HR) as (m3 & E3 & HI3 & _ & Hh3).
    simpl s_mem in HS. rewrite E3 in HS. cbn [bind] in HS.
    destruct dtor as [fn|].
    + simpl in HT. assert (Hne : need = align_size sz + 16) by (pose proof (rounded_align _ _ Hok HT); lia). clear HT. subst need.
      bk HS. destruct x as [s4 ok].
      assert (Hi1s : nth_error (s_arenas {| s_arenas := s_arenas (put s i a1' m1'); s_mem := m3 |}) i = Some (Some a1')) by exact Hi1.
      on_a H Hi1s.
      assert (Hi4 : nth_error (s_arenas (put {| s_arenas := s_arenas (put s i a1' m1'); s_mem := m3 |} i a0 m)) i = Some (Some a0)).
      { simpl. eapply nth_error_upd_eq; eauto. }
      assert (X3 : ext m3 m).
      { simpl in H1. unfold Own in H1. bk H1. destruct x as [[a2 m2] k]. pose proof (addCleanup_ext _ _ _ _ _ _ _ _ _ H) as X.
        destruct k; inv H1; auto. apply ext_emit; [auto|exact I]. }
      assert (R : exists m5, s' = {| s_arenas := s_arenas (put {| s_arenas := s_arenas (put s i a1' m1'); s_mem := m3 |} i a0 m); s_mem := m5 |} /\
                ext m m5 /\ (ok = 1 -> r = p' /\ forall h, asks_nothing h (m_hist m) -> asks_nothing h (m_hist m5))).
      { destruct (Z.eqb_spec ok 0) as [->|NO].
        - inv HS. exists m. split; [reflexivity|]. split; [apply ext_refl|]. intros; lia.
        - bk HS. inv HS. eexists. split; [reflexivity|].
          split; [apply hook_alloc_ext|]. intros _. split; [auto|]. intros h Q. now apply hook_nothing. }
      destruct R as (m5 & -> & X5 & R). exists a0. split; [exact Hi4|]. simpl s_mem.
      destruct (Z_lt_le_dec (b_limit b - b_pos b) (align_size sz)) as [L|L].
      { specialize (N L). split; [split; intros K; [lia|]|intros K; lia]. apply (asks_ext i _ m); auto. apply (asks_ext i _ m3); auto.
        apply (asks_ext i _ m1'); auto. eapply hand_out_ext; eauto. }
      destruct (F L) as (-> & _ & b1 & -> & D1 & D2 & D3 & D4). simpl in H1, Hi1.
      destruct (own_room e A HA HG _ _ i _ b1 rest p' fn a0 m ok HI3 Hi1 eq_refl H1) as [[F2 N2] F3].
      rewrite D3, D4 in F2, N2, F3. split; [split|].
      * intros K. destruct (F2 ltac:(lia)) as ((evs & Ev & Q) & b2 & -> & G1 & G2 & G3). destruct (R (F3 ltac:(lia))) as [_ R2]. split.
        -- apply R2. exists (evs ++ [CRange i p' sz]). split; [rewrite Ev, Hh3, <- app_assoc; reflexivity|].
           intros j n res Hin. apply in_app_or in Hin as [Hin|[Hin|[]]]; [eapply Q; eauto|discriminate].
        -- exists b2. split; [reflexivity|]. repeat split; try congruence. lia.
      * intros K. apply (asks_ext i _ m); auto. apply (ext_asks i (s_mem s) m3); [eapply hand_out_ext; eauto|]. apply N2. lia.
      * intros K. destruct (R (F3 ltac:(lia))) as [-> _]. auto.
    + cbn [bind] in HS. simpl in HS. unfold get_arena in HS. simpl in HS. rewrite Hi1 in HS. cbn [bind] in HS. inv HS.
      exists a1'. split; [exact Hi1|]. simpl s_mem. simpl in HT. eapply simple_room; eauto.
      * eapply ext_trans; [eapply hand_out_ext; eauto|apply hook_alloc_ext].
      * intros _ h Q. apply hook_nothing. eapply hand_out_nothing; eauto.
  - subst j. destruct Hok as (K1 & K2 & K3). on_a HS Hi. exists a0. split; [eapply nth_error_upd_eq; eauto|].
    unfold CreateArray in H. destruct (Z.eqb_spec sz 0); [lia|].
    destruct (Z.ltb_spec ((M64 - 1) / sz) num) as [L|L].
    { exfalso. assert (num <= (M64 - 1) / sz); [|lia]. apply Z.div_le_lower_bound; auto. unfold max_request, M64 in *. lia. }
    cbv zeta in H. rewrite mul64_small in H by (unfold M64, max_request in *; nia). bk H. destruct x as [[a1 m1] p].
    destruct (Z.eqb_spec p 0) as [->|NZ].
    + inv H. eapply simple_room; eauto; [nia|apply ext_refl].
    + bk H. inv H. eapply simple_room; eauto; [nia| |].
      * eapply ext_trans; [eapply hand_out_ext; eauto|apply hook_alloc_ext].
      * intros _ h Q. apply hook_nothing. eapply hand_out_nothing; eauto.
  - subst j. simpl in HT. subst need. on_a HS Hi. exists a0. split; [eapply nth_error_upd_eq; eauto|].
    destruct (own_room e A HA HG _ _ i a b rest obj fn a0 m r HI Hi Eb H) as [H1 H2]. split; auto. intros K. rewrite H2 by auto. lia.
  - destruct HSv as (a0 & Hi0 & Hj). rewrite (get_arena_ok _ _ _ Hi0) in HS. cbn [bind] in HS. rewrite Hj in HS.
    on_a HS Hi. exists a1. split; [eapply nth_error_upd_eq; eauto|]. destruct HT as [Hal HT].
    unfold resource_allocate in H. change kByteSize with 8 in H. rewrite Z.max_l in H by exact Hal. bk H. destruct x as [[a2 m2] p].
    destruct (Z.eqb_spec p 0) as [->|NZ].
    + inv H. eapply simple_room; eauto; [apply Hok|apply ext_refl].
    + bk H. inv H. eapply simple_room; eauto; [apply Hok| |].
      * eapply hand_out_ext; eauto.
      * intros _ h N. eapply hand_out_nothing; eauto.
Qed.

Lemma held_blocks l m i a : Inv A l m -> nth_error l i = Some (Some a) -> held (m_hist m) i = map bspan (a_blocks a).
Proof. intros HI Hi. destruct (I_arena _ _ _ HI i a Hi) as (nss & []). auto. Qed.

(** A request with a larger alignment. *)
Lemma aligned_room s i a b rest bytes al s' r :
  Inv A (s_arenas s) (s_mem s) -> nth_error (s_arenas s) i = Some (Some a) -> a_blocks a = b :: rest ->
  0 <= bytes <= max_request -> alignment_ok A al -> step e s (SOp i (OAllocate bytes al)) = Ok (s', r) ->
  (bytes + al - 8 <= b_limit b - b_pos b -> r <> 0 /\ asks_nothing (m_hist (s_mem s)) (m_hist (s_mem s'))) /\
  (b_limit b - b_pos b < bytes -> asks i (m_hist (s_mem s)) (m_hist (s_mem s'))).
Proof.
  intros HI Hi Eb Hb Hal HS. destruct (waste8 A HA _ _ i a b rest HI Hi Eb) as (W & R8 & R0). simpl in HS. on_a HS Hi.
  unfold AllocateAligned in H. bk H. destruct x as [[a1 m1] p].
  destruct (allocate_room e A HA _ _ i a b rest bytes al a1 m1 p HI Hi Eb Hb Hal H0) as [F N].
  destruct (align_size_ok bytes Hb) as [Hs Hs8].
  destruct (I_arena _ _ _ HI i a Hi) as (nss & HAi).
  destruct (binv_of _ _ _ _ _ b HAi ltac:(rewrite Eb; simpl; auto)) as (ns & HB).
  pose proof (waste_bounds (b_addr b + b_pos b) al ltac:(destruct Hal as [[->|[->| ->]] _]; lia)) as Hw.
  assert (Hw8 : waste_of (b_addr b + b_pos b) al mod 8 = 0).
  { apply waste_mod8; [apply Hal|]. destruct HB. rewrite Z.add_mod, bi_pos8, (mod8_addr A (b_addr b)) by (auto; lia). reflexivity. }
  assert (Hwa : waste_of (b_addr b + b_pos b) al <= al - 8).
  { apply Z.mod_divide in Hw8; [|lia]. destruct Hw8 as (k & Ek). destruct Hal as [[->|[->| ->]] _]; lia. }
  unfold fits in F, N. split; intros K.
  - assert (L : b_pos b + waste_of (b_addr b + b_pos b) al + align_size bytes <= b_limit b).
    { assert (align_size bytes <= b_limit b - b_pos b - (al - 8)); [|lia].
      assert (E8 : (b_limit b - b_pos b - (al - 8)) mod 8 = 0).
      { rewrite Zminus_mod, R8. destruct Hal as [[->|[->| ->]] _]; reflexivity. }
      apply Z.mod_divide in E8; [|lia]. apply Z.mod_divide in Hs8; [|lia]. destruct E8 as (x & Ex), Hs8 as (y & Ey). lia. }
    destruct (F L) as (-> & P & _). destruct (Z.eqb_spec p 0); [lia|]. bk H. inv H. split; [auto|].
    eapply hand_out_nothing; eauto. apply hook_nothing, nothing_refl.
  - assert (asks i (m_hist (s_mem s)) (m_hist m1)) by (apply N; lia).
    destruct (Z.eqb_spec p 0); [inv H; auto|]. bk H. inv H. apply (asks_ext i _ m1); auto.
    eapply ext_trans; [apply hook_alloc_ext|eapply hand_out_ext; eauto].
Qed.

(** Where the remaining bytes are. *)
Lemma room_place s i a b rest : reach e A s -> nth_error (s_arenas s) i = Some (Some a) -> a_blocks a = b :: rest ->
  let q := b_addr b + b_pos b in let n := b_limit b - b_pos b in
  b_addr b + 32 <= q /\ q + n <= b_addr b + b_size b /\
  (forall x, b_addr b <= x < b_addr b + b_size b -> (check a x = BlockUnUsed <-> q <= x < q + n)) /\
  (forall j p k, In (j, p, k) (live_ranges (m_hist (s_mem s))) -> apart q n p k).
Proof.
  intros HR Hi Eb q n. pose proof (reach_inv e A HA HG s HR) as HI.
  destruct (I_arena _ _ _ HI i a Hi) as (nss & HAi).
  assert (Hb : In b (a_blocks a)) by (rewrite Eb; simpl; auto).
  destruct (binv_of _ _ _ _ _ b HAi Hb) as (ns & HB). pose proof HB as [].
  unfold q, n. split; [lia|]. split; [lia|]. split.
  - intros x Hx. destruct (P_check e A HA HG s i a x HR Hi ltac:(unfold word, M64; lia)) as (_ & _ & C & _).
    rewrite C. split.
    + intros (c & Hc & Hr). destruct (binv_of _ _ _ _ _ c HAi Hc) as (nsc & []).
      destruct (Inv_blocks_cases _ _ _ b c HI) as [<-|Hap];
        [eapply in_all_blocks; eauto|eapply in_all_blocks; eauto|lia|].
      unfold blk_apart, apart, bspan in Hap. simpl in Hap. lia.
    + intros Hr. exists b. split; auto. lia.
  - intros j p k Hin. destruct (I_rng _ _ _ HI j p k Hin) as (Hk & c & d & Hc & Hd & Hu).
    destruct (Inv_binv _ _ _ d HI (in_all_blocks _ _ _ _ Hc Hd)) as (nsd & []). unfold in_used in Hu.
    pose proof (in_all_blocks _ _ _ _ Hi Hb) as Hbl.
    pose proof (in_all_blocks _ _ _ _ Hc Hd) as Hdl.
    destruct (Inv_blocks_cases _ _ _ b d HI Hbl Hdl) as [<-|Hap]; [unfold apart; lia|].
    unfold blk_apart, apart, bspan in *. simpl in Hap. lia.
Qed.
End Room.
