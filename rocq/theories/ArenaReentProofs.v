(** Cleanup nodes of held blocks stay as they are under every operation. *)
Require Import ZArith List Bool Lia Permutation.
From Verif Require Import Base BaseProofs AlignModel BasicSpec BasicProofs ArenaSpec ArenaModel ArenaStatements
  ArenaProofs ArenaProofs2 ArenaProofs3 ArenaProofs4 ArenaProofs5 ArenaProofs6 ArenaProofs7.
Import ListNotations.
Open Scope Z_scope.

(** * How chains and nodes evolve *)
Definition chain_le (bs bs' : list block) : Prop :=
  match bs with
  | [] => True
  | b :: r => exists f b', bs' = f ++ b' :: r /\ b_addr b' = b_addr b /\ b_size b' = b_size b /\ b_limit b' <= b_limit b
  end.
Lemma chain_le_refl bs : chain_le bs bs.
Proof. destruct bs as [|b r]; simpl; auto. exists [], b. repeat split; auto. lia. Qed.
Lemma chain_le_trans b1 b2 b3 : chain_le b1 b2 -> chain_le b2 b3 -> chain_le b1 b3.
Proof.
  destruct b1 as [|b r]; simpl; auto. intros (f & b' & -> & E1 & E2 & L) H.
  destruct f as [|c f]; simpl in H; destruct H as (g & c' & -> & F1 & F2 & L2).
  - exists g, c'. repeat split; try congruence. lia.
  - exists (g ++ c' :: f), b'. rewrite <- app_assoc. repeat split; auto.
Qed.
Lemma chain_le_in bs bs' b : chain_le bs bs' -> In b bs ->
  exists b', In b' bs' /\ b_addr b' = b_addr b /\ b_size b' = b_size b /\ b_limit b' <= b_limit b.
Proof.
  destruct bs as [|c r]; simpl; [easy|]. intros (f & c' & -> & E1 & E2 & L) [<-|H].
  - exists c'. rewrite in_app_iff. simpl. auto.
  - exists b. rewrite in_app_iff. simpl. repeat split; auto. lia.
Qed.

Definition le_sys (l l' : list (option arena)) : Prop :=
  forall j a, nth_error l j = Some (Some a) ->
    exists a', nth_error l' j = Some (Some a') /\ chain_le (a_blocks a) (a_blocks a').
Lemma le_sys_refl l : le_sys l l.
Proof. intros j a H. exists a. split; auto. apply chain_le_refl. Qed.
Lemma le_sys_trans l1 l2 l3 : le_sys l1 l2 -> le_sys l2 l3 -> le_sys l1 l3.
Proof.
  intros H1 H2 j a Ha. destruct (H1 j a Ha) as (b & Hb & C1). destruct (H2 j b Hb) as (c & Hc & C2).
  exists c. split; auto. eapply chain_le_trans; eauto.
Qed.
Lemma le_sys_upd l i a a' : nth_error l i = Some (Some a) -> chain_le (a_blocks a) (a_blocks a') -> le_sys l (upd i (Some a') l).
Proof.
  intros Hi H j c Hj. destruct (Nat.eq_dec i j) as [<-|NE].
  - rewrite Hi in Hj. inv Hj. exists a'. split; auto. eapply nth_error_upd_eq; eauto.
  - exists c. rewrite nth_error_upd_ne by auto. split; auto. apply chain_le_refl.
Qed.
Lemma le_sys_upd2 l i a1 a2 : nth_error (upd i (Some a1) l) i = Some (Some a1) -> chain_le (a_blocks a1) (a_blocks a2) ->
  le_sys (upd i (Some a1) l) (upd i (Some a2) l).
Proof. intros H C. rewrite <- (upd_upd l i (Some a2) (Some a1)). eapply le_sys_upd; eauto. Qed.
Lemma all_blocks_in l b : In b (all_blocks l) -> exists j a, nth_error l j = Some (Some a) /\ In b (a_blocks a).
Proof.
  intros Hb. apply in_flat_map in Hb as ([a|] & Ha & Hb); [|easy].
  apply In_nth_error in Ha as (i & Hi). eauto.
Qed.

(** The node areas of the blocks of [l] hold the same in [m'] as in [m]. *)
Definition frozen (l : list (option arena)) (m m' : mem) : Prop :=
  forall b, In b (all_blocks l) -> forall q, b_addr b + b_limit b <= q -> q + 16 <= b_addr b + b_size b ->
    m_nodes m' q = m_nodes m q.
Lemma frozen_same l m m' : (forall q, m_nodes m' q = m_nodes m q) -> frozen l m m'.
Proof. intros H b _ q _ _. apply H. Qed.
Lemma frozen_refl l m : frozen l m m.
Proof. now apply frozen_same. Qed.
Lemma frozen_le l l' m m' : le_sys l l' -> frozen l' m m' -> frozen l m m'.
Proof.
  intros HL HF b Hb q Q1 Q2. apply all_blocks_in in Hb as (j & a & Hj & Hb).
  destruct (HL j a Hj) as (a' & Hj' & C). destruct (chain_le_in _ _ _ C Hb) as (b' & Hb' & E1 & E2 & L).
  apply (HF b'); [eapply in_all_blocks; eauto|lia|lia].
Qed.
Lemma frozen_trans l m1 m2 m3 : frozen l m1 m2 -> frozen l m2 m3 -> frozen l m1 m3.
Proof. intros H1 H2 b Hb q Q1 Q2. rewrite (H2 b Hb q Q1 Q2). now apply (H1 b). Qed.
Lemma frozen_scribble l m p n :
  (forall b, In b (all_blocks l) -> apart p n (b_addr b + b_limit b) (b_size b - b_limit b)) -> frozen l m (scribble m p n).
Proof.
  intros H b Hb q Q1 Q2. apply scribble_other. specialize (H b Hb). unfold apart in *. lia.
Qed.

Definition fz (l : list (option arena)) (m : mem) (l' : list (option arena)) (m' : mem) : Prop :=
  le_sys l l' /\ frozen l m m'.
Lemma fz_refl l m : fz l m l m.
Proof. split; [apply le_sys_refl|apply frozen_refl]. Qed.
Lemma fz_trans l1 m1 l2 m2 l3 m3 : fz l1 m1 l2 m2 -> fz l2 m2 l3 m3 -> fz l1 m1 l3 m3.
Proof.
  intros [L1 F1] [L2 F2]. split; [eapply le_sys_trans; eauto|].
  eapply frozen_trans; [exact F1|]. eapply frozen_le; eauto.
Qed.
Lemma fz_nodes l m m' : (forall q, m_nodes m' q = m_nodes m q) -> fz l m l m'.
Proof. intros H. split; [apply le_sys_refl|now apply frozen_same]. Qed.
Lemma fz_hook l i a m ty n : fz l m l (hook_alloc i a m ty n).
Proof. apply fz_nodes. intros q. unfold hook_alloc. destruct (o_on_alloc _); reflexivity. Qed.

Section S.
Variable e : env.
Variable A : Z.
Hypothesis HA : block_alignment A.
Hypothesis HG : good_block_alloc A (e_alloc e).

Lemma ensure_block_fz l m i a need al a' m' ok : Inv A l m -> nth_error l i = Some (Some a) ->
  ensure_block e i a m need al = Ok (a', m', ok) -> fz l m (upd i (Some a') l) m'.
Proof.
  intros HI Hi H. unfold ensure_block in H. bk H. destruct x; [|inv H; rewrite upd_same by auto; apply fz_refl].
  bk H. destruct x as [[a1 m1] ob]. unfold newBlock in H1. bk H1.
  set (m0 := if M64 - 1 - kBlockHeaderSize <? need then emit m ELog else m) in *.
  assert (E0 : (forall q, m_nodes m0 q = m_nodes m q) /\ live_blocks_list (m_hist m0) = live_blocks_list (m_hist m)).
  { unfold m0. destruct (_ <? _); split; auto. unfold live_blocks_list. simpl. destruct (live_blocks (m_hist m)); auto. }
  destruct E0 as [E0 E1].
  destruct (e_alloc e (m_hist m0) x) as [addr|] eqn:Ea.
  - inv H1. inv H. destruct (HG _ _ _ Ea) as (_ & _ & _ & G4). rewrite E1 in G4. split.
    + eapply le_sys_upd; [exact Hi|]. simpl. destruct (a_blocks a) as [|b r]; simpl; auto.
      exists [{| b_addr := addr; b_pos := kBlockHeaderSize; b_size := x; b_limit := x |}], b. repeat split; auto. lia.
    + assert (X : frozen l m (scribble m0 addr x)).
      { intros b Hb q Q1 Q2. rewrite <- E0. apply scribble_other.
        destruct (I_live _ _ _ HI) as (L & EL & P).
        assert (Hin : In (bspan b) (live_blocks_list (m_hist m))).
        { unfold live_blocks_list. rewrite EL. eapply Permutation_in; [symmetry; exact P|]. now apply in_map. }
        specialize (G4 _ _ Hin). destruct (Inv_binv _ _ _ b HI Hb) as (ns & []). unfold apart in *. lia. }
      intros b Hb q Q1 Q2. rewrite <- (X b Hb q Q1 Q2). destruct (o_on_newblock (a_opts a)); reflexivity.
  - inv H1. inv H. rewrite upd_same by auto. apply fz_nodes. intros q. apply E0.
Qed.

Lemma block_take_limit b n al b' p : block_take e b n al = Ok (b', p) ->
  b_addr b' = b_addr b /\ b_size b' = b_size b /\ b_limit b' = b_limit b.
Proof.
  unfold block_take. intros H. bk H. bk H. bk H. destruct x1 as [q w]. inv H. auto.
Qed.

Lemma allocateAligned_fz l m i a bytes al a' m' p : Inv A l m -> nth_error l i = Some (Some a) ->
  allocateAligned e i a m bytes al = Ok (a', m', p) -> fz l m (upd i (Some a') l) m'.
Proof.
  intros HI Hi H. unfold allocateAligned in H. bk H. destruct x as [[a1 m1] ok].
  pose proof (ensure_block_fz _ _ _ _ _ _ _ _ _ HI Hi H0) as F.
  destruct ok; [|inv H; auto]. destruct (a_blocks a1) as [|b r] eqn:Eb; [discriminate|].
  bk H. destruct x as [b' q]. bk H. inv H. apply block_take_limit in H1 as (E1 & E2 & E3).
  eapply fz_trans; [exact F|].
  assert (Hi1 : nth_error (upd i (Some a1) l) i = Some (Some a1)) by (eapply nth_error_upd_eq; eauto).
  split; [|apply frozen_refl]. apply le_sys_upd2; [exact Hi1|].
  rewrite Eb. exists [], b'. repeat split; auto. lia.
Qed.

Lemma hand_out_fz l m i p n m' : Inv A l m -> reserved l m i p n -> hand_out i m p n = Ok m' -> fz l m l m'.
Proof.
  intros HI HR H. split; [apply le_sys_refl|]. unfold hand_out in H. bk H. inv H. unfold touch in H0.
  destruct (accessible m p n); [|discriminate]. inv H0.
  assert (frozen l m (scribble m p n)); [|exact H].
  apply frozen_scribble. intros d Hd. destruct HR as (Hn & (a & b & Hi & Hb & Hu) & Hap).
  assert (Hb' : In b (all_blocks l)) by (eapply in_all_blocks; eauto).
  destruct (Inv_binv _ _ _ b HI Hb') as (nsb & HB). destruct (Inv_binv _ _ _ d HI Hd) as (nsd & HD).
  destruct (Inv_blocks_cases _ _ _ b d HI) as [<-|Hbd]; auto.
  - unfold in_used in Hu. destruct HB. unfold apart. lia.
  - unfold in_used in Hu. unfold blk_apart, apart, bspan in *. simpl in Hbd. destruct HB, HD. lia.
Qed.

Lemma addCleanup_fz l m i a obj fn a' m' ok : Inv A l m -> nth_error l i = Some (Some a) ->
  addCleanup e i a m obj fn = Ok (a', m', ok) -> fz l m (upd i (Some a') l) m'.
Proof.
  intros HI Hi H. unfold addCleanup in H. bk H. destruct x as [[a1 m1] k].
  pose proof (ensure_block_fz _ _ _ _ _ _ _ _ _ HI Hi H0) as F.
  assert (Hreq : req_ok 16) by (split; [lia|reflexivity]).
  destruct (ensure_block_ok e A l m i a 16 8 HA HG HI Hi Hreq ltac:(split; [auto|destruct HA as [->|[->| ->]]; lia]))
    as (a2 & m2 & ok2 & E & HI1 & Hr & Hp & Hc & Hin & Hok).
  rewrite kC16 in H0. change kByteSize with 8 in H0. rewrite E in H0. inv H0.
  destruct k; [|inv H; auto]. destruct Hok as (b & r & Eb & Hf). rewrite Eb in H.
  bk H. destruct x as [b' m3]. inv H.
  assert (Hi1 : nth_error (upd i (Some a1) l) i = Some (Some a1)) by (eapply nth_error_upd_eq; eauto).
  assert (Hf' : b_pos b + 16 <= b_limit b).
  { unfold fits in Hf. pose proof (waste_bounds (b_addr b + b_pos b) 8 ltac:(lia)). lia. }
  assert (Hbin : In b (all_blocks (upd i (Some a1) l))) by (eapply in_all_blocks; [exact Hi1|rewrite Eb; simpl; auto]).
  destruct (Inv_binv _ _ _ b HI1 Hbin) as (nsb & HB).
  eapply fz_trans; [exact F|]. clear F.
  unfold register_cleanup, alloc_cleanup in H0. bk H0. destruct x as [b1 p].
  destruct (negb (p mod 8 =? 0)); [discriminate|].
  bk H. bk H0. inv H0. inv H. unfold touch in H2. destruct (accessible _ _ _); [|discriminate]. inv H2.
  clear H1 x. unfold CleanupPos. cbn [b_addr b_limit]. rewrite kC16. pose proof HB as [B1 B2 B3 B4 B5 B6 B7 B8 B9].
  rewrite sub64_small by (unfold M64; lia). rewrite add64_small by (unfold M64; lia). split.
  - apply le_sys_upd2; [exact Hi1|]. rewrite Eb.
    eexists [], _. split; [reflexivity|]. simpl. repeat split; auto; lia.
  - intros d Hd q Q1 Q2. cbn [m_nodes set_node].
    destruct (Inv_binv _ _ _ d HI1 Hd) as (nsd & [D1 D2 D3 D4 D5 D6 D7 D8 D9]).
    assert (Hap : apart (b_addr b + (b_limit b - 16)) 16 q 16).
    { destruct (Inv_blocks_cases _ _ _ b d HI1) as [<-|Hbd]; auto; unfold apart.
      - left. lia.
      - unfold blk_apart, apart, bspan in Hbd. simpl in Hbd. lia. }
    destruct (Z.eqb_spec q (b_addr b + (b_limit b - 16))); [unfold apart in Hap; lia|].
    now apply scribble_other.
Qed.

Lemma AllocateAligned_fz l m i a bytes al a' m' p : Inv A l m -> nth_error l i = Some (Some a) ->
  0 <= bytes <= max_request -> alignment_ok A al ->
  AllocateAligned e i a m bytes al = Ok (a', m', p) -> fz l m (upd i (Some a') l) m'.
Proof.
  intros HI Hi Hb Hal H. unfold AllocateAligned in H. bk H. destruct x as [[a1 m1] q].
  pose proof (allocateAligned_fz _ _ _ _ _ _ _ _ _ HI Hi H0) as F.
  destruct (allocateAligned_ok e A l m i a bytes al HA HG HI Hi Hb Hal)
    as (a2 & m2 & q2 & E & HI1 & Hr & Hp & Hc & Hres).
  rewrite E in H0. inv H0. destruct (Z.eqb_spec q 0) as [Eq|NZ]; [inv H; auto|].
  bk H. inv H. destruct Hres as [[]|(P0 & P1 & HR)]; [lia|].
  eapply fz_trans; [exact F|]. eapply fz_trans; [apply (fz_hook _ i a' m1 0 bytes)|].
  eapply hand_out_fz; [apply hook_alloc_inv; exact HI1| |exact H0].
  eapply reserved_hist; [apply hook_alloc_ranges|exact HR].
Qed.

Lemma resource_allocate_fz l m i a bytes al a' m' p : Inv A l m -> nth_error l i = Some (Some a) ->
  0 <= bytes <= max_request -> (al = 1 \/ al = 2 \/ al = 4 \/ alignment_ok A al) ->
  resource_allocate e i a m bytes al = Ok (a', m', p) -> fz l m (upd i (Some a') l) m'.
Proof.
  intros HI Hi Hb Hal H. unfold resource_allocate in H. bk H. destruct x as [[a1 m1] q].
  pose proof (allocateAligned_fz _ _ _ _ _ _ _ _ _ HI Hi H0) as F.
  destruct (allocateAligned_ok e A l m i a bytes _ HA HG HI Hi Hb (max8_al e A HA HG al Hal))
    as (a2 & m2 & q2 & E & HI1 & Hr & Hp & Hc & Hres).
  rewrite E in H0. inv H0. destruct (Z.eqb_spec q 0) as [Eq|NZ]; [inv H; auto|].
  bk H. inv H. destruct Hres as [[]|(P0 & P1 & HR)]; [lia|].
  eapply fz_trans; [exact F|]. eapply hand_out_fz; [exact HI1|exact HR|exact H0].
Qed.

Lemma alg8 : alignment_ok A 8.
Proof. split; [auto|destruct HA as [->|[->| ->]]; lia]. Qed.

Lemma CreateArray_fz l m i a sz num ty a' m' p : Inv A l m -> nth_error l i = Some (Some a) ->
  0 < sz -> 0 <= num -> sz * num <= max_request ->
  CreateArray e i a m sz num ty = Ok (a', m', p) -> fz l m (upd i (Some a') l) m'.
Proof.
  intros HI Hi Hs Hn Hb H. unfold CreateArray in H. destruct (Z.eqb_spec sz 0); [lia|].
  destruct (Z.ltb_spec ((M64 - 1) / sz) num) as [L|L].
  { exfalso. assert (num <= (M64 - 1) / sz); [|lia]. apply Z.div_le_lower_bound; auto.
    unfold max_request, M64 in *. lia. }
  cbv zeta in H. rewrite mul64_small in H by (unfold M64, max_request in *; nia).
  bk H. destruct x as [[a1 m1] q].
  pose proof (allocateAligned_fz _ _ _ _ _ _ _ _ _ HI Hi H0) as F.
  destruct (allocateAligned_ok e A l m i a (sz * num) kByteSize HA HG HI Hi ltac:(nia) alg8)
    as (a2 & m2 & q2 & E & HI1 & Hr & Hp & Hc & Hres).
  rewrite E in H0. inv H0. destruct (Z.eqb_spec q 0) as [Eq|NZ]; [inv H; auto|].
  bk H. inv H. destruct Hres as [[]|(P0 & P1 & HR)]; [lia|]. rewrite (Z.mul_comm sz num) in HR.
  eapply fz_trans; [exact F|]. eapply fz_trans; [eapply hand_out_fz; [exact HI1|exact HR|exact H0]|].
  apply fz_hook.
Qed.

Lemma Own_fz l m i a obj fn a' m' r : Inv A l m -> nth_error l i = Some (Some a) ->
  Own e i a m obj fn = Ok (a', m', r) -> fz l m (upd i (Some a') l) m'.
Proof.
  intros HI Hi H. unfold Own in H. bk H. destruct x as [[a1 m1] ok].
  apply (addCleanup_fz _ _ _ _ _ _ _ _ _ HI Hi) in H0. destruct ok; inv H; auto.
Qed.

Lemma AllocateCleanup_fz l m i a bytes fn el a' m' p : Inv A l m -> nth_error l i = Some (Some a) ->
  0 <= bytes <= max_request ->
  AllocateAlignedAndAddCleanup e i a m bytes fn el = Ok (a', m', p) -> fz l m (upd i (Some a') l) m'.
Proof.
  intros HI Hi Hb H. unfold AllocateAlignedAndAddCleanup in H. bk H. destruct x as [[a1 m1] q].
  pose proof (allocateAligned_fz _ _ _ _ _ _ _ _ _ HI Hi H0) as F.
  destruct (allocateAligned_ok e A l m i a bytes kByteSize HA HG HI Hi Hb alg8)
    as (a2 & m2 & q2 & E & HI1 & Hr & Hp & Hc & Hres).
  rewrite E in H0. inv H0. destruct (Z.eqb_spec q 0) as [Eq|NZ]; [inv H; auto|].
  destruct Hres as [[]|(P0 & P1 & HR)]; [lia|]. bk H. destruct x as [[a3 m3] ok].
  assert (Hi1 : nth_error (upd i (Some a1) l) i = Some (Some a1)) by (eapply nth_error_upd_eq; eauto).
  pose proof (addCleanup_fz _ _ _ _ _ _ _ _ _ HI1 Hi1 H0) as F2.
  set (elem := if el =? 0 then q else el) in *.
  destruct (addCleanup_ok e A _ m1 i a1 elem fn HA HG HI1 Hi1) as (a4 & m4 & ok4 & E4 & Hr4 & Hp4 & Hc4 & HR4 & Hok).
  rewrite E4 in H0. inv H0. rewrite upd_upd in *.
  destruct ok; [|inv H; eapply fz_trans; eauto].
  cbv zeta in H. bk H. inv H.
  set (m5 := emit (hook_alloc i a' m3 0 bytes) (CRegister i elem fn)) in *.
  assert (HI3 : Inv A (upd i (Some a') l) m5).
  { eapply Inv_ext; [exact Hok|..]; unfold m5, hook_alloc; destruct (o_on_alloc _); try reflexivity;
      simpl; destruct (live_blocks (m_hist m3)); reflexivity. }
  assert (E3 : live_ranges (m_hist m5) = live_ranges (m_hist m3)) by apply hook_alloc_ranges.
  eapply fz_trans; [exact F|]. eapply fz_trans; [exact F2|].
  eapply fz_trans; [|eapply hand_out_fz; [exact HI3|exact (reserved_hist _ _ _ _ _ _ E3 (HR4 _ _ HR))|exact H0]].
  apply fz_nodes. intros x. unfold m5, hook_alloc. destruct (o_on_alloc _); reflexivity.
Qed.

Definition fzs (s s' : sys) : Prop := fz (s_arenas s) (s_mem s) (s_arenas s') (s_mem s').

Lemma on_arena_fz s i f s' r :
  (forall a a' m', nth_error (s_arenas s) i = Some (Some a) -> f a (s_mem s) = Ok (a', m', r) ->
     fz (s_arenas s) (s_mem s) (upd i (Some a') (s_arenas s)) m') ->
  on_arena s i f = Ok (s', r) -> fzs s s'.
Proof.
  intros HF H. unfold on_arena in H. bk H. bk H. destruct x0 as [[a' m'] r']. inv H.
  unfold get_arena in H0. destruct (nth_error (s_arenas s) i) as [[a|]|] eqn:E; try discriminate. inv H0.
  eapply HF; eauto.
Qed.

Lemma exec_fz : forall o i s s' r,
  Inv A (s_arenas s) (s_mem s) -> alive s i -> op_ok A o ->
  (uses_resource o = true -> resource_alive s i) ->
  exec e o i s = Ok (s', r) -> fzs s s'.
Proof.
  fix IH 1. intros o i s s' r HI Hal Hok Hres H. destruct o as [bytes al|bytes fn el|sz ty dtor body|sz num ty|obj fn|bytes al].
  - destruct Hok. eapply on_arena_fz; [|exact H]. intros a a' m' Ha E. eapply AllocateAligned_fz; [exact HI|exact Ha| | |exact E]; auto.
  - eapply on_arena_fz; [|exact H]. intros a a' m' Ha E. eapply AllocateCleanup_fz; [exact HI|exact Ha|exact Hok|exact E].
  - destruct Hok as [Hb Hbody]. destruct Hal as (a & Hi).
    cbn [exec] in H. bk H. destruct x as [s1 p].
    assert (F1 : fzs s s1).
    { eapply on_arena_fz; [|exact H0]. intros c c1 m4 Ha E. eapply allocateAligned_fz; [exact HI|exact Ha|exact E]. }
    destruct (allocateAligned_ok e A _ _ i a sz kByteSize HA HG HI Hi Hb alg8)
      as (a1 & m1 & p1 & E & HI1 & Hr & Hp & Hc & HR).
    destruct (on_arena_ok A s i a (fun a m => allocateAligned e i a m sz kByteSize) Hi) as (a2 & m2 & r2 & E' & E2 & HP).
    { exists a1, m1, p1. split; auto. split; auto. split; auto. eapply allocateAligned_ext; eauto. }
    rewrite E in E'. inv E'. rewrite E2 in H0. inv H0.
    destruct (Z.eqb_spec p 0) as [Eq|NZ]; [inv H; exact F1|].
    destruct HR as [[]|(P0 & P1 & HR)]; [lia|].
    bk H. simpl s_mem in H0.
    destruct (hand_out_ok A _ _ i p sz HI1 HR) as (m3 & E3 & HI3 & Hr3 & Hh3).
    assert (F2 : fz (upd i (Some a2) (s_arenas s)) m2 (upd i (Some a2) (s_arenas s)) x) by (eapply hand_out_fz; eauto).
    rewrite E3 in H0. inv H0. rename x into m3.
    simpl s_arenas in H. set (s2 := {| s_arenas := upd i (Some a2) (s_arenas s); s_mem := m3 |}) in *.
    assert (HP2 : op_post A s s2).
    { split; [exact HI3|]. split; [apply HP|]. eapply ext_trans; [apply HP|]. eapply hand_out_ext; eauto. }
    assert (F3 : fzs s s2) by (eapply fz_trans; [exact F1|exact F2]).
    assert (BODY : forall l s2 s3, Inv A (s_arenas s2) (s_mem s2) -> alive s2 i ->
       (fix all (l : list op) : Prop := match l with [] => True | x :: r => op_ok A x /\ all r end) l ->
       ((fix any (l : list op) : bool := match l with [] => false | x :: r => uses_resource x || any r end) l = true -> resource_alive s2 i) ->
       (fix go (l : list op) (s : sys) : res sys :=
                  match l with
                  | [] => Ok s
                  | x :: r => do (s', _) <- exec e x i s; go r s'
                  end) l s2 = Ok s3 -> fzs s2 s3 /\ op_post A s2 s3).
    { clear - IH HA HG. induction l as [|x l IHl]; intros s2 s3 HI2 Ha2 Hok2 Hres2 H.
      - inv H. split; [apply fz_refl|now apply op_post_refl].
      - destruct Hok2 as [Hx Hl]. bk H. destruct x0 as [s4 r4].
        assert (HU : uses_resource x = true -> resource_alive s2 i).
        { intros Hu. apply Hres2. rewrite Hu. reflexivity. }
        pose proof (IH x i s2 s4 r4 HI2 Ha2 Hx HU H0) as F4.
        destruct (exec_ok e A HA HG x i s2 HI2 Ha2 Hx HU) as (s5 & r5 & E5 & HP5 & _).
        rewrite E5 in H0. inv H0.
        destruct (IHl s4 s3) as (F5 & HP6); [apply HP5| | | |exact H|].
        + eapply frame_alive; [apply HP5|auto].
        + exact Hl.
        + intros Hu. eapply frame_resource; [apply HP5|]. apply Hres2. rewrite Hu. apply orb_true_r.
        + split; [eapply fz_trans; eauto|eapply op_post_trans; eauto]. }
    assert (Ha0 : alive s i) by (exists a; auto).
    bk H. destruct (BODY body s2 x) as (F4 & HP3); auto.
    { eapply frame_alive; [apply HP2|auto]. }
    { intros Hu. eapply frame_resource; [apply HP2|]. apply Hres. exact Hu. }
    clear BODY H0. rename x into s3.
    assert (HP03 : op_post A s s3) by (eapply op_post_trans; eauto).
    bk H. destruct x as [s4 ok].
    assert (F5 : fzs s3 s4).
    { destruct dtor as [fn|]; [|inv H0; apply fz_refl].
      eapply on_arena_fz; [|exact H0]. intros c a' m' Ha E6. eapply Own_fz; [apply HP03|exact Ha|exact E6]. }
    assert (F6 : fzs s s4) by (eapply fz_trans; [exact F3|]; eapply fz_trans; [exact F4|exact F5]).
    destruct (ok =? 0); [inv H; exact F6|]. bk H. inv H. eapply fz_trans; [exact F6|]. apply fz_hook.
  - destruct Hok as (H1 & H2 & H3). eapply on_arena_fz; [|exact H]. intros a a' m' Ha E. eapply CreateArray_fz; [| | | | |exact E]; eauto.
  - eapply on_arena_fz; [|exact H]. intros a a' m' Ha E. eapply Own_fz; [exact HI|exact Ha|exact E].
  - destruct Hok as [Hb Ha]. cbn [exec] in H. bk H. destruct (a_resource x) as [j|]; [|discriminate].
    eapply on_arena_fz; [|exact H]. intros a a' m' Hj E. eapply resource_allocate_fz; [exact HI|exact Hj|exact Hb|exact Ha|exact E].
Qed.
End S.
