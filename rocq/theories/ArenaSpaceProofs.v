Require Import ZArith List Bool Lia Permutation.
From Verif Require Import Base BaseProofs AlignModel BasicSpec BasicProofs ArenaSpec ArenaModel ArenaStatements
  ArenaSpaceStatements ArenaProofs ArenaProofs2 ArenaProofs3 ArenaProofs4 ArenaProofs5 ArenaProofs6.
Import ListNotations.
Open Scope Z_scope.

(** * Chains of blocks *)
Definition used (b : block) : Z := b_pos b + (b_size b - b_limit b).
Definition total_used (l : list block) : Z := fold_right (fun b s => used b + s) 0 l.

(** A newer block [b] above an older block [p]. *)
Definition linked (N : Z) (b p : block) : Prop :=
  (b_size b <= 4 * used b /\ N <= used b) \/ (b_size b = N /\ b_size p <= used p + used b).

Fixpoint chain (N : Z) (l : list block) : Prop :=
  match l with
  | b :: ((p :: _) as r) => linked N b p /\ chain N r
  | _ => True
  end.

Lemma total_used_eq l : total_used l = total_size l - total_unused l.
Proof. induction l; simpl; [reflexivity|]. rewrite IHl. unfold used, unused. lia. Qed.

Lemma chain_below N b p r o front :
  0 <= N -> chain N (b :: p :: r) -> Forall (fun c => 0 <= used c) (b :: p :: r) -> p :: r = front ++ [o] ->
  total_size (p :: r) <= b_size o + 5 * total_used (p :: r) + used b.
Proof.
  intros HN. revert b p front. induction r as [|q r IH]; intros b p front [L C] F E.
  - destruct front as [|? [|]]; inv E. unfold total_size, total_used; cbn [fold_right]. inversion F as [|? ? F1 F2]; subst.
    inversion F2 as [|? ? F3 F4]; subst. lia.
  - destruct front as [|f front]; [discriminate|]. simpl in E. inv E.
    inversion F as [|? ? F1 F2]; subst. pose proof C as [L2 C2].
    specialize (IH f q front C F2 H1). inversion F2 as [|? ? F3 F4]; subst.
    change (total_size (f :: q :: r)) with (b_size f + total_size (q :: r)).
    change (total_used (f :: q :: r)) with (used f + total_used (q :: r)).
    assert (0 <= total_used (q :: r)).
    { clear - F4. induction F4; simpl in *; lia. }
    unfold linked in *. lia.
Qed.

Lemma chain_bound N l o front :
  0 <= N -> chain N l -> Forall (fun c => 0 <= used c) l -> l = front ++ [o] ->
  total_size l <= b_size o + N + 5 * total_used l.
Proof.
  intros HN C F E. destruct l as [|b [|p r]].
  - destruct front; discriminate.
  - destruct front as [|? [|]]; inv E. inv F. unfold total_size, total_used; cbn [fold_right]. lia.
  - destruct front as [|f front]; inv E.
    pose proof (chain_below N f p r o front HN C F H1) as B.
    destruct C as [L _]. inv F. inv H3.
    change (total_size (f :: p :: r)) with (b_size f + total_size (p :: r)).
    change (total_used (f :: p :: r)) with (used f + total_used (p :: r)).
    unfold linked in L. lia.
Qed.

Lemma chain_grow N b b' r : chain N (b :: r) -> b_size b' = b_size b -> used b <= used b' -> chain N (b' :: r).
Proof.
  intros C S U. destruct r as [|p r]; [exact I|]. destruct C as [L C]. split; auto.
  unfold linked in *. rewrite S. lia.
Qed.

(** * One request *)
Section Ops.
Variable e : env.
Variable A : Z.
Hypothesis HA : block_alignment A.
Hypothesis HG : good_block_alloc A (e_alloc e).

(** Room is made by leaving the chain alone, or by opening a block that is
    large because the request is, or a normal one on top of a full block. *)
Lemma ensure_space l m i a need al a' m' :
  Inv A l m -> nth_error l i = Some (Some a) -> req_ok need -> alignment_ok A al ->
  ensure_block e i a m need al = Ok (a', m', true) ->
  (a' = a /\ m_hist m' = m_hist m) \/
  (exists b, a_blocks a' = b :: a_blocks a /\ a_opts a' = a_opts a /\ b_pos b = 32 /\ b_limit b = b_size b /\
     (b_addr b + 32) mod al = 0 /\
     forall p r, a_blocks a = p :: r ->
       (b_size b <= 4 * (need + 32) /\ o_normal (a_opts a) <= need + 32) \/
       (b_size b = o_normal (a_opts a) /\ b_size p <= used p + need + 32)).
Proof.
  intros HI Hi Hreq Hal H. unfold ensure_block in H. bk H. destruct x.
  2:{ inv H. left. auto. }
  right. bk H. destruct x as [[a1 m1] ob]. unfold newBlock in H1. bk H1.
  pose proof Hreq as [Hn Hn8].
  rewrite kH32 in *. destruct (Z.ltb_spec (M64 - 1 - 32) need); [unfold M64 in *; lia|].
  destruct (I_arena _ _ _ HI i a Hi) as (nss & HAi).
  destruct (e_alloc e (m_hist m) x) as [addr|] eqn:Ea; [|inv H1; discriminate].
  inv H1. inv H. eexists. cbn [set_blocks a_blocks a_opts]. split; [reflexivity|].
  split; [reflexivity|]. cbn [b_pos b_limit b_size b_addr]. split; [reflexivity|]. split; [reflexivity|].
  destruct (HG _ _ _ Ea) as (G1 & G2 & G3 & G4).
  split; [eapply align_addr; eauto|].
  intros p r Eb. unfold need_create_new_block in H0. rewrite Eb in *.
  pose proof HAi as [O1 O2 O3 O4 O5]. rewrite Eb in O2. inversion O2 as [|? ns ? nss' HB HR]; subst.
  destruct (has_enough_space_ok e A (m_nodes m) p ns need al HB (proj1 Hal) ltac:(lia)) as (ok & E & Er).
  rewrite E in H0. cbn [bind] in H0. inv H0. destruct ok; [discriminate|].
  assert (NF : ~ fits p need al) by (intros F; apply Er in F; discriminate).
  pose proof (new_block_size_policy _ _ _ _ O1 Hreq H2) as (_ & Q1 & Q2 & Q3 & Q4).
  destruct O1 as (((N0 & N1) & N2 & N3) & ((H0' & H1') & H2') & _).
  pose proof (waste_bounds (b_addr p + b_pos p) al ltac:(destruct Hal as [[->|[->| ->]] _]; lia)) as W.
  pose proof (Z.mul_div_le (o_huge (a_opts a)) 4 ltac:(lia)) as Hm4.
  pose proof (Z.mul_succ_div_gt (o_huge (a_opts a)) 4 ltac:(lia)) as Hm5.
  destruct (Z_le_gt_dec (need + 32) (o_normal (a_opts a))) as [L1|L1].
  - right. split; [apply Q1; auto|]. unfold fits in NF. unfold used. destruct Hal as [Hal _]. lia.
  - left. split; [|lia].
    destruct (Z_le_gt_dec (need + 32) (o_huge (a_opts a) / 4)) as [L2|L2].
    + destruct (Q2 eq_refl ltac:(lia)) as (r0 & (R1 & R2 & R3) & ->).
      assert (K : r0 <= need + o_normal (a_opts a) - 1).
      { pose proof (Z.div_mod (need + o_normal (a_opts a) - 1) (o_normal (a_opts a)) ltac:(lia)) as D.
        pose proof (Z.mod_pos_bound (need + o_normal (a_opts a) - 1) (o_normal (a_opts a)) ltac:(lia)) as M.
        set (q := (need + o_normal (a_opts a) - 1) / o_normal (a_opts a)) in *.
        assert (r0 <= q * o_normal (a_opts a)) by (apply R3; [apply Z_mod_mult|lia]). lia. }
      lia.
    + destruct (Z_le_gt_dec (need + 32) (o_huge (a_opts a))) as [L3|L3].
      * rewrite (Q3 eq_refl ltac:(lia) ltac:(lia)). lia.
      * rewrite (Q4 eq_refl ltac:(lia) ltac:(lia)). lia.
Qed.

Lemma req_of bytes : 0 <= bytes <= max_request -> req_ok (align_size bytes).
Proof.
  intros Hb. destruct (align_size_ok bytes Hb) as [Hs Hs8]. split; auto. split; [lia|]. unfold max_request in *.
  assert (align_size bytes <= 2 ^ 62); [|lia].
  destruct (Z_le_gt_dec (align_size bytes) (2 ^ 62)); auto. exfalso.
  change (2^62) with 4611686018427387904 in *.
  apply Z.mod_divide in Hs8; [|lia]. destruct Hs8 as (k & Hk). lia.
Qed.

Lemma allocateAligned_space l m i a bytes al a' m' p :
  Inv A l m -> nth_error l i = Some (Some a) -> 0 <= bytes <= max_request -> alignment_ok A al ->
  allocateAligned e i a m bytes al = Ok (a', m', p) ->
  chain (o_normal (a_opts a)) (a_blocks a) ->
  chain (o_normal (a_opts a)) (a_blocks a') /\
  (p <> 0 -> total_used (a_blocks a') <= total_used (a_blocks a) + bytes + 39).
Proof.
  intros HI Hi Hb Hal H C. destruct (align_size_ok bytes Hb) as [Hs Hs8]. pose proof (req_of bytes Hb) as Hreq.
  unfold allocateAligned in H.
  destruct (ensure_block_ok e A l m i a (align_size bytes) al HA HG HI Hi Hreq Hal)
    as (a1 & m1 & ok & E & HI1 & Hr & Hp & Hc & Hin & Hok).
  rewrite E in H. cbn [bind] in H. destruct ok.
  2:{ inv H. destruct Hok as (-> & _). split; [auto|congruence]. }
  destruct Hok as (b & rest & Eb & Hf). rewrite Eb in H.
  assert (Hi1 : nth_error (upd i (Some a1) l) i = Some (Some a1)) by (eapply nth_error_upd_eq; eauto).
  destruct (take_ok e A _ m1 i a1 b rest _ al HA HI1 Hi1 Eb Hf Hreq Hal)
    as (b' & q & E2 & P1 & P2 & P3 & P4 & P5 & P6 & P7 & HI2 & HR).
  rewrite E2 in H. cbn [bind] in H. bk H. inv H. cbn [set_blocks a_blocks].
  assert (Hal0 : 0 < al) by (destruct Hal as [[->|[->| ->]] _]; lia).
  pose proof (waste_bounds (b_addr b + b_pos b) al Hal0) as W.
  set (w := waste_of (b_addr b + b_pos b) al) in *.
  assert (U : used b' = used b + w + align_size bytes) by (unfold used; rewrite P4, P5, P6; lia).
  destruct (ensure_space l m i a _ al a1 m' HI Hi Hreq Hal E) as [[-> _]|(c & Ec & Eo & C1 & C2 & C3 & C4)].
  - rewrite Eb in *. split; [eapply chain_grow; eauto; lia|]. intros _. unfold total_used; cbn [fold_right]. destruct Hal as [Hal _]. lia.
  - rewrite Eb in Ec. inv Ec.
    assert (W0 : w = 0) by (unfold w; rewrite C1; apply waste_zero; auto).
    assert (Uc : used c = 32) by (unfold used; lia).
    split.
    + destruct (a_blocks a) as [|p0 r0]; [exact I|]. split; auto.
      destruct (C4 _ _ eq_refl) as [C5|C5]; [left|right]; rewrite P6; lia.
    + intros _. unfold total_used; cbn [fold_right]. lia.
Qed.

Lemma addCleanup_space l m i a obj fn a' m' ok :
  Inv A l m -> nth_error l i = Some (Some a) ->
  addCleanup e i a m obj fn = Ok (a', m', ok) ->
  chain (o_normal (a_opts a)) (a_blocks a) ->
  chain (o_normal (a_opts a)) (a_blocks a') /\
  (ok = true -> total_used (a_blocks a') <= total_used (a_blocks a) + 48).
Proof.
  intros HI Hi H C. unfold addCleanup in H. rewrite kC16 in H. change kByteSize with 8 in H.
  assert (Hreq : req_ok 16) by (split; [lia|reflexivity]).
  pose proof (al8 e A HA HG) as Hal.
  destruct (ensure_block_ok e A l m i a 16 8 HA HG HI Hi Hreq Hal)
    as (a1 & m1 & ok1 & E & HI1 & Hr & Hp & Hc & Hin & Hok).
  rewrite E in H. cbn [bind] in H. destruct ok1.
  2:{ inv H. destruct Hok as (-> & _). split; [auto|congruence]. }
  destruct Hok as (b & rest & Eb & Hf). rewrite Eb in H. bk H. destruct x as [b' m2]. inv H.
  cbn [set_blocks a_blocks].
  assert (Hi1 : nth_error (upd i (Some a1) l) i = Some (Some a1)) by (eapply nth_error_upd_eq; eauto).
  destruct (I_arena _ _ _ HI1 i a1 Hi1) as (nss & HAi).
  pose proof HAi as [O1 O2 O3 O4 O5]. rewrite Eb in O2. inversion O2 as [|? ns ? nss' HB HR]; subst.
  pose proof (waste_bounds (b_addr b + b_pos b) 8 ltac:(lia)) as W. unfold fits in Hf. destruct HB.
  assert (U : b_size b' = b_size b /\ used b' = used b + 16).
  { unfold register_cleanup, alloc_cleanup in H0. bk H0. destruct x as [b1 q]. bk H.
    inv H. destruct (negb _); [discriminate|]. bk H0. inv H0. cbn. split; auto. unfold used. cbn.
    change kCleanupNodeSize with 16. rewrite sub64_small by (unfold M64; lia). lia. }
  destruct U as [U1 U2].
  destruct (ensure_space l m i a _ 8 a1 m1 HI Hi Hreq Hal E) as [[-> _]|(c & Ec & Eo & C1 & C2 & C3 & C4)].
  - rewrite Eb in *. split; [eapply chain_grow; eauto; lia|]. intros _. unfold total_used; cbn [fold_right]. lia.
  - rewrite Eb in Ec. inv Ec.
    assert (Uc : used c = 32) by (unfold used; lia).
    split.
    + destruct (a_blocks a) as [|p0 r0]; [exact I|]. split; auto.
      destruct (C4 _ _ eq_refl) as [C5|C5]; [left|right]; lia.
    + intros _. unfold total_used; cbn [fold_right]. lia.
Qed.
End Ops.
