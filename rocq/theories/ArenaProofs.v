Require Import ZArith List Bool Lia Permutation.
From Verif Require Import Base BaseProofs AlignModel BasicSpec BasicProofs ArenaSpec ArenaModel ArenaStatements.
Import ListNotations.
Open Scope Z_scope.

Ltac inv H := inversion H; subst; clear H.

(** * Lists *)
Lemma nth_error_upd_eq {T} (l : list T) i x y :
  nth_error l i = Some y -> nth_error (upd i x l) i = Some x.
Proof. revert i; induction l; intros [|i]; simpl; try discriminate; auto. Qed.
Lemma nth_error_upd_ne {T} (l : list T) i j x :
  i <> j -> nth_error (upd i x l) j = nth_error l j.
Proof. revert i j; induction l; intros [|i] [|j] H; simpl; auto; congruence. Qed.
Lemma upd_upd {T} (l : list T) i x y : upd i x (upd i y l) = upd i x l.
Proof. revert i; induction l; intros [|i]; simpl; auto. now rewrite IHl. Qed.
Lemma upd_same {T} (l : list T) i x : nth_error l i = Some x -> upd i x l = l.
Proof. revert i; induction l; intros [|i] H; simpl in *; try congruence. now rewrite IHl. Qed.
Lemma length_upd {T} (l : list T) i x : length (upd i x l) = length l.
Proof. revert i; induction l; intros [|i]; simpl; auto. Qed.
Lemma upd_split {T} (l : list T) i y :
  nth_error l i = Some y ->
  exists l1 l2, l = l1 ++ y :: l2 /\ forall x, upd i x l = l1 ++ x :: l2.
Proof.
  revert i; induction l; intros [|i] H; simpl in *; try discriminate.
  - inv H. exists [], l; auto.
  - destruct (IHl i H) as (l1 & l2 & -> & E). exists (a :: l1), l2. split; auto.
    intros z. simpl. now rewrite E.
Qed.

(** * Invariant *)
Definition blocks_of (oa : option arena) : list block :=
  match oa with Some a => a_blocks a | None => [] end.
Definition bspan (b : block) : Z * Z := (b_addr b, b_size b).
Definition all_blocks (l : list (option arena)) : list block := flat_map blocks_of l.

Definition nodes_at (f : Z -> option node) (base : Z) (ns : list node) : Prop :=
  forall k x, nth_error ns k = Some x -> f (base + 16 * Z.of_nat k) = Some x.

Record binv (A : Z) (f : Z -> option node) (b : block) (ns : list node) : Prop := {
  bi_addr : 0 < b_addr b;
  bi_al : b_addr b mod A = 0;
  bi_end : b_addr b + b_size b <= 2 ^ 63;
  bi_pos : 32 <= b_pos b <= b_limit b;
  bi_lim : b_limit b <= b_size b;
  bi_pos8 : b_pos b mod 8 = 0;
  bi_lim8 : b_limit b mod 8 = 0;
  bi_len : b_size b - b_limit b = 16 * Z.of_nat (length ns);
  bi_nodes : nodes_at f (b_addr b + b_limit b) ns }.

Definition total_size (l : list block) : Z := fold_right (fun b s => b_size b + s) 0 l.
Definition node_pair (x : node) : Z * Z := (n_elem x, n_fn x).

Record ainv (A : Z) (m : mem) (i : nat) (a : arena) (nss : list (list node)) : Prop := {
  ai_opts : good_options (a_opts a);
  ai_blocks : Forall2 (binv A (m_nodes m)) (a_blocks a) nss;
  ai_pend : pending (m_hist m) i = map node_pair (concat nss);
  ai_space : a_space a = total_size (a_blocks a);
  ai_held : held (m_hist m) i = map bspan (a_blocks a) }.

Definition rng_apart (x y : nat * Z * Z) : Prop :=
  apart (snd (fst x)) (snd x) (snd (fst y)) (snd y).
Definition blk_apart (x y : Z * Z) : Prop := apart (fst x) (snd x) (fst y) (snd y).

Definition in_used (b : block) (p n : Z) : Prop :=
  b_addr b + 32 <= p /\ p + n <= b_addr b + b_pos b.

Record Inv (A : Z) (l : list (option arena)) (m : mem) : Prop := {
  I_live : exists L, live_blocks (m_hist m) = Some L /\ Permutation L (map bspan (all_blocks l));
  I_apart : pairwise blk_apart (live_blocks_list (m_hist m));
  I_arena : forall i a, nth_error l i = Some (Some a) -> exists nss, ainv A m i a nss;
  I_dead : forall i, (forall a, nth_error l i <> Some (Some a)) -> pending (m_hist m) i = [] /\ held (m_hist m) i = [];
  I_rng : forall i p n, In (i, p, n) (live_ranges (m_hist m)) ->
      0 <= n /\ exists a b, nth_error l i = Some (Some a) /\ In b (a_blocks a) /\ in_used b p n;
  I_rapart : pairwise rng_apart (live_ranges (m_hist m)) }.

(** * pairwise helpers *)
Lemma apart_sym p n q k : apart p n q k -> apart q k p n.
Proof. unfold apart; tauto. Qed.

Lemma pairwise_cons {T} (R : T -> T -> Prop) x l :
  pairwise R (x :: l) <-> Forall (R x) l /\ pairwise R l.
Proof. split; [intros H; inv H; auto | intros []; constructor; auto]. Qed.

Lemma pairwise_app {T} (R : T -> T -> Prop) l1 l2 :
  pairwise R (l1 ++ l2) <-> pairwise R l1 /\ pairwise R l2 /\ (forall x y, In x l1 -> In y l2 -> R x y).
Proof.
  induction l1; simpl.
  - split; [intros H; repeat split; auto; [constructor|easy] | tauto].
  - rewrite !pairwise_cons, IHl1, Forall_app, !Forall_forall. split.
    + intros ((F1 & F2) & P1 & P2 & P3). repeat split; auto.
      intros x y [->|Hx] Hy; auto.
    + intros ((F1 & P1) & P2 & P3). repeat split; auto.
Qed.

Lemma pairwise_perm {T} (R : T -> T -> Prop) l1 l2 :
  (forall x y, R x y -> R y x) -> Permutation l1 l2 -> pairwise R l1 -> pairwise R l2.
Proof.
  intros S P. induction P; auto.
  - rewrite !pairwise_cons. intros [F ?]; split; auto. eapply Permutation_Forall; eauto.
  - rewrite !pairwise_cons. intros (F1 & F2 & ?). inv F1. repeat split; auto.
Qed.

Lemma pairwise_filter {T} (R : T -> T -> Prop) f l : pairwise R l -> pairwise R (filter f l).
Proof.
  induction l; simpl; auto. rewrite pairwise_cons. intros [F P].
  destruct (f a); auto. rewrite pairwise_cons. split; auto.
  rewrite Forall_forall in *. intros x Hx. apply filter_In in Hx as []. auto.
Qed.

Lemma pairwise_map {T U} (R : T -> T -> Prop) (Q : U -> U -> Prop) (f : T -> U) l :
  (forall x y, R x y -> Q (f x) (f y)) -> pairwise R l -> pairwise Q (map f l).
Proof.
  intros H. induction l; simpl; [constructor|]. rewrite !pairwise_cons. intros [F P]. split; auto.
  rewrite Forall_forall in *. intros x Hx. apply in_map_iff in Hx as (y & <- & Hy). auto.
Qed.

Lemma pairwise_in {T} (R : T -> T -> Prop) l x y :
  (forall x y, R x y -> R y x) -> pairwise R l -> In x l -> In y l -> x = y \/ R x y.
Proof.
  intros S. induction l; simpl; [easy|]. rewrite pairwise_cons, Forall_forall.
  intros [F P] [->|Hx] [->|Hy]; auto.
Qed.

Lemma blk_apart_sym x y : blk_apart x y -> blk_apart y x.
Proof. apply apart_sym. Qed.
Lemma rng_apart_sym x y : rng_apart x y -> rng_apart y x.
Proof. apply apart_sym. Qed.

(** blocks of arenas are apart *)
Lemma Inv_blocks_apart A l m : Inv A l m -> pairwise (fun b c => blk_apart (bspan b) (bspan c)) (all_blocks l).
Proof.
  intros H. destruct (I_live _ _ _ H) as (L & E & P). pose proof (I_apart _ _ _ H) as Q.
  unfold live_blocks_list in Q. rewrite E in Q.
  assert (Q' : pairwise blk_apart (map bspan (all_blocks l)))
    by (eapply pairwise_perm; eauto; apply blk_apart_sym).
  clear - Q'. induction (all_blocks l); [constructor|].
  simpl in Q'. apply pairwise_cons in Q' as [F Q']. apply pairwise_cons. split; auto.
  rewrite Forall_forall in *. intros x Hx. apply F. now apply in_map.
Qed.

Lemma Inv_blocks_cases A l m b d :
  Inv A l m -> In b (all_blocks l) -> In d (all_blocks l) -> b = d \/ blk_apart (bspan b) (bspan d).
Proof.
  intros HI Hb Hd.
  apply (pairwise_in (fun b c => blk_apart (bspan b) (bspan c)) (all_blocks l)); auto.
  - intros x y. apply blk_apart_sym.
  - eapply Inv_blocks_apart; eauto.
Qed.

Lemma in_all_blocks l i a b :
  nth_error l i = Some (Some a) -> In b (a_blocks a) -> In b (all_blocks l).
Proof.
  intros H Hb. apply in_flat_map. exists (Some a). split; auto. eapply nth_error_In; eauto.
Qed.

Lemma binv_of A m i a nss b :
  ainv A m i a nss -> In b (a_blocks a) -> exists ns, binv A (m_nodes m) b ns.
Proof.
  intros H. destruct H as [_ F _ _ _]. induction F; simpl; [easy|].
  intros [->|Hb]; eauto.
Qed.

Lemma Inv_binv A l m b : Inv A l m -> In b (all_blocks l) -> exists ns, binv A (m_nodes m) b ns.
Proof.
  intros H Hb. apply in_flat_map in Hb as ([a|] & Ha & Hb); [|easy].
  apply In_nth_error in Ha as (i & Hi).
  destruct (I_arena _ _ _ H i a Hi) as (nss & HA). eapply binv_of; eauto.
Qed.

(** * Quiet events *)
Definition quiet (ev : event) : Prop :=
  match ev with
  | ELog | HInit _ _ | HReset _ _ _ _ | HAlloc _ _ _ _ | HNewBlock _ _ _ _ | HDestroy _ _ _ _
  | ECleanup _ _ | CNew _ | EBlockAlloc _ _ None => True
  | _ => False
  end.

Lemma quiet_facts ev h : quiet ev ->
  live_blocks (ev :: h) = live_blocks h /\ live_ranges (ev :: h) = live_ranges h /\
  (forall i, pending (ev :: h) i = pending h i) /\ (forall i, held (ev :: h) i = held h i).
Proof.
  destruct ev; simpl; intros Q; try contradiction.
  1: destruct r; [contradiction|].
  all: destruct (live_blocks h); auto.
Qed.

Lemma Inv_ext A l m m' :
  Inv A l m -> m_nodes m' = m_nodes m ->
  live_blocks (m_hist m') = live_blocks (m_hist m) ->
  live_ranges (m_hist m') = live_ranges (m_hist m) ->
  (forall i, pending (m_hist m') i = pending (m_hist m) i) ->
  (forall i, held (m_hist m') i = held (m_hist m) i) -> Inv A l m'.
Proof.
  intros [H1 H2 H3 H4 H5 H6] En E1 E2 E3 E4.
  constructor; unfold live_blocks_list in *; rewrite ?E1, ?E2; auto.
  - intros i a Hi. destruct (H3 i a Hi) as (nss & [P1 P2 P3 P4 P5]). exists nss. constructor; auto.
    + now rewrite En. + now rewrite E3. + now rewrite E4.
  - intros i Hi. rewrite E3, E4. auto.
Qed.

Lemma Inv_quiet A l m ev : quiet ev -> Inv A l m -> Inv A l (emit m ev).
Proof.
  intros Q H. destruct (quiet_facts ev (m_hist m) Q) as (E1 & E2 & E3 & E4).
  eapply Inv_ext; eauto.
Qed.

(** * Arithmetic of positions *)
Definition waste_of (ptr al : Z) : Z := (- ptr) mod al.

Lemma waste_bounds ptr al : 0 < al -> 0 <= waste_of ptr al < al.
Proof. intros. apply Z.mod_pos_bound; auto. Qed.

Lemma waste_aligned ptr al : 0 < al -> (ptr + waste_of ptr al) mod al = 0.
Proof.
  intros. unfold waste_of. rewrite Zplus_mod_idemp_r. replace (ptr + - ptr) with 0 by lia.
  apply Z.mod_0_l; lia.
Qed.

Lemma waste_zero ptr al : 0 < al -> ptr mod al = 0 -> waste_of ptr al = 0.
Proof. intros. unfold waste_of. apply Z_mod_zero_opp_full; auto. Qed.

Lemma waste_mod8 ptr al : (al = 8 \/ al = 16 \/ al = 32) -> ptr mod 8 = 0 -> waste_of ptr al mod 8 = 0.
Proof.
  intros Hal Hp. unfold waste_of.
  assert (D : (8 | al)) by (destruct Hal as [->|[->| ->]]; [exists 1|exists 2|exists 4]; reflexivity).
  rewrite <- Znumtheory.Zmod_div_mod; auto; try lia.
  apply Z_mod_zero_opp_full; auto.
Qed.

Lemma AlignPos_ok e ptr al :
  (al = 8 \/ al = 16 \/ al = 32) -> 0 <= ptr -> ptr + 32 < M64 ->
  AlignPos e ptr al = Ok (ptr + waste_of ptr al, waste_of ptr al).
Proof.
  intros Hal Hp Hm. unfold AlignPos, check_assert.
  assert (Hb : 8 <= al <= 32) by lia.
  unfold kByteSize, kInt256Size.
  destruct (Z.leb_spec 8 al); [|lia]. destruct (Z.leb_spec al 32); [|lia].
  simpl. rewrite andb_false_r. cbn [bind].
  destruct (Z.eqb_spec al 0); [lia|].
  pose proof (Z.mod_pos_bound ptr al ltac:(lia)) as R.
  assert (F : sub64 (mul64 al (b2z (negb (ptr mod al =? 0)))) (ptr mod al) = waste_of ptr al).
  { unfold waste_of. destruct (Z.eqb_spec (ptr mod al) 0) as [E|E]; simpl.
    - rewrite E. rewrite Z_mod_zero_opp_full by auto. unfold mul64. rewrite Z.mul_0_r. reflexivity.
    - rewrite Z_mod_nz_opp_full by auto. rewrite mul64_small by (unfold M64; lia).
      rewrite sub64_small by (unfold M64; lia). lia. }
  rewrite F. pose proof (waste_bounds ptr al ltac:(lia)).
  rewrite add64_small by lia. reflexivity.
Qed.

Lemma align_size_ok n : 0 <= n <= 2 ^ 62 ->
  n <= align_size n < n + 8 /\ align_size n mod 8 = 0.
Proof.
  intros H. unfold align_size, kByteSize.
  rewrite AlignUpTo_eq; [| exists 3; split; [lia|reflexivity] | split; unfold M64; lia | unfold M64; lia].
  split; [|apply Z_mod_mult].
  pose proof (Z.div_mod (n + 8 - 1) 8 ltac:(lia)). pose proof (Z.mod_pos_bound (n + 8 - 1) 8 ltac:(lia)). lia.
Qed.

Definition req_ok (need : Z) : Prop := 0 <= need <= 2 ^ 62 /\ need mod 8 = 0.

Lemma mod8_mul k b : b mod 8 = 0 -> (k * b) mod 8 = 0.
Proof. intros H. rewrite Z.mul_mod, H, Z.mul_0_r by lia. reflexivity. Qed.

Lemma new_block_size_ok o first need :
  good_options o -> req_ok need ->
  exists size, new_block_size o first need = Ok size /\ need + 32 <= size < M64 /\ size mod 8 = 0.
Proof.
  intros (((N0 & N1) & N2 & N3) & ((H0 & H1) & H2) & ((I0 & I1) & I2)) ((R0 & R1) & R2).
  unfold new_block_size. change kBlockHeaderSize with 32. change kThresholdHuge with 4.
  rewrite add64_small by (unfold M64; lia).
  assert (Q : (need + 32) mod 8 = 0) by (rewrite Z.add_mod, R2 by lia; reflexivity).
  assert (M : forall s, word s -> s mod 8 = 0 ->
     need + 32 <= Z.max s (need + 32) < M64 /\ Z.max s (need + 32) mod 8 = 0).
  { intros s [] ?. split; [unfold M64 in *; lia|]. destruct (Z.max_spec s (need + 32)) as [[? ->]|[? ->]]; auto. }
  destruct first; cbn [negb].
  - cbn [bind]. eexists; split; eauto. apply M; auto. split; auto.
  - destruct (Z.leb_spec (need + 32) (o_normal o)); cbn [bind].
    { eexists; split; eauto. apply M; auto. split; auto. }
    destruct (Z.leb_spec (need + 32) (o_huge o / 4)).
    + destruct (AlignUp_spec need (o_normal o)) as (s & E & (L1 & (k & ->) & L3)).
      { split; unfold M64; lia. } { split; auto. } { auto. }
      { exists ((need + o_normal o - 1) / o_normal o * o_normal o). split; [apply round_up_least; lia|].
        pose proof (Z.div_mod (need + o_normal o - 1) (o_normal o) ltac:(lia)).
        pose proof (Z.mod_pos_bound (need + o_normal o - 1) (o_normal o) ltac:(lia)).
        assert (o_huge o / 4 < 2 ^ 62) by (apply Z.div_lt_upper_bound; unfold M64 in *; lia).
        unfold M64; nia. }
      rewrite E. cbn [bind]. eexists; split; eauto. apply M; [split|].
      * lia.
      * assert (k * o_normal o <= (need + o_normal o - 1) / o_normal o * o_normal o).
        { apply L3; [|eauto].
          pose proof (Z.div_mod (need + o_normal o - 1) (o_normal o) ltac:(lia)).
          pose proof (Z.mod_pos_bound (need + o_normal o - 1) (o_normal o) ltac:(lia)). nia. }
        pose proof (Z.div_mod (need + o_normal o - 1) (o_normal o) ltac:(lia)).
        pose proof (Z.mod_pos_bound (need + o_normal o - 1) (o_normal o) ltac:(lia)).
        assert (o_huge o / 4 < 2 ^ 62) by (apply Z.div_lt_upper_bound; unfold M64 in *; lia).
        unfold M64; nia.
      * now apply mod8_mul.
    + destruct ((o_huge o / 4 <? need + 32) && (need + 32 <=? o_huge o)); cbn [bind];
        (eexists; split; [reflexivity|]; apply M; auto; split; auto; unfold M64; lia).
Qed.

(** * Changing memory *)
Lemma nodes_at_ext f g base ns :
  (forall k, (k < length ns)%nat -> g (base + 16 * Z.of_nat k) = f (base + 16 * Z.of_nat k)) ->
  nodes_at f base ns -> nodes_at g base ns.
Proof.
  intros H N k x Hk. rewrite H; auto. apply nth_error_Some. congruence.
Qed.

Lemma binv_ext A f g b ns :
  (forall q, b_addr b + b_limit b <= q -> q + 16 <= b_addr b + b_size b -> g q = f q) ->
  binv A f b ns -> binv A g b ns.
Proof.
  intros H [ ]. constructor; auto.
  eapply nodes_at_ext; [|eassumption]. intros k Hk. apply H; lia.
Qed.

Lemma kC16 : kCleanupNodeSize = 16. Proof. reflexivity. Qed.
Lemma kH32 : kBlockHeaderSize = 32. Proof. reflexivity. Qed.

Lemma scribble_other m p n q : apart p n q 16 -> m_nodes (scribble m p n) q = m_nodes m q.
Proof.
  unfold apart. simpl. rewrite kC16. intros H.
  destruct (Z.ltb_spec q (p + n)), (Z.ltb_spec p (q + 16)); simpl; auto; lia.
Qed.

Lemma Inv_scribble A l m p n :
  (forall b, In b (all_blocks l) -> apart p n (b_addr b + b_limit b) (b_size b - b_limit b)) ->
  Inv A l m -> Inv A l (scribble m p n).
Proof.
  intros Hap [H1 H2 H3 H4 H5 H6]. constructor; auto.
  intros i a Hi. destruct (H3 i a Hi) as (nss & [P1 P2 P3 P4 P5]). exists nss. constructor; auto.
  assert (Hin : forall b, In b (a_blocks a) -> In b (all_blocks l)) by (intros; eapply in_all_blocks; eauto).
  clear - P2 Hap Hin. induction P2; constructor.
  - eapply binv_ext; [|eassumption]. intros q Q1 Q2. apply scribble_other.
    specialize (Hap x (Hin x (or_introl eq_refl))). unfold apart in *. lia.
  - apply IHP2. intros; apply Hin; simpl; auto.
Qed.

(** Replacing an arena by one with the same spans and more used space. *)
Lemma Inv_replace A l m i a a' nss' :
  Inv A l m -> nth_error l i = Some (Some a) ->
  ainv A m i a' nss' ->
  map bspan (a_blocks a') = map bspan (a_blocks a) ->
  (forall b p n, In b (a_blocks a) -> in_used b p n -> exists b', In b' (a_blocks a') /\ in_used b' p n) ->
  Inv A (upd i (Some a') l) m.
Proof.
  intros [H1 H2 H3 H4 H5 H6] Hi HA Hsp Hu. constructor; auto.
  - destruct H1 as (L & E & P). exists L. split; auto.
    destruct (upd_split l i _ Hi) as (l1 & l2 & El & Eu). rewrite Eu.
    rewrite El in P. unfold all_blocks in *. rewrite flat_map_app in *. simpl in *.
    rewrite !map_app in *. now rewrite Hsp.
  - intros j b Hj. destruct (Nat.eq_dec i j) as [<-|NE].
    + erewrite nth_error_upd_eq in Hj by eauto. inv Hj. eauto.
    + rewrite nth_error_upd_ne in Hj by auto. eauto.
  - intros j Hj. apply H4. intros b Hb.
    destruct (Nat.eq_dec i j) as [<-|NE].
    + eapply Hj. eapply nth_error_upd_eq; eauto.
    + eapply Hj. rewrite nth_error_upd_ne by auto. eauto.
  - intros j p n Hr. destruct (H5 j p n Hr) as (? & c & b & Hc & Hb & Hu'). split; auto.
    destruct (Nat.eq_dec i j) as [<-|NE].
    + rewrite Hi in Hc. inv Hc. destruct (Hu b p n Hb Hu') as (b' & ? & ?).
      exists a', b'. split; [eapply nth_error_upd_eq; eauto|]. auto.
    + exists c, b. rewrite nth_error_upd_ne by auto. auto.
Qed.

(** Adding a fresh block to arena i. *)
Lemma Inv_add_block A l m i a addr size :
  Inv A l m -> nth_error l i = Some (Some a) ->
  0 < addr -> addr mod A = 0 -> addr + size <= 2 ^ 63 -> 32 <= size -> size mod 8 = 0 ->
  block_alignment A ->
  (forall b n, In (b, n) (live_blocks_list (m_hist m)) -> apart addr size b n) ->
  let m1 := scribble (emit m (EBlockAlloc i size (Some addr))) addr size in
  let a' := {| a_opts := a_opts a;
               a_blocks := {| b_addr := addr; b_pos := 32; b_size := size; b_limit := size |} :: a_blocks a;
               a_resource := a_resource a; a_cookie := a_cookie a; a_space := add64 (a_space a) size |} in
  a_space a + size < M64 ->
  Inv A (upd i (Some a') l) m1.
Proof.
  intros HI Hi Ha Hal Hend H32 H8 HAl Hap m1 a' Hsp.
  pose proof HI as [H1 H2 H3 H4 H5 H6].
  destruct H1 as (L & E & P).
  assert (EL : live_blocks_list (m_hist m) = L) by (unfold live_blocks_list; now rewrite E).
  rewrite EL in *.
  assert (Hother : forall b, In b (all_blocks l) -> apart addr size (b_addr b) (b_size b)).
  { intros b Hb. apply Hap. eapply Permutation_in; [symmetry; exact P|].
    change (b_addr b, b_size b) with (bspan b). now apply in_map. }
  assert (Hbi : forall b ns, In b (all_blocks l) -> binv A (m_nodes m) b ns -> binv A (m_nodes m1) b ns).
  { intros b ns Hb B. eapply binv_ext; [|exact B]. intros q Q1 Q2. unfold m1. rewrite scribble_other; [reflexivity|].
    specialize (Hother b Hb). destruct B. unfold apart in *. lia. }
  constructor.
  - exists ((addr, size) :: L). split; [simpl; now rewrite E|].
    destruct (upd_split l i _ Hi) as (l1 & l2 & El & Eu). rewrite Eu. rewrite El in P.
    unfold all_blocks in *. rewrite flat_map_app in *. simpl in *. rewrite !map_app in *. simpl.
    rewrite map_app in *. change (bspan _) with (addr, size).
    rewrite P. apply Permutation_middle.
  - unfold live_blocks_list. simpl. rewrite E. apply pairwise_cons. split; auto.
    rewrite Forall_forall. intros [b n] Hb. apply Hap; auto.
  - intros j b Hj. destruct (Nat.eq_dec i j) as [<-|NE].
    + erewrite nth_error_upd_eq in Hj by eauto. inv Hj.
      destruct (H3 i a Hi) as (nss & [P1 P2 P3 P4 P5]). exists ([] :: nss).
      constructor; auto.
      * constructor.
        -- constructor; simpl; try lia; auto.
           intros k x Hk. destruct k; discriminate.
        -- assert (Hin : forall b, In b (a_blocks a) -> In b (all_blocks l))
             by (intros; eapply in_all_blocks; eauto).
           clear - P2 Hin Hbi. induction P2; constructor; auto.
           apply Hbi; auto. apply Hin; simpl; auto. apply IHP2. intros; apply Hin; simpl; auto.
      * change (a_space a') with (add64 (a_space a) size). rewrite add64_small.
        -- rewrite P4. simpl. lia.
        -- split; [|lia]. rewrite P4. clear - P2 H32. 
           assert (0 <= total_size (a_blocks a)); [|lia].
           induction P2; simpl; [lia|]. destruct H. lia.
      * simpl. rewrite Nat.eqb_refl, P5. reflexivity.
    + rewrite nth_error_upd_ne in Hj by auto.
      destruct (H3 j b Hj) as (nss & [P1 P2 P3 P4 P5]). exists nss. constructor; auto;
        [|simpl; destruct (Nat.eqb_spec i j); [congruence|exact P5]].
      assert (Hin : forall c, In c (a_blocks b) -> In c (all_blocks l))
        by (intros; eapply in_all_blocks; eauto).
      clear - P2 Hin Hbi. induction P2; constructor; auto.
      apply Hbi; auto. apply Hin; simpl; auto. apply IHP2. intros; apply Hin; simpl; auto.
  - intros j Hj.
    destruct (Nat.eq_dec i j) as [<-|NE].
    + exfalso. eapply Hj. eapply nth_error_upd_eq; eauto.
    + simpl. destruct (Nat.eqb_spec i j); [congruence|]. apply H4. intros b Hb.
      eapply Hj. rewrite nth_error_upd_ne by auto. eauto.
  - intros j p n Hr. destruct (H5 j p n Hr) as (? & c & b & Hc & Hb & Hu'). split; auto.
    destruct (Nat.eq_dec i j) as [<-|NE].
    + rewrite Hi in Hc. inv Hc. exists a', b. repeat split; try apply Hu'.
      * eapply nth_error_upd_eq; eauto.
      * simpl; auto.
    + exists c, b. rewrite nth_error_upd_ne by auto. auto.
  - auto.
Qed.

(** * Disjoint ranges fit into the address space *)
Definition cells (x : Z * Z) : list Z :=
  map (fun k => fst x + Z.of_nat k) (seq 0 (Z.to_nat (snd x))).

Lemma in_cells x z : In z (cells x) -> fst x <= z < fst x + snd x.
Proof.
  unfold cells. rewrite in_map_iff. intros (k & <- & Hk). apply in_seq in Hk. lia.
Qed.

Lemma NoDup_cells x : NoDup (cells x).
Proof.
  unfold cells. apply FinFun.Injective_map_NoDup; [|apply seq_NoDup].
  intros a b H. lia.
Qed.

Lemma NoDup_app_intro {T} (l1 l2 : list T) :
  NoDup l1 -> NoDup l2 -> (forall x, In x l1 -> ~ In x l2) -> NoDup (l1 ++ l2).
Proof.
  induction 1; simpl; auto. intros N2 D. constructor.
  - rewrite in_app_iff. intros [|]; [auto|eapply D; eauto].
  - apply IHNoDup; auto.
Qed.

Lemma NoDup_flat_cells l : pairwise blk_apart l -> NoDup (flat_map cells l).
Proof.
  induction l; simpl; [constructor|]. rewrite pairwise_cons, Forall_forall. intros [F P].
  apply NoDup_app_intro.
  - apply NoDup_cells.
  - auto.
  - intros z Hz Hy. apply in_flat_map in Hy as (y & Hy & Hzy).
    apply in_cells in Hz. apply in_cells in Hzy. specialize (F y Hy).
    unfold blk_apart, apart in F. lia.
Qed.

Definition sum_sizes (l : list (Z * Z)) : Z := fold_right (fun x s => snd x + s) 0 l.

Lemma length_flat_cells l : Forall (fun x => 0 <= snd x) l ->
  Z.of_nat (length (flat_map cells l)) = sum_sizes l.
Proof.
  induction 1; simpl; auto. rewrite app_length, Nat2Z.inj_add, IHForall.
  unfold cells. rewrite map_length, seq_length. lia.
Qed.

Lemma sum_sizes_bound M l :
  pairwise blk_apart l -> Forall (fun x => 0 <= fst x /\ 0 <= snd x /\ fst x + snd x <= M) l ->
  0 <= M -> sum_sizes l <= M.
Proof.
  intros P F HM.
  rewrite <- length_flat_cells by (eapply Forall_impl; [|exact F]; simpl; lia).
  rewrite <- (Z2Nat.id M) by auto. apply inj_le.
  replace (Z.to_nat M) with (length (map Z.of_nat (seq 0 (Z.to_nat M))))
    by now rewrite map_length, seq_length.
  apply NoDup_incl_length; [now apply NoDup_flat_cells|].
  intros z Hz. apply in_flat_map in Hz as (x & Hx & Hz). apply in_cells in Hz.
  rewrite Forall_forall in F. specialize (F x Hx).
  apply in_map_iff. exists (Z.to_nat z). split; [lia|]. apply in_seq. lia.
Qed.

Lemma sum_sizes_app l1 l2 : sum_sizes (l1 ++ l2) = sum_sizes l1 + sum_sizes l2.
Proof. induction l1; simpl; auto. rewrite IHl1. lia. Qed.

Lemma total_size_sum l : total_size l = sum_sizes (map bspan l).
Proof. induction l; simpl; auto. now rewrite IHl. Qed.

Lemma Inv_space_bound A l m i a :
  Inv A l m -> nth_error l i = Some (Some a) -> 0 <= a_space a <= 2 ^ 63.
Proof.
  intros HI Hi. destruct (I_arena _ _ _ HI i a Hi) as (nss & HA).
  rewrite (ai_space _ _ _ _ _ HA). rewrite total_size_sum.
  assert (F : Forall (fun x => 0 <= fst x /\ 0 <= snd x /\ fst x + snd x <= 2 ^ 63)
            (map bspan (a_blocks a))).
  { apply Forall_forall. intros x Hx. apply in_map_iff in Hx as (b & <- & Hb).
    destruct (binv_of _ _ _ _ _ _ HA Hb) as (ns & [ ]). unfold bspan. simpl fst; simpl snd. lia. }
  split.
  - clear - F. induction F; simpl; [lia|]. unfold bspan in *; simpl in *. lia.
  - apply sum_sizes_bound; auto; [|lia].
    pose proof (Inv_blocks_apart _ _ _ HI) as P.
    destruct (upd_split l i _ Hi) as (l1 & l2 & El & _). rewrite El in P.
    unfold all_blocks in P. rewrite flat_map_app in P. simpl in P.
    apply pairwise_app in P as (_ & P & _). apply pairwise_app in P as (P & _ & _).
    clear - P. induction (a_blocks a); [constructor|]. apply pairwise_cons in P as [F P].
    simpl. apply pairwise_cons. split; auto. rewrite Forall_forall in *.
    intros x Hx. apply in_map_iff in Hx as (b & <- & Hb). now apply F.
Qed.

(** * Making room *)
Definition fits (b : block) (need al : Z) : Prop :=
  b_pos b + waste_of (b_addr b + b_pos b) al + need <= b_limit b.

Lemma has_enough_space_ok e A f b ns need al :
  binv A f b ns -> (al = 8 \/ al = 16 \/ al = 32) -> 0 <= need <= 2 ^ 62 ->
  exists r, has_enough_space e b need al = Ok r /\ (r = true <-> fits b need al).
Proof.
  intros [ ] Hal Hn. unfold has_enough_space, Pos.
  rewrite (add64_small (b_addr b)) by (unfold M64; lia).
  rewrite AlignPos_ok by (unfold M64; lia). cbn [bind].
  pose proof (waste_bounds (b_addr b + b_pos b) al ltac:(lia)).
  rewrite (add64_small (b_pos b)) by (unfold M64; lia). rewrite add64_small by (unfold M64; lia).
  eexists; split; eauto. rewrite Z.leb_le. reflexivity.
Qed.

Lemma align_addr A addr al : block_alignment A -> alignment_ok A al -> addr mod A = 0 -> (addr + 32) mod al = 0.
Proof.
  intros HA [Hal Hle] H.
  assert (D : (al | A)).
  { destruct HA as [->|[->| ->]]; destruct Hal as [->|[->| ->]]; try lia;
      [exists 1|exists 2|exists 1|exists 4|exists 2|exists 1]; reflexivity. }
  assert (D2 : (al | 32)) by (destruct Hal as [->|[->| ->]]; [exists 4|exists 2|exists 1]; reflexivity).
  apply Z.mod_divide; [lia|]. apply Z.divide_add_r; auto.
  eapply Z.divide_trans; [exact D|]. apply Z.mod_divide; auto.
  destruct HA as [->|[->| ->]]; lia.
Qed.

Lemma mod8_addr A addr : block_alignment A -> addr mod A = 0 -> addr mod 8 = 0.
Proof.
  intros HA H. assert (D : (8 | A)) by (destruct HA as [->|[->| ->]]; [exists 1|exists 2|exists 4]; reflexivity).
  apply Z.mod_divide; [lia|]. eapply Z.divide_trans; [exact D|]. apply Z.mod_divide; auto.
  destruct HA as [->|[->| ->]]; lia.
Qed.

Definition same_cfg (a a' : arena) : Prop :=
  a_opts a' = a_opts a /\ a_resource a' = a_resource a /\ a_cookie a' = a_cookie a.

Lemma ensure_block_ok e A l m i a need al :
  block_alignment A -> good_block_alloc A (e_alloc e) ->
  Inv A l m -> nth_error l i = Some (Some a) -> req_ok need -> alignment_ok A al ->
  exists a' m' ok, ensure_block e i a m need al = Ok (a', m', ok) /\
    Inv A (upd i (Some a') l) m' /\
    live_ranges (m_hist m') = live_ranges (m_hist m) /\
    (forall j, pending (m_hist m') j = pending (m_hist m) j) /\
    same_cfg a a' /\
    (forall b, In b (a_blocks a) -> In b (a_blocks a')) /\
    match ok with
    | true => exists b rest, a_blocks a' = b :: rest /\ fits b need al
    | false => a' = a /\ m_nodes m' = m_nodes m /\
               exists size, m_hist m' = EBlockAlloc i size None :: m_hist m
    end.
Proof.
  intros HA HG HI Hi Hreq Hal. unfold ensure_block, need_create_new_block.
  destruct (I_arena _ _ _ HI i a Hi) as (nss & HAi). pose proof Hreq as [Hn Hn8].
  assert (CASE : (exists b rest, a_blocks a = b :: rest /\ fits b need al) \/
     (match a_blocks a with [] => Ok true | b :: _ => do ok <- has_enough_space e b need al; Ok (negb ok) end = Ok true)).
  { destruct (a_blocks a) as [|b rest] eqn:Eb; auto.
    destruct HAi as [_ F _ _ _]. rewrite Eb in F. inv F.
    destruct (has_enough_space_ok e A (m_nodes m) b y need al H1 (proj1 Hal) ltac:(lia)) as (r & E & Er).
    rewrite E. destruct r; cbn; auto. left. exists b, rest. split; auto. now apply Er. }
  destruct CASE as [(b & rest & Eb & Hf)|E].
  - rewrite Eb. destruct HAi as [_ F _ _ _]. rewrite Eb in F. inv F.
    destruct (has_enough_space_ok e A (m_nodes m) b y need al H1 (proj1 Hal) ltac:(lia)) as (r & E & Er).
    rewrite E. rewrite (proj2 Er Hf). cbn [bind negb].
    exists a, m, true. rewrite upd_same by auto. split; [reflexivity|]. split; [auto|]. split; [auto|].
    split; [auto|]. split; [repeat split|].
    split; [rewrite Eb; auto|]. exists b, rest. auto.
  - rewrite E. cbn [bind]. clear E. unfold newBlock.
    rewrite kH32. destruct (Z.ltb_spec (M64 - 1 - 32) need); [unfold M64 in *; lia|].
    destruct (new_block_size_ok (a_opts a) (match a_blocks a with [] => true | _ => false end) need
                (ai_opts _ _ _ _ _ HAi) Hreq) as (size & Es & Hs & Hs8).
    rewrite Es. cbn [bind]. cbv zeta.
    destruct (e_alloc e (m_hist m) size) as [addr|] eqn:Ea; cbn [bind].
    + destruct (HG _ _ _ Ea) as (G1 & G2 & G3 & G4).
      pose proof (Inv_space_bound A l m i a HI Hi) as Hsp.
      pose proof (Inv_add_block A l m i a addr size HI Hi G1 G2 G3 ltac:(lia) Hs8 HA G4
                    ltac:(unfold M64; lia)) as HI'.
      eexists _, _, true. split; [reflexivity|]. cbn [a_blocks set_blocks a_opts a_resource a_cookie a_space].
      split.
      { destruct (o_on_newblock (a_opts a)); [apply Inv_quiet; [exact I|]|]; exact HI'. }
      split; [destruct (o_on_newblock (a_opts a)); reflexivity|].
      split; [intros; destruct (o_on_newblock (a_opts a)); reflexivity|].
      split; [repeat split|]. split; [simpl; auto|].
      eexists _, _. split; [reflexivity|]. unfold fits. simpl.
      rewrite waste_zero; [lia| |].
      * destruct Hal as [[->|[->| ->]] _]; lia.
      * eapply align_addr; eauto.
    + eexists _, _, false. split; [reflexivity|]. rewrite upd_same by auto.
      split; [apply Inv_quiet; [exact I|auto]|].
      split; [reflexivity|]. split; [reflexivity|]. split; [repeat split|].
      split; [auto|]. split; auto. split; auto. eexists; reflexivity.
Qed.

(** * Taking space *)
Definition reserved (l : list (option arena)) (m : mem) (i : nat) (p n : Z) : Prop :=
  0 <= n /\
  (exists a b, nth_error l i = Some (Some a) /\ In b (a_blocks a) /\ in_used b p n) /\
  (forall x, In x (live_ranges (m_hist m)) -> apart p n (snd (fst x)) (snd x)).

Lemma take_ok e A l m i a b rest need al :
  block_alignment A -> Inv A l m -> nth_error l i = Some (Some a) ->
  a_blocks a = b :: rest -> fits b need al -> req_ok need -> alignment_ok A al ->
  exists b' p, block_take e b need al = Ok (b', p) /\
    p mod al = 0 /\ 0 < p /\ p = b_addr b + b_pos b + waste_of (b_addr b + b_pos b) al /\
    b_pos b' = b_pos b + waste_of (b_addr b + b_pos b) al + need /\
    b_limit b' = b_limit b /\ b_size b' = b_size b /\ b_addr b' = b_addr b /\
    Inv A (upd i (Some (set_blocks a (b' :: rest))) l) m /\
    (forall n, 0 <= n <= need -> reserved (upd i (Some (set_blocks a (b' :: rest))) l) m i p n).
Proof.
  intros HA HI Hi Eb Hf [Hn Hn8] Hal.
  destruct (I_arena _ _ _ HI i a Hi) as (nss & HAi).
  pose proof HAi as [O1 O2 O3 O4 O5]. rewrite Eb in O2. inversion O2 as [|? ns ? nss' HB HR]; subst.
  pose proof HB as [B1 B2 B3 B4 B5 B6 B7 B8 B9]. set (w := waste_of (b_addr b + b_pos b) al) in *.
  assert (Hal0 : 0 < al) by (destruct Hal as [[->|[->| ->]] _]; lia).
  pose proof (waste_bounds (b_addr b + b_pos b) al Hal0) as Hw. fold w in Hw.
  assert (Hw8 : w mod 8 = 0).
  { apply waste_mod8; [apply Hal|]. rewrite Z.add_mod, B6, (mod8_addr A (b_addr b)) by (auto; lia). reflexivity. }
  unfold fits in Hf. fold w in Hf.
  unfold block_take.
  assert (E1 : (do ok <- (if e_debug e then has_enough_space e b need al else Ok true); check_assert e ok) = Ok tt).
  { destruct (e_debug e) eqn:D; cbn; unfold check_assert; rewrite D; auto.
    destruct (has_enough_space_ok e A (m_nodes m) b ns need al HB (proj1 Hal) ltac:(lia)) as (r & E & Er).
    rewrite E. cbn. rewrite (proj2 Er); auto. }
  assert (E2 : forall T (k : res T), (do ok <- (if e_debug e then has_enough_space e b need al else Ok true);
               do _ <- check_assert e ok; k) = k).
  { intros T k. destruct (if e_debug e then _ else _); cbn in *; try discriminate.
    rewrite E1. reflexivity. }
  rewrite E2. clear E1 E2. unfold Pos. rewrite add64_small by (unfold M64; lia).
  rewrite AlignPos_ok by (try apply Hal; unfold M64; lia). cbn [bind]. fold w.
  rewrite (add64_small need w) by (unfold M64; lia). rewrite add64_small by (unfold M64; lia).
  set (b' := {| b_addr := b_addr b; b_pos := b_pos b + (need + w); b_size := b_size b; b_limit := b_limit b |}).
  assert (HB' : binv A (m_nodes m) b' ns).
  { constructor; simpl; auto; try lia.
    rewrite Z.add_mod, B6, (Z.add_mod need w), Hn8, Hw8 by lia. reflexivity. }
  assert (HI' : Inv A (upd i (Some (set_blocks a (b' :: rest))) l) m).
  { eapply (Inv_replace A l m i a _ (ns :: nss')); eauto.
    - constructor; auto.
      + simpl. constructor; auto.
      + simpl. rewrite O4, Eb. reflexivity.
      + simpl. rewrite O5, Eb. reflexivity.
    - simpl. rewrite Eb. reflexivity.
    - intros c p n. rewrite Eb. simpl. intros [<-|Hc] Hu.
      + exists b'. split; auto. unfold in_used in *. simpl. lia.
      + exists c. auto. }
  exists b', (b_addr b + b_pos b + w). split; [reflexivity|].
  split. { apply waste_aligned; auto. }
  split; [lia|]. split; [reflexivity|]. split; [simpl; lia|]. do 3 (split; [reflexivity|]).
  split; [exact HI'|].
  intros n Hnn. split; [lia|]. split.
  - exists (set_blocks a (b' :: rest)), b'. split; [eapply nth_error_upd_eq; eauto|].
    split; [simpl; auto|]. unfold in_used; simpl. lia.
  - intros [[j q] k] Hx. simpl.
    destruct (I_rng _ _ _ HI j q k Hx) as (Hk & c & d & Hc & Hd & Hu).
    assert (In b (all_blocks l)) by (eapply in_all_blocks; [exact Hi|rewrite Eb; simpl; auto]).
    assert (In d (all_blocks l)) by (eapply in_all_blocks; eauto).
    destruct (Inv_binv _ _ _ d HI ltac:(assumption)) as (nsd & HD).
    destruct (Inv_blocks_cases _ _ _ b d HI) as [<-|Hap]; auto.
    + unfold in_used in Hu. unfold apart. lia.
    + unfold in_used in Hu. unfold blk_apart, apart, bspan in *. simpl in Hap. destruct HD. lia.
Qed.

Lemma land7 p : 0 <= p -> p mod 8 = 0 -> Z.land p 7 = 0.
Proof. intros H E. change 7 with (Z.ones 3). rewrite Z.land_ones by lia. exact E. Qed.

Lemma mod8_of_al p al : (al = 8 \/ al = 16 \/ al = 32) -> p mod al = 0 -> p mod 8 = 0.
Proof.
  intros Hal H. assert (D : (8 | al)) by (destruct Hal as [->|[->| ->]]; [exists 1|exists 2|exists 4]; reflexivity).
  apply Z.mod_divide; [lia|]. eapply Z.divide_trans; [exact D|]. apply Z.mod_divide; auto; lia.
Qed.

Definition alloc_failed (i : nat) (a a' : arena) (m m' : mem) : Prop :=
  a' = a /\ m_nodes m' = m_nodes m /\ exists size, m_hist m' = EBlockAlloc i size None :: m_hist m.

Lemma allocateAligned_ok e A l m i a bytes al :
  block_alignment A -> good_block_alloc A (e_alloc e) ->
  Inv A l m -> nth_error l i = Some (Some a) -> 0 <= bytes <= max_request -> alignment_ok A al ->
  exists a' m' p, allocateAligned e i a m bytes al = Ok (a', m', p) /\
    Inv A (upd i (Some a') l) m' /\
    live_ranges (m_hist m') = live_ranges (m_hist m) /\
    (forall j, pending (m_hist m') j = pending (m_hist m) j) /\
    same_cfg a a' /\
    ((p = 0 /\ alloc_failed i a a' m m') \/
     (0 < p /\ p mod al = 0 /\ reserved (upd i (Some a') l) m' i p bytes)).
Proof.
  intros HA HG HI Hi Hb Hal. unfold allocateAligned.
  destruct (align_size_ok bytes Hb) as [Hs Hs8].
  assert (Hreq : req_ok (align_size bytes)).
  { split; auto. split; [lia|]. unfold max_request in *.
    assert (align_size bytes <= 2 ^ 62); [|lia].
    destruct (Z_le_gt_dec (align_size bytes) (2 ^ 62)); auto. exfalso.
    change (2^62) with 4611686018427387904 in *.
    apply Z.mod_divide in Hs8; [|lia]. destruct Hs8 as (k & Hk). lia. }
  destruct (ensure_block_ok e A l m i a (align_size bytes) al HA HG HI Hi Hreq Hal)
    as (a1 & m1 & ok & E & HI1 & Hr & Hp & Hc & Hin & Hok).
  rewrite E. cbn [bind]. destruct ok.
  - destruct Hok as (b & rest & Eb & Hf). rewrite Eb.
    assert (Hi1 : nth_error (upd i (Some a1) l) i = Some (Some a1)) by (eapply nth_error_upd_eq; eauto).
    destruct (take_ok e A _ m1 i a1 b rest _ al HA HI1 Hi1 Eb Hf Hreq Hal)
      as (b' & p & E2 & P1 & P2 & P3 & P4 & P5 & P6 & P7 & HI2 & HR).
    rewrite E2. cbn [bind]. unfold check_assert.
    rewrite land7 by (first [lia | apply (mod8_of_al p al); [apply Hal|auto]]). simpl. rewrite andb_false_r. cbn [bind].
    rewrite upd_upd in HI2, HR.
    exists (set_blocks a1 (b' :: rest)), m1, p. split; auto. split; auto. split; auto. split; auto.
    split; [destruct Hc as (C1 & C2 & C3); repeat split; auto|].
    right. split; auto. split; auto. apply HR. lia.
  - destruct Hok as (-> & N & size & Hh).
    exists a, m1, 0. split; auto. split; auto. split; auto. split; auto. split; auto.
    left. split; auto. split; auto. split; auto. eauto.
Qed.

(** * Handing out *)
Lemma accessible_used A l m i p n :
  Inv A l m -> reserved l m i p n -> accessible m p n = true.
Proof.
  intros HI (Hn & (a & b & Hi & Hb & Hu) & _). unfold accessible.
  apply orb_true_iff. right. apply existsb_exists. exists (bspan b). split.
  - destruct (I_live _ _ _ HI) as (L & E & P). unfold live_blocks_list. rewrite E.
    eapply Permutation_in; [symmetry; exact P|]. apply in_map. eapply in_all_blocks; eauto.
  - destruct (Inv_binv _ _ _ b HI (in_all_blocks _ _ _ _ Hi Hb)) as (ns & [ ]).
    unfold in_used in Hu. unfold bspan. simpl fst; simpl snd. rewrite kH32.
    apply andb_true_iff. rewrite !Z.leb_le. lia.
Qed.

Lemma hand_out_ok A l m i p n :
  Inv A l m -> reserved l m i p n ->
  exists m', hand_out i m p n = Ok m' /\ Inv A l m' /\
    live_ranges (m_hist m') = (i, p, n) :: live_ranges (m_hist m) /\
    m_hist m' = CRange i p n :: m_hist m.
Proof.
  intros HI HR. unfold hand_out, touch. rewrite (accessible_used A l m i p n HI HR). cbn [bind].
  eexists; split; [reflexivity|]. split; [|split; reflexivity].
  destruct HR as (Hn & (a & b & Hi & Hb & Hu) & Hap).
  assert (HI' : Inv A l (scribble m p n)).
  { apply Inv_scribble; auto. intros d Hd.
    assert (Hb' : In b (all_blocks l)) by (eapply in_all_blocks; eauto).
    destruct (Inv_binv _ _ _ b HI Hb') as (nsb & HB). destruct (Inv_binv _ _ _ d HI Hd) as (nsd & HD).
    destruct (Inv_blocks_cases _ _ _ b d HI) as [<-|Hbd]; auto.
    - unfold in_used in Hu. destruct HB. unfold apart. lia.
    - unfold in_used in Hu. unfold blk_apart, apart, bspan in *. simpl in Hbd. destruct HB, HD. lia. }
  destruct HI' as [H1 H2 H3 H4 H5 H6]. constructor; auto.
  - destruct H1 as (L & E & P). exists L. split; auto. simpl in *. now rewrite E.
  - unfold live_blocks_list in *. simpl in *. destruct (live_blocks (m_hist m)); auto.
  - intros j c Hj. destruct (H3 j c Hj) as (nss & [P1 P2 P3 P4 P5]). exists nss. constructor; auto.
  - intros j q k [Hq|Hq]; [inv Hq; split; auto; exists a, b; auto|auto].
  - simpl. apply pairwise_cons. split; auto. rewrite Forall_forall. intros x Hx. apply Hap; auto.
Qed.

(** * Cleanups *)
Lemma register_ok e A l m i a b rest obj fn :
  block_alignment A -> Inv A l m -> nth_error l i = Some (Some a) ->
  a_blocks a = b :: rest -> b_pos b + 16 <= b_limit b ->
  exists b' m', register_cleanup e b m obj fn = Ok (b', m') /\
    Inv A (upd i (Some (set_blocks a (b' :: rest))) l) (emit m' (CRegister i obj fn)) /\
    m_hist m' = m_hist m /\
    (forall p n, reserved l m i p n -> reserved (upd i (Some (set_blocks a (b' :: rest))) l) m' i p n).
Proof.
  intros HA HI Hi Eb Hf.
  destruct (I_arena _ _ _ HI i a Hi) as (nss & HAi).
  pose proof HAi as [O1 O2 O3 O4 O5]. rewrite Eb in O2. inversion O2 as [|? ns ? nss' HB HR]; subst.
  pose proof HB as [B1 B2 B3 B4 B5 B6 B7 B8 B9].
  assert (Hbin : In b (all_blocks l)) by (eapply in_all_blocks; [exact Hi|rewrite Eb; simpl; auto]).
  unfold register_cleanup, alloc_cleanup, check_assert.
  rewrite kC16. rewrite add64_small by (unfold M64; lia). rewrite (proj2 (Z.leb_le _ _)) by lia.
  simpl negb. rewrite andb_false_r. cbn [bind]. unfold CleanupPos; cbn [b_addr b_limit b_pos b_size].
  rewrite sub64_small by (unfold M64; lia). rewrite add64_small by (unfold M64; lia).
  set (p := b_addr b + (b_limit b - 16)).
  assert (Hp8 : p mod 8 = 0).
  { unfold p. replace (b_addr b + (b_limit b - 16)) with (b_addr b + b_limit b + (-2) * 8) by lia.
    rewrite Z_mod_plus_full. rewrite Z.add_mod, B7, (mod8_addr A (b_addr b)) by (auto; lia). reflexivity. }
  rewrite Hp8. simpl negb.
  assert (Hacc : accessible m p 16 = true).
  { unfold accessible. apply orb_true_iff. right. apply existsb_exists. exists (bspan b). split.
    - destruct (I_live _ _ _ HI) as (L & E & P). unfold live_blocks_list. rewrite E.
      eapply Permutation_in; [symmetry; exact P|]. now apply in_map.
    - unfold bspan. simpl fst; simpl snd. rewrite kH32. apply andb_true_iff. rewrite !Z.leb_le. unfold p. lia. }
  unfold touch. rewrite Hacc. cbn [bind].
  set (b' := {| b_addr := b_addr b; b_pos := b_pos b; b_size := b_size b; b_limit := b_limit b - 16 |}).
  set (x := {| n_elem := obj; n_fn := fn |}).
  set (m' := set_node (scribble m p 16) p x).
  exists b', m'. split; [reflexivity|].
  assert (Hnodes : forall q, apart p 16 q 16 -> m_nodes m' q = m_nodes m q).
  { intros q Hq. unfold m'. simpl m_nodes. destruct (Z.eqb_spec q p); [unfold apart in Hq; lia|].
    apply (scribble_other m p 16 q Hq). }
  assert (HB' : binv A (m_nodes m') b' (x :: ns)).
  { constructor; simpl; auto; try lia.
    - rewrite Zminus_mod, B7. reflexivity.
    - intros [|k] y Hk; simpl in Hk.
      + inv Hk. simpl Z.of_nat. rewrite Z.mul_0_r, Z.add_0_r.
        fold p. unfold m'. simpl. rewrite Z.eqb_refl. reflexivity.
      + match goal with |- ?g = _ => change g with (m_nodes m' (b_addr b + (b_limit b - 16) + 16 * Z.of_nat (S k))) end.
        rewrite Hnodes.
        * rewrite <- (B9 k y Hk). f_equal. lia.
        * left. unfold p. lia. }
  assert (Hoth : forall d nsd, In d (all_blocks l) -> d <> b -> binv A (m_nodes m) d nsd -> binv A (m_nodes m') d nsd).
  { intros d nsd Hd NE HD. eapply binv_ext; [|exact HD]. intros q Q1 Q2. apply Hnodes.
    destruct (Inv_blocks_cases _ _ _ b d HI) as [->|Hap]; auto; [congruence|].
    unfold blk_apart, bspan, apart in *. simpl in Hap. destruct HD. unfold p. lia. }
  (* blocks of one chain are distinct *)
  assert (Hdist : forall d c j, nth_error l j = Some (Some c) -> In d (a_blocks c) -> j <> i -> d <> b).
  { intros d c j Hj Hd NE ->.
    pose proof (Inv_blocks_apart _ _ _ HI) as P.
    assert (exists l1 l2 x1 x2, l = l1 ++ x1 :: l2 /\ In x2 l2 /\ In b (blocks_of x1) /\ In b (blocks_of x2)) as HH.
    { assert (In b (a_blocks a)) by (rewrite Eb; simpl; auto). clear - Hi Hj Hd NE H.
      revert i j Hi Hj NE. induction l as [|y l IH]; intros [|i] [|j] Hi Hj NE; simpl in *; try discriminate; try congruence.
      - inv Hi. exists [], l, (Some a), (Some c). repeat split; auto. eapply nth_error_In; eauto.
      - inv Hj. exists [], l, (Some c), (Some a). repeat split; auto. eapply nth_error_In; eauto.
      - destruct (IH i j Hi Hj ltac:(congruence)) as (l1 & l2 & x1 & x2 & -> & ? & ? & ?).
        exists (y :: l1), l2, x1, x2. auto. }
    destruct HH as (l1 & l2 & x1 & x2 & -> & Hx2 & Hb1 & Hb2).
    unfold all_blocks in P. rewrite flat_map_app in P. simpl in P.
    apply pairwise_app in P as (_ & P & _). apply pairwise_app in P as (_ & _ & P).
    assert (blk_apart (bspan b) (bspan b)) as Q by (apply P; auto; apply in_flat_map; eauto).
    unfold blk_apart, apart, bspan in Q. simpl in Q. lia. }
  assert (Hrest : forall d, In d rest -> d <> b).
  { intros d Hd ->. pose proof (Inv_blocks_apart _ _ _ HI) as P.
    destruct (upd_split l i _ Hi) as (l1 & l2 & -> & _).
    unfold all_blocks in P. rewrite flat_map_app in P. simpl in P.
    apply pairwise_app in P as (_ & P & _). apply pairwise_app in P as (P & _ & _).
    rewrite Eb in P. apply pairwise_cons in P as [F _]. rewrite Forall_forall in F. specialize (F b Hd).
    unfold blk_apart, apart, bspan in F. simpl in F. lia. }
  destruct HI as [H1 H2 H3 H4 H5 H6].
  split; [|split; [reflexivity|]].
  - constructor.
    + destruct H1 as (L & E & P). exists L. split; [simpl; now rewrite E|].
      destruct (upd_split l i _ Hi) as (l1 & l2 & El & Eu). rewrite Eu. rewrite El in P.
      unfold all_blocks in *. rewrite flat_map_app in *. simpl in *. rewrite Eb in P. simpl in P.
      rewrite map_app in *. exact P.
    + unfold live_blocks_list in *. simpl. destruct (live_blocks (m_hist m)); auto.
    + intros j c Hj. destruct (Nat.eq_dec i j) as [<-|NE].
      * erewrite nth_error_upd_eq in Hj by eauto. inv Hj. exists ((x :: ns) :: nss'). constructor.
        -- exact O1.
        -- simpl. constructor; auto.
           assert (Hin : forall c, In c rest -> In c (all_blocks l)).
           { intros c Hc. eapply in_all_blocks; [exact Hi|rewrite Eb; simpl; auto]. }
           clear - HR Hoth Hin Hrest. induction HR; constructor.
           ++ apply Hoth; auto. apply Hin; simpl; auto. apply Hrest; simpl; auto.
           ++ apply IHHR; intros; [apply Hrest|apply Hin]; simpl; auto.
        -- simpl. rewrite Nat.eqb_refl, O3. reflexivity.
        -- simpl. rewrite O4, Eb. reflexivity.
        -- simpl. rewrite O5, Eb. reflexivity.
      * rewrite nth_error_upd_ne in Hj by auto.
        destruct (H3 j c Hj) as (nssc & [P1 P2 P3 P4 P5]). exists nssc. constructor; auto.
        -- assert (Hin : forall d, In d (a_blocks c) -> In d (all_blocks l) /\ d <> b).
           { intros d Hd. split; [eapply in_all_blocks; eauto|eapply Hdist; eauto]. }
           clear - P2 Hoth Hin. simpl. induction P2; constructor.
           ++ destruct (Hin x0); simpl; auto.
           ++ apply IHP2. intros; apply Hin; simpl; auto.
        -- simpl. destruct (Nat.eqb_spec i j); [congruence|]. exact P3.
    + intros j Hj. simpl. destruct (Nat.eqb_spec i j) as [<-|NE].
      * exfalso. eapply Hj. eapply nth_error_upd_eq; eauto.
      * apply H4. intros c Hc. eapply Hj. rewrite nth_error_upd_ne by auto. eauto.
    + intros j q n Hr. destruct (H5 j q n Hr) as (? & c & d & Hc & Hd & Hu). split; auto.
      destruct (Nat.eq_dec i j) as [<-|NE].
      * rewrite Hi in Hc. inv Hc. rewrite Eb in Hd. destruct Hd as [<-|Hd].
        -- eexists _, b'. split; [eapply nth_error_upd_eq; eauto|]. split; [simpl; auto|]. exact Hu.
        -- eexists _, d. split; [eapply nth_error_upd_eq; eauto|]. split; [simpl; auto|]. exact Hu.
      * exists c, d. rewrite nth_error_upd_ne by auto. auto.
    + exact H6.
  - intros q n (Hn & (c & d & Hc & Hd & Hu) & Hap). split; auto. split; auto.
    rewrite Hi in Hc. inv Hc. rewrite Eb in Hd. destruct Hd as [<-|Hd].
    + eexists _, b'. split; [eapply nth_error_upd_eq; eauto|]. split; [simpl; auto|]. exact Hu.
    + eexists _, d. split; [eapply nth_error_upd_eq; eauto|]. split; [simpl; auto|]. exact Hu.
Qed.

Lemma addCleanup_ok e A l m i a obj fn :
  block_alignment A -> good_block_alloc A (e_alloc e) ->
  Inv A l m -> nth_error l i = Some (Some a) ->
  exists a' m' ok, addCleanup e i a m obj fn = Ok (a', m', ok) /\
    live_ranges (m_hist m') = live_ranges (m_hist m) /\
    (forall j, pending (m_hist m') j = pending (m_hist m) j) /\
    same_cfg a a' /\
    (forall p n, reserved l m i p n -> reserved (upd i (Some a') l) m' i p n) /\
    match ok with
    | true => Inv A (upd i (Some a') l) (emit m' (CRegister i obj fn))
    | false => Inv A (upd i (Some a') l) m' /\ alloc_failed i a a' m m'
    end.
Proof.
  intros HA HG HI Hi. unfold addCleanup. rewrite kC16. change kByteSize with 8.
  assert (Hreq : req_ok 16) by (split; [lia|reflexivity]).
  assert (Hal : alignment_ok A 8) by (split; [auto|destruct HA as [->|[->| ->]]; lia]).
  destruct (ensure_block_ok e A l m i a 16 8 HA HG HI Hi Hreq Hal)
    as (a1 & m1 & ok & E & HI1 & Hr & Hp & Hc & Hin & Hok).
  assert (HR1 : forall p n, reserved l m i p n -> reserved (upd i (Some a1) l) m1 i p n).
  { intros p n (Hn & (c & d & Hc' & Hd & Hu) & Hap). rewrite Hi in Hc'. inv Hc'.
    split; auto. split; [|rewrite Hr; auto]. exists a1, d. split; [eapply nth_error_upd_eq; eauto|]. auto. }
  rewrite E. cbn [bind]. destruct ok.
  - destruct Hok as (b & rest & Eb & Hf). rewrite Eb.
    assert (Hi1 : nth_error (upd i (Some a1) l) i = Some (Some a1)) by (eapply nth_error_upd_eq; eauto).
    assert (Hf' : b_pos b + 16 <= b_limit b).
    { unfold fits in Hf. pose proof (waste_bounds (b_addr b + b_pos b) 8 ltac:(lia)). lia. }
    destruct (register_ok e A _ m1 i a1 b rest obj fn HA HI1 Hi1 Eb Hf') as (b' & m2 & E2 & HI2 & Hh & HR2).
    rewrite E2. cbn [bind]. rewrite upd_upd in HI2, HR2.
    exists (set_blocks a1 (b' :: rest)), m2, true. split; [reflexivity|]. rewrite Hh.
    split; [auto|]. split; [auto|]. split; [destruct Hc as (C1 & C2 & C3); repeat split; auto|].
    split; auto.
  - destruct Hok as (-> & N & size & Hh).
    exists a, m1, false. split; auto. split; auto. split; auto. split; auto. split; auto.
    split; auto. split; auto. split; auto. eauto.
Qed.
