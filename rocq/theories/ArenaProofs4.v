Require Import ZArith List Bool Lia Permutation.
From Verif Require Import Base BaseProofs AlignModel BasicSpec BasicProofs ArenaSpec ArenaModel ArenaStatements
  ArenaProofs ArenaProofs2 ArenaProofs3.
Import ListNotations.
Open Scope Z_scope.

Lemma nth_error_snoc {T} (l : list T) x j y :
  nth_error (l ++ [x]) j = Some y -> (j = length l /\ y = x) \/ nth_error l j = Some y.
Proof.
  intros H. destruct (Nat.lt_trichotomy j (length l)) as [L|[->|L]].
  - rewrite nth_error_app1 in H by auto. auto.
  - rewrite nth_error_app2, Nat.sub_diag in H by lia. inv H. auto.
  - rewrite nth_error_app2 in H by lia. destruct (j - length l)%nat eqn:E; [lia|]. destruct n; discriminate.
Qed.

Lemma nth_error_length_none {T} (l : list T) : nth_error l (length l) = None.
Proof. apply nth_error_None. lia. Qed.

Section Steps.
Variable e : env.
Variable A : Z.
Hypothesis HA : block_alignment A.
Hypothesis HG : good_block_alloc A (e_alloc e).

Lemma Inv_init : Inv A (s_arenas init) (s_mem init).
Proof.
  constructor; simpl.
  - exists []. split; auto.
  - constructor.
  - intros i a H. destruct i; discriminate.
  - auto.
  - easy.
  - constructor.
Qed.

Lemma Inv_new l m c : Inv A l m -> good_options (a_opts c) -> a_blocks c = [] -> a_space c = 0 ->
  Inv A (l ++ [Some c]) m.
Proof.
  intros [H1 H2 H3 H4 H5 H6] G Eb Es. constructor; auto.
  - destruct H1 as (L & E & P). exists L. split; auto. unfold all_blocks. rewrite flat_map_app. simpl.
    rewrite Eb. simpl. now rewrite app_nil_r.
  - intros i a Hi. apply nth_error_snoc in Hi as [[-> Ei]|Hi]; eauto.
    inv Ei. destruct (H4 (length l)) as [Q1 Q2]; [rewrite nth_error_length_none; congruence|].
    exists []. constructor; auto; rewrite ?Eb; simpl; auto.
  - intros i Hi. apply H4. intros a Ha. eapply Hi. rewrite nth_error_app1; eauto.
    apply nth_error_Some. congruence.
  - intros i p n Hr. destruct (H5 i p n Hr) as (? & a & b & Ha & Hb). split; auto. exists a, b. split; auto.
    rewrite nth_error_app1; auto. apply nth_error_Some. congruence.
Qed.

Lemma construct_ok l m o : Inv A l m -> good_options o ->
  let '(a, m') := construct e (length l) o m in
  Inv A (l ++ [Some a]) m' /\ a_opts a = o /\ a_blocks a = [] /\ a_space a = 0 /\
  m_hist m' = CNew (length l) :: hook_part (o_on_init o) (HInit (length l) (a_cookie a)) ++ m_hist m.
Proof.
  intros HI G. unfold construct, hook_part. destruct (o_on_init o); simpl.
  - split; auto. apply Inv_new; auto. apply Inv_quiet; [exact I|]. apply Inv_quiet; [exact I|]. auto.
  - split; auto. apply Inv_new; auto. apply Inv_quiet; [exact I|]. auto.
Qed.

Lemma move_ok l m i a : Inv A l m -> nth_error l i = Some (Some a) ->
  let '(b, old) := move_construct a in
  Inv A (upd i (Some old) l ++ [Some b]) (emit m (CMove i (length l))).
Proof.
  intros HI Hi. unfold move_construct.
  set (old := {| a_opts := a_opts a; a_blocks := []; a_resource := None; a_cookie := 0; a_space := 0 |}).
  pose proof HI as [H1 H2 H3 H4 H5 H6].
  assert (Li : (i < length l)%nat) by (apply nth_error_Some; congruence).
  assert (Hnew : forall j y, nth_error (upd i (Some old) l ++ [Some a]) j = Some y ->
            (j = length l /\ y = Some a) \/ (j = i /\ y = Some old) \/ (j <> i /\ (j < length l)%nat /\ nth_error l j = Some y)).
  { intros j y Hj. apply nth_error_snoc in Hj as [[-> ->]|Hj].
    - left. now rewrite length_upd.
    - destruct (Nat.eq_dec i j) as [<-|NE].
      + erewrite nth_error_upd_eq in Hj by eauto. inv Hj. auto.
      + rewrite nth_error_upd_ne in Hj by auto. right. right. split; auto. split; auto.
        apply nth_error_Some. congruence. }
  assert (Hback : forall j c, j <> i -> nth_error l j = Some (Some c) ->
            nth_error (upd i (Some old) l ++ [Some a]) j = Some (Some c)).
  { intros j c NE Hj. rewrite nth_error_app1; [rewrite nth_error_upd_ne by auto; auto|].
    rewrite length_upd. apply nth_error_Some. congruence. }
  assert (Hlast : nth_error (upd i (Some old) l ++ [Some a]) (length l) = Some (Some a)).
  { rewrite nth_error_app2; rewrite length_upd; auto. now rewrite Nat.sub_diag. }
  destruct (all_blocks_split l i a Hi) as (X & Y & EX & EU & _).
  assert (EB : Permutation (all_blocks l) (all_blocks (upd i (Some old) l ++ [Some a]))).
  { unfold all_blocks at 2. rewrite flat_map_app. fold (all_blocks (upd i (Some old) l)). rewrite EU, EX. simpl.
    rewrite app_nil_r. rewrite <- app_assoc. apply Permutation_app_head. apply Permutation_app_comm. }
  constructor.
  - destruct H1 as (L & E & P). exists L. split; [simpl; now rewrite E|]. rewrite P. now apply Permutation_map.
  - unfold live_blocks_list in *. simpl. destruct (live_blocks (m_hist m)); auto.
  - intros j c Hj. apply Hnew in Hj as [[-> Ec]|[[-> Ec]|(NE & Lj & Hj)]].
    + inv Ec. destruct (H3 i a Hi) as (nss & [P1 P2 P3 P4 P5]). exists nss. constructor; auto.
      * simpl. now rewrite Nat.eqb_refl. * simpl. now rewrite Nat.eqb_refl.
    + inv Ec. destruct (H3 i a Hi) as (nss & [P1 P2 P3 P4 P5]). exists []. constructor; auto.
      * constructor.
      * simpl. destruct (Nat.eqb_spec (length l) i); [lia|]. now rewrite Nat.eqb_refl.
      * simpl. destruct (Nat.eqb_spec (length l) i); [lia|]. now rewrite Nat.eqb_refl.
    + destruct (H3 j c Hj) as (nss & [P1 P2 P3 P4 P5]). exists nss. constructor; auto; simpl;
      (destruct (Nat.eqb_spec (length l) j); [lia|]); (destruct (Nat.eqb_spec i j); [congruence|]); auto.
  - intros j Hj. simpl. destruct (Nat.eqb_spec (length l) j) as [<-|N1]; [exfalso; eapply Hj; eauto|].
    destruct (Nat.eqb_spec i j) as [<-|N2]; auto.
    apply H4. intros c Hc. eapply Hj. eapply Hback; eauto.
  - intros j p n Hr. simpl in Hr. apply in_map_iff in Hr as ([[k q] n'] & Ex & Hr). simpl in Ex.
    destruct (H5 k q n' Hr) as (? & c & b & Hc & Hb & Hu).
    destruct (Nat.eqb_spec k i) as [->|NE]; inv Ex.
    + split; auto. rewrite Hi in Hc. inv Hc. exists c, b. auto.
    + split; auto. exists c, b. auto.
  - simpl. eapply pairwise_map; [|exact H6].
    intros [[x1 x2] x3] [[y1 y2] y3] Hxy. unfold rng_apart in *. simpl in *.
    destruct (x1 =? i)%nat, (y1 =? i)%nat; simpl; auto.
Qed.

Lemma space_blocks l m i a : Inv A l m -> nth_error l i = Some (Some a) ->
  (0 < a_space a <-> a_blocks a <> []).
Proof.
  intros HI Hi. destruct (I_arena _ _ _ HI i a Hi) as (nss & [P1 P2 P3 P4 P5]). rewrite P4.
  destruct P2 as [|b ns l0 nss0 HB HF]; simpl; [split; [lia|congruence]|]. split; [congruence|]. intros _.
  pose proof (total_unused_bound _ _ _ _ HF). destruct HB. lia.
Qed.

Lemma step_ok s o : Inv A (s_arenas s) (s_mem s) -> permitted A s o ->
  exists s' r, step e s o = Ok (s', r) /\ Inv A (s_arenas s') (s_mem s').
Proof.
  intros HI HP. destruct o as [o|i o|i|i|i].
  - simpl in *. pose proof (construct_ok _ _ o HI HP) as HC.
    destruct (construct e (length (s_arenas s)) o (s_mem s)) as [a m]. eexists _, _. split; [reflexivity|]. apply HC.
  - simpl in *. destruct HP as (H1 & H2 & H3).
    destruct (exec_ok e A HA HG o i s HI H1 H2 H3) as (s' & r & E & (HI' & _) & _). eauto.
  - destruct HP as (a & Hi & Hs). simpl. unfold on_arena. rewrite (get_arena_ok s i a Hi). cbn [bind].
    apply (space_blocks _ _ _ _ HI Hi) in Hs. destruct (list_snoc _ Hs) as (front & b & Eb).
    destruct (Reset_ok e A _ _ i a front b HI Hi Eb) as (a' & m' & evs & E & HI' & _).
    rewrite E. cbn [bind]. eexists _, _. split; [reflexivity|]. exact HI'.
  - destruct HP as (a & Hi). simpl. rewrite (get_arena_ok s i a Hi). cbn [bind].
    pose proof (move_ok _ _ i a HI Hi) as HM. unfold move_construct in *.
    eexists _, _. split; [reflexivity|]. exact HM.
  - destruct HP as (a & Hi). simpl. rewrite (get_arena_ok s i a Hi). cbn [bind].
    destruct (destroy_ok e A _ _ i a HI Hi) as (m' & evs & E & HI' & _). rewrite E. cbn [bind].
    eexists _, _. split; [reflexivity|]. exact HI'.
Qed.

Lemma reach_inv s : reach e A s -> Inv A (s_arenas s) (s_mem s).
Proof.
  induction 1 as [|s o s' r HR IH HP HS]; [apply Inv_init|].
  destruct (step_ok s o IH HP) as (s2 & r2 & E & HI). rewrite HS in E. inv E. auto.
Qed.
End Steps.
