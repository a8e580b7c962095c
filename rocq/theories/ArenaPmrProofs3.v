Require Import ZArith List Bool Lia.
From Verif Require Import Base BaseProofs ArenaModel ArenaProofs ArenaProofs4 ArenaPmrModel ArenaPmrSpec ArenaPmrProofs ArenaPmrProofs2.
Import ListNotations.
Open Scope Z_scope.

Lemma born_fun s i a b : born s i a -> born s i b -> a = b.
Proof.
  intros H. revert b. induction H as [i o E M|i o j a E M _ IH]; intros b K; inversion K; subst;
    match goal with Q : nth_error _ _ = Some ?o', P : nth_error _ _ = Some ?o |- _ => rewrite P in Q; inversion Q; subst end; try congruence.
  apply IH. congruence.
Qed.

Definition keeps (s s' : pmr) : Prop := forall i o, nth_error (p_objs s) i = Some o ->
  exists o', nth_error (p_objs s') i = Some o' /\ o_addr o' = o_addr o /\ o_moved_from o' = o_moved_from o.

Lemma born_keeps s s' i a : keeps s s' -> born s i a -> born s' i a.
Proof.
  intros HK. induction 1 as [i o E M|i o j a E M _ IH]; destruct (HK _ _ E) as (o' & E' & A & B).
  - rewrite <- A. apply born_here; congruence.
  - eapply born_moved; eauto. congruence.
Qed.

Lemma upd_keeps {i x} {l : list obj} {r o} : nth_error l i = Some o -> o_addr x = o_addr o -> o_moved_from x = o_moved_from o ->
  forall j y, nth_error l j = Some y -> exists y', nth_error (upd i x l ++ r) j = Some y' /\ o_addr y' = o_addr y /\ o_moved_from y' = o_moved_from y.
Proof.
  intros E A B j y K. destruct (Nat.eq_dec j i) as [->|N].
  - exists x. split; [apply nth_app_old; eapply nth_error_upd_eq; eauto|]. rewrite E in K. inversion K; subst. auto.
  - exists y. split; auto. apply nth_app_old. rewrite nth_error_upd_ne; auto.
Qed.

Lemma pstep_keeps s o s' : pstep s o = Ok s' -> keeps s s'.
Proof.
  destruct o as [addr ok|i addr|i]; simpl; intros H.
  - inv H. intros j y K. exists y. split; auto. simpl. now apply nth_app_old.
  - unfold p_move, get_obj in H. destruct (nth_error (p_objs s) i) as [o|] eqn:E; [|discriminate]. destruct (o_alive o); [|discriminate].
    cbn [bind] in H. inv H. intros j y K. simpl. eapply (upd_keeps E); auto.
  - unfold p_destroy, get_obj in H. destruct (nth_error (p_objs s) i) as [o|] eqn:E; [|discriminate]. destruct (o_alive o); [|discriminate].
    cbn [bind] in H. destruct (p_delete (p_res s) (o_res o)) as [l| |]; try discriminate. cbn [bind] in H. inv H.
    intros j y K. simpl. rewrite <- (app_nil_r (upd i _ _)). eapply (upd_keeps E); auto.
Qed.

Lemma pstep_res s o s' k x' : preach s -> allowed s o -> pstep s o = Ok s' -> nth_error (p_res s') k = Some x' ->
  (exists x, nth_error (p_res s) k = Some x /\ r_arena x' = r_arena x) \/
  (exists addr, o = PNew addr true /\ k = length (p_res s) /\ r_arena x' = addr).
Proof.
  intros HR HA H K. destruct o as [addr ok|i addr|i]; simpl in H.
  - inv H. simpl in K. destruct ok; [|rewrite app_nil_r in K; eauto].
    apply nth_error_snoc in K as [[-> ->]|K]; eauto.
  - destruct HA as [(a & r & HS) _]. destruct (move_stands _ _ _ _ _ _ HS H) as (E & _). rewrite E in K. eauto.
  - destruct HA as (a & r & HS). destruct (destroy_ok s i a r (preach_pinv s HR) HS) as (s2 & E & _ & _ & ER & EL).
    rewrite H in E. inv E. destruct (nth_error (p_res s) k) as [x|] eqn:Q.
    + destruct (ER k x Q) as (x2 & X1 & X2 & _). rewrite K in X1. inv X1. eauto.
    + apply nth_error_None in Q. assert (k < length (p_res s2))%nat by (apply nth_error_Some; congruence). lia.
Qed.

Lemma origin_inv s i a k x : preach s -> stands s i a (Some k) -> nth_error (p_res s) k = Some x -> born s i (r_arena x).
Proof.
  intros HR. revert i a k x. induction HR as [|s o s' HR IH HA HS]; intros i a k x H K.
  - destruct H as (? & H & _). destruct i; discriminate.
  - pose proof (pstep_keeps _ _ _ HS) as HK. pose proof (preach_pinv s HR) as HI.
    assert (OLD : forall j b, stands s j b (Some k) -> born s' j (r_arena x)).
    { intros j b S0. destruct (pstep_res s o s' k x HR HA HS K) as [(y & Y1 & Y2)|(addr & _ & Y1 & _)].
      - rewrite Y2. eapply born_keeps; eauto.
      - destruct (pi_live s HI _ _ _ S0) as (y & Y2 & _). assert (k < length (p_res s))%nat by (apply nth_error_Some; congruence). lia. }
    destruct o as [addr ok|j addr|j].
    + simpl in HS. inv HS. apply new_stands in H as [H|(-> & -> & H)]; eauto.
      destruct ok; [|discriminate]. inv H. simpl in K. rewrite nth_app_one in K. inv K. simpl.
      refine (born_here (p_new s addr true) _ {| o_addr := addr; o_alive := true; o_res := Some (length (p_res s)); o_moved_from := None |} _ eq_refl).
      simpl. apply nth_app_one.
    + simpl in HS. destruct HA as [(b & r & HS0) _]. destruct (move_stands _ _ _ _ _ _ HS0 HS) as (_ & EI & _).
      apply EI in H as [[_ H]|[(_ & _ & H)|(-> & -> & <-)]]; eauto; [discriminate|].
      destruct (get_stands _ _ _ _ HS0) as (y & _ & G & _). unfold p_move in HS. rewrite G in HS. cbn [bind] in HS.
      pose proof (OLD _ _ HS0) as HB. inv HS.
      eapply born_moved; [simpl; rewrite nth_error_app2 by (rewrite length_upd; lia); rewrite length_upd, Nat.sub_diag; reflexivity|reflexivity|exact HB].
    + simpl in HS. destruct HA as (b & r & HS0). destruct (destroy_ok s j b r HI HS0) as (s2 & E & _ & EI & _).
      rewrite HS in E. inv E. apply EI in H as [_ H]. eauto.
Qed.

Lemma origin_p s i a k b : preach s -> stands s i a (Some k) -> (get_arena_of s (HArena k) = Ok (Some b) <-> born s i b).
Proof.
  intros HR HS. destruct (pi_live s (preach_pinv s HR) _ _ _ HS) as (x & E & D).
  pose proof (origin_inv s i a k x HR HS E) as B. simpl. rewrite E, D. split.
  - intros H. inv H. exact B.
  - intros H. now rewrite (born_fun _ _ _ _ B H).
Qed.

Lemma equal_origin_p s i a k j b q : preach s -> stands s i a (Some k) -> stands s j b (Some q) ->
  exists v, do_is_equal s (HArena k) (HArena q) = Ok v /\ (v = true <-> exists c, born s i c /\ born s j c).
Proof.
  intros HR Hi Hj. destruct (get_res_p true s i a k HR Hi) as (_ & c & E). destruct (get_res_p true s j b q HR Hj) as (_ & d & F).
  pose proof (proj1 (origin_p s i a k c HR Hi) E) as B. pose proof (proj1 (origin_p s j b q d HR Hj) F) as B'.
  unfold do_is_equal. rewrite E, F. cbn [bind]. eexists. split; [reflexivity|]. rewrite Z.eqb_eq. split.
  - intros <-. eauto.
  - intros (z & Z1 & Z2). rewrite (born_fun _ _ _ _ B Z1), (born_fun _ _ _ _ B' Z2). reflexivity.
Qed.
