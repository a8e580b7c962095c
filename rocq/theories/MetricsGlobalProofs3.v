Require Import ZArith List Bool Lia.
From Verif Require Import Base ArenaSpec MetricsSpec MetricsModel MetricsGlobalModel.
Import ListNotations.
Open Scope Z_scope.

(** * When things go wrong *)
Lemma has_key_spec k l : has_key k l = true <-> In k l.
Proof.
  unfold has_key. rewrite existsb_exists. split.
  - intros (x & Hx & E). apply Z.eqb_eq in E. now subst.
  - intros H. exists k. split; auto. apply Z.eqb_refl.
Qed.

Lemma has_key_not k l : has_key k l = false <-> ~ In k l.
Proof. rewrite <- has_key_spec. destruct (has_key k l); split; congruence. Qed.

Lemma inserting_spec s : inserting s = true <->
  exists u k r, In u (m_threads s) /\ t_inside u = true /\ t_todo u = Some (CLoc k :: r) /\ ~ In k (g_keys s).
Proof.
  unfold inserting. rewrite existsb_exists. split.
  - intros (u & Hu & E). destruct u as [l [[|[] q]|] []]; simpl in E; try discriminate.
    apply negb_true_iff, has_key_not in E. eexists _, _, _. split; [exact Hu|]. simpl. eauto.
  - intros (u & k & r & Hu & Hi & Ht & Hk). exists u. split; auto. destruct u as [l td i]. simpl in *. subst.
    simpl. apply negb_true_iff, has_key_not. exact Hk.
Qed.

Lemma grace_only s a : gstep s a = GRace <->
  (exists b, a = GThread b /\ mstep (gs s) b = Race) \/
  (exists t x k r y, a = GThread (AEnter t) /\ nth_error (m_threads (gs s)) t = Some x /\ t_inside x = false /\
     t_todo x = Some (CLoc k :: r) /\ ~ In k (g_keys (gs s)) /\ In y (jobs s) /\ j_inside y = true) \/
  (exists j y q u k r, a = GJob j /\ nth_error (jobs s) j = Some y /\ (j_todo y = JShowAll :: q \/ j_todo y = JStoreAll :: q) /\
     In u (m_threads (gs s)) /\ t_inside u = true /\ t_todo u = Some (CLoc k :: r) /\ ~ In k (g_keys (gs s))).
Proof.
  split.
  - intros H. destruct a as [b| | |j]; try discriminate.
    + cbn [gstep] in H.
      destruct (match b with AEnter t => _ | _ => _ end) eqn:ER in H.
      * destruct b; try discriminate. right; left. unfold entering in ER.
        destruct (nth_error (m_threads (gs s)) t) as [[l [[|[] q]|] []]|] eqn:Et; try discriminate.
        apply andb_prop in ER as [E1 E2]. apply negb_true_iff, has_key_not in E1. apply existsb_exists in E2 as (y & Hy & Ey).
        eexists t, _, _, _, y. split; [reflexivity|]. split; [exact Et|]. simpl. eauto 8.
      * left. exists b. split; auto. destruct (mstep (gs s) b); congruence.
    + right; right. cbn [gstep] in H. destruct (nth_error (jobs s) j) as [[[|st q] n out i]|] eqn:Ej; try discriminate.
      destruct st; try discriminate; try (destruct (_ =? 0); discriminate).
      all: destruct (inserting (gs s)) eqn:E; [|discriminate].
      all: apply inserting_spec in E as (u & k & r & E1 & E2 & E3 & E4).
      all: eexists j, _, q, u, k, r; split; [reflexivity|]; split; [exact Ej|]; simpl; auto 8.
  - intros [(b & -> & H)|[(t & x & k & r & y & -> & Ht & Hi & Hd & Hk & Hy & Hy1)|(j & y & q & u & k & r & -> & Hj & Hd & Hu & Hi & Ht & Hk)]].
    + cbn [gstep]. rewrite H. destruct (match b with AEnter t => _ | _ => _ end); reflexivity.
    + cbn [gstep]. unfold entering. rewrite Ht. destruct x as [l td i]. simpl in Hi, Hd. subst.
      rewrite (proj2 (has_key_not k _) Hk). cbn [negb andb].
      rewrite (proj2 (existsb_exists j_inside (jobs s))) by eauto. reflexivity.
    + assert (E : inserting (gs s) = true) by (apply inserting_spec; eauto 8).
      cbn [gstep]. rewrite Hj. destruct y as [td n out i]. simpl in Hd. destruct Hd as [-> | ->]; rewrite E; reflexivity.
Qed.

Lemma gfault_only s a : gstep s a = GFault <->
  exists j y l c q, a = GJob j /\ nth_error (jobs s) j = Some y /\ j_todo y = JPercent l c :: q /\ g_ctr (gs s) c = 0.
Proof.
  split.
  - intros H. destruct a as [b| | |j]; try discriminate.
    + cbn [gstep] in H. destruct (match b with AEnter t => _ | _ => _ end); [discriminate|]. destruct (mstep (gs s) b); discriminate.
    + cbn [gstep] in H. destruct (nth_error (jobs s) j) as [[[|st q] n out i]|] eqn:Ej; try discriminate.
      destruct st; try discriminate; try (destruct (inserting (gs s)); discriminate).
      destruct (Z.eqb_spec (g_ctr (gs s) c) 0); [|discriminate]. eexists j, _, l, c, q. split; [reflexivity|]. split; [exact Ej|]. auto.
  - intros (j & y & l & c & q & -> & Hj & Hd & Hz). cbn [gstep]. rewrite Hj. destruct y as [td n out i]. simpl in Hd. subst.
    rewrite Hz. reflexivity.
Qed.
