(** The model stops where an operation called by a cleanup reads a block that
    was given back, and only there. *)
Require Import ZArith List Bool Lia Arith.
From Verif Require Import Base ArenaSpec ArenaModel ArenaReentModel ArenaReentSpec.
Import ListNotations.
Open Scope Z_scope.

Lemma header_live_iff m i b : header_live m i b = true <-> In (b_addr b, b_size b) (held (m_hist m) i).
Proof.
  unfold header_live. rewrite existsb_exists. split.
  - intros ([x y] & H & E). apply andb_prop in E. destruct E as [E1 E2]. simpl in *.
    apply Z.eqb_eq in E1, E2. now subst.
  - intros H. exists (b_addr b, b_size b). simpl. now rewrite !Z.eqb_refl.
Qed.
Lemma header_dead s i b : header_live (s_mem s) i b = false <-> stale s i b.
Proof. unfold stale. rewrite <- header_live_iff. destruct (header_live _ _ _); split; congruence. Qed.

Lemma last_dead s j : last_live s j = false <-> stale_last s j.
Proof.
  unfold last_live, stale_last. split.
  - destruct (nth_error (s_arenas s) j) as [[a|]|] eqn:E; try discriminate.
    destruct (a_blocks a) as [|b r] eqn:Eb; try discriminate. intros H. exists a, b, r. repeat split; auto. now apply header_dead.
  - intros (a & b & r & -> & -> & H). now apply header_dead.
Qed.
Lemma walk_dead s s' j : walk_live s s' j = false <-> stale_walk s s' j.
Proof.
  unfold walk_live, stale_walk. split.
  - destruct (nth_error (s_arenas s) j) as [[a|]|] eqn:E; try discriminate.
    destruct (nth_error (s_arenas s') j) as [[a'|]|] eqn:E'; try discriminate.
    destruct (o_on_newblock (a_opts a)) eqn:EO; try discriminate. simpl.
    destruct (Nat.ltb_spec (length (a_blocks a)) (length (a_blocks a'))); try discriminate.
    intros HF. assert (X : exists b, In b (a_blocks a) /\ header_live (s_mem s) j b = false).
    { clear - HF. induction (a_blocks a) as [|b r IH]; simpl in HF; try discriminate.
      apply andb_false_iff in HF. destruct HF as [HF|HF]; [exists b; simpl; auto|].
      destruct (IH HF) as (c & HI & HC). exists c. simpl; auto. }
    destruct X as (b & Hb & HD). exists a, a', b. repeat split; auto. now apply header_dead.
  - intros (a & a' & b & -> & -> & -> & HL & Hb & HD). simpl. apply Nat.ltb_lt in HL. rewrite HL.
    apply header_dead in HD. destruct (forallb _ _) eqn:EF; auto. rewrite forallb_forall in EF. specialize (EF b Hb). congruence.
Qed.

Lemma through_uses s i a j : nth_error (s_arenas s) i = Some (Some a) -> a_resource a = Some j ->
  forall o, through_resource o = true -> uses s i o j.
Proof.
  intros Hi Hr. fix IH 1. intros [n al|n fn el|sz ty d body|sz n ty|ob fn|n al]; try discriminate.
  - simpl. intros H. cut (exists o, In o body /\ uses s i o j).
    { intros (o & HI & HU). eapply uses_in_constructor; eauto. }
    revert H. induction body as [|x r IHr]; try discriminate. intros H. apply orb_prop in H. destruct H as [H|H].
    + exists x. split; [left; reflexivity|apply IH, H].
    + destruct (IHr H) as (o & HI & HU). exists o. split; [right; exact HI|exact HU].
  - intros _. eapply uses_of_resource; eauto.
Qed.
Lemma body_through o body : In o body -> through_resource o = true -> forall sz ty d, through_resource (OCreate sz ty d body) = true.
Proof.
  intros HI HO sz ty d. simpl. induction body as [|x r IHr]; [destruct HI|]. destruct HI as [->|HI]; [now rewrite HO|].
  rewrite (IHr HI). now destruct (through_resource x).
Qed.
Lemma uses_through s i o j : uses s i o j -> j = i \/ (through_resource o = true /\ In j (resource_of s i)).
Proof.
  induction 1 as [| |sz ty d body o j HI HU IH]; auto.
  - right. split; auto. unfold resource_of. rewrite H, H0. simpl; auto.
  - destruct IH as [->|[HT HJ]]; auto. right. split; auto. eapply body_through; eauto.
Qed.

Lemma used_arenas_iff s i o j : In j (used_arenas s i o) <-> uses s i o j.
Proof.
  assert (R : In j (resource_of s i) -> exists a, nth_error (s_arenas s) i = Some (Some a) /\ a_resource a = Some j).
  { unfold resource_of. destruct (nth_error (s_arenas s) i) as [[a|]|]; simpl; try tauto.
    destruct (a_resource a) eqn:Er; simpl; try tauto. intros [->|[]]. eauto. }
  split.
  - assert (O : forall o, (forall n al, o <> OResource n al) -> uses s i o i) by (intros; now apply uses_own).
    destruct o as [n al|n fn el|sz ty d body|sz n ty|ob fn|n al]; unfold used_arenas; try (intros [<-|[]]; apply O; discriminate).
    + intros [<-|H]; [apply O; discriminate|]. destruct (through_resource (OCreate sz ty d body)) eqn:ET; [|destruct H].
      destruct (R H) as (a & Ha & Hr). eapply through_uses; eauto.
    + intros H. destruct (R H) as (a & Ha & Hr). eapply uses_of_resource; eauto.
  - intros H. destruct H as [o N|n al j a Ha Hr|sz ty d body o j HI HU].
    + destruct o; simpl; auto. now destruct (N bytes alignment).
    + simpl. unfold resource_of. rewrite Ha, Hr. simpl; auto.
    + apply uses_in_constructor with (sz := sz) (ty := ty) (d := d) (body := body) in HU; auto.
      apply uses_through in HU. destruct HU as [->|[HT HJ]]; unfold used_arenas; [left; reflexivity|].
      rewrite HT. right. exact HJ.
Qed.

Lemma forallb_false {X} (f : X -> bool) l : forallb f l = false <-> exists x, In x l /\ f x = false.
Proof.
  split.
  - induction l as [|y r IH]; simpl; try discriminate. intros H. apply andb_false_iff in H.
    destruct H as [H|H]; [eauto|]. destruct (IH H) as (x & HI & HF). eauto.
  - intros (x & HI & HF). destruct (forallb f l) eqn:E; auto. rewrite forallb_forall in E. specialize (E x HI). congruence.
Qed.

Section E.
Variable e : env.
Lemma exec_live_stale o i s : (exists j, uses s i o j /\ stale_last s j) -> exec_live e o i s = Undef.
Proof.
  intros (j & HU & HS). unfold exec_live. replace (forallb (last_live s) (used_arenas s i o)) with false; auto.
  symmetry. apply forallb_false. exists j. split; [now apply used_arenas_iff|now apply last_dead].
Qed.
Lemma exec_live_walk o i s s' r : exec e o i s = Ok (s', r) -> (exists j, uses s i o j /\ stale_walk s s' j) -> exec_live e o i s = Undef.
Proof.
  intros HE (j & HU & HS). unfold exec_live. destruct (negb _); auto. rewrite HE. simpl.
  replace (forallb (walk_live s s') (used_arenas s i o)) with false; auto.
  symmetry. apply forallb_false. exists j. split; [now apply used_arenas_iff|now apply walk_dead].
Qed.
Lemma exec_live_fresh o i s : (forall j, uses s i o j -> ~ stale_last s j) ->
  (forall s' r, exec e o i s = Ok (s', r) -> forall j, uses s i o j -> ~ stale_walk s s' j) ->
  exec_live e o i s = (do (s', _) <- exec e o i s; Ok s').
Proof.
  intros H1 H2. unfold exec_live. replace (forallb (last_live s) (used_arenas s i o)) with true.
  - simpl. destruct (exec e o i s) as [[s' r]| |]; auto. simpl. specialize (H2 s' r eq_refl).
    replace (forallb (walk_live s s') (used_arenas s i o)) with true; auto.
    symmetry. apply forallb_forall. intros j Hj. apply used_arenas_iff in Hj. specialize (H2 j Hj).
    rewrite <- walk_dead in H2. now destruct (walk_live s s' j).
  - symmetry. apply forallb_forall. intros j Hj. apply used_arenas_iff in Hj. specialize (H1 j Hj).
    rewrite <- last_dead in H1. now destruct (last_live s j).
Qed.
End E.
