Require Import ZArith List Bool Lia.
From Verif Require Import Base BaseProofs ArenaSpec ArenaModel ArenaStatements
  ArenaProofs ArenaProofs2 ArenaProofs3 ArenaProofs4 ArenaProofs5 ArenaProofs6 ArenaProofs7 PropArena
  ArenaTypeModel ArenaTypeSpec.
Import ListNotations.
Open Scope Z_scope.

(** ** Traits *)
Lemma tag_seen_spec tag : forall T, tag_seen tag T = true <-> tagged tag T.
Proof.
  fix IH 1. intros [x b ms]. cbn [tag_seen]. destruct (tag x) as [[|]|] eqn:E.
  - split; auto. intros _. now apply tg_own.
  - split; [discriminate|]. intros H. inversion H; congruence.
  - destruct b as [[[|] B]|].
    + rewrite (IH B). split; intros H; [now apply tg_base|]. inversion H; subst; [congruence|auto].
    + split; [discriminate|]. intros H. inversion H; congruence.
    + split; [discriminate|]. intros H. inversion H; congruence.
Qed.

Lemma trivial_spec : forall T, trivially_destructible T = false <-> has_destructor T.
Proof.
  fix IH 1. intros [x b ms]. cbn [trivially_destructible].
  assert (HM : (fix all (l : list ctype) : bool := match l with [] => true | M :: l => trivially_destructible M && all l end) ms = false
               <-> exists M, In M ms /\ has_destructor M).
  { induction ms as [|M ms IHm].
    - split; [discriminate|intros (M & [] & _)].
    - rewrite andb_false_iff, (IH M), IHm. split.
      + intros [H|(N & H1 & H2)]; [exists M|exists N]; simpl; auto.
      + intros (N & [->|H1] & H2); eauto. }
  assert (HB : match b with Some (_, B) => trivially_destructible B | None => true end = false
               <-> exists ac B, b = Some (ac, B) /\ has_destructor B).
  { destruct b as [[ac B]|].
    - rewrite (IH B). split; [eauto|]. intros (ac' & B' & E & H). injection E as _ <-. exact H.
    - split; [discriminate|]. intros (ac & B & E & _). discriminate. }
  rewrite !andb_false_iff, HM, HB, negb_false_iff. split.
  - intros [[H|(ac & B & -> & H)]|(M & H1 & H2)]; [now apply hd_own|now apply hd_base|now apply hd_member with M].
  - intros H. inversion H; subst; eauto 6.
Qed.

Lemma skippable_spec T : is_destructor_skippable T = false <-> has_destructor T /\ ~ tagged i_skip T.
Proof.
  unfold is_destructor_skippable. rewrite orb_false_iff, trivial_spec, <- tag_seen_spec, not_true_iff_false. tauto.
Qed.

Section S.
Variable e : env.
Variable A : Z.
Hypothesis HA : block_alignment A.
Hypothesis HG : good_block_alloc A (e_alloc e).

Lemma frame_length l l' : frame l l' -> (length l <= length l')%nat.
Proof.
  intros F. destruct (Nat.le_gt_cases (length l) (length l')) as [|L]; auto. exfalso.
  specialize (F (length l')). unfold cfg_rel in F. rewrite (proj2 (nth_error_None l' _)) in F by lia.
  destruct (nth_error l (length l')) as [[a|]|] eqn:E; auto. apply nth_error_None in E. lia.
Qed.

(** One step: the objects' home exists and keeps its registrations. *)
Lemma step_carries s o s' r j k : reach e A s -> permitted A s o -> step e s o = Ok (s', r) -> next_home s j o = Some k ->
  (j < length (s_arenas s))%nat ->
  (k < length (s_arenas s'))%nat /\ exists l, pending (m_hist (s_mem s')) k = l ++ pending (m_hist (s_mem s)) j.
Proof.
  intros HR HP HS HN Hj. destruct o as [op|i o|i|i|i]; cbn [next_home] in HN.
  - injection HN as <-. cbn [step] in HS. unfold construct in HS.
    destruct (o_on_init op); cbn [emit m_hist] in HS; inversion HS; subst; cbn [s_arenas s_mem emit m_hist];
      rewrite app_length; (split; [simpl; lia|]); exists []; reflexivity.
  - injection HN as <-. destruct (P_op_post e A HA HG s i o s' r HR HP HS) as (_ & F & X).
    split; [pose proof (frame_length _ _ F); lia|]. now apply pending_ext.
  - destruct (i =? j)%nat eqn:E; [discriminate|]. injection HN as <-. apply Nat.eqb_neq in E.
    destruct (C07_reset_runs_pending e A HA HG s i s' r HR HP HS) as (evs & _ & _ & _ & O).
    split; [|exists []; simpl; apply O; auto].
    cbn [step] in HS. unfold on_arena in HS. destruct (get_arena s i) as [a| |]; cbn [bind] in HS; try discriminate.
    destruct (Reset e i a (s_mem s)) as [[[a' m'] y]| |]; cbn [bind] in HS; try discriminate.
    inversion HS; subst. unfold put; cbn [s_arenas]. rewrite length_upd. exact Hj.
  - destruct (P_move e A s i s' r HR HP HS) as (a & old & H1 & _ & H2 & _ & _ & _ & _ & Hh & _ & _ & Hp & _).
    assert (L' : (length (s_arenas s) < length (s_arenas s'))%nat) by (apply nth_error_Some; congruence).
    destruct (i =? j)%nat eqn:E; injection HN as <-.
    + apply Nat.eqb_eq in E. subst j. split; [exact L'|]. exists []. exact Hp.
    + split; [lia|]. exists []. rewrite Hh. cbn [pending].
      destruct (length (s_arenas s) =? j)%nat eqn:E2; [apply Nat.eqb_eq in E2; lia|]. now rewrite E.
  - destruct (i =? j)%nat eqn:E; [discriminate|]. injection HN as <-. apply Nat.eqb_neq in E.
    destruct (C07_destroy_runs_pending e A HA HG s i s' r HR HP HS) as (evs & _ & _ & _ & O).
    destruct (P_destroy e A HA HG s i s' r HR HP HS) as (a & evs' & _ & Ha & _).
    split; [rewrite Ha, length_upd; exact Hj|]. exists []; simpl; apply O; auto.
Qed.

Lemma carried_pending s i s' k : reach e A s -> (i < length (s_arenas s))%nat -> carried e A s i s' k ->
  reach e A s' /\ (k < length (s_arenas s'))%nat /\
  exists l, pending (m_hist (s_mem s')) k = l ++ pending (m_hist (s_mem s)) i.
Proof.
  intros HR Hi H. induction H as [|s1 j o s2 r k H (HR1 & Hj & l & IH) HP HS HN]; [split; auto; split; auto; exists []; auto|].
  destruct (step_carries s1 o s2 r j k HR1 HP HS HN Hj) as (Hk & l' & E).
  split; [eapply reach_step; eauto|]. split; auto. exists (l' ++ l). now rewrite E, IH, app_assoc.
Qed.

Lemma ends_runs s i o s' r : reach e A s -> permitted A s o -> ends i o -> step e s o = Ok (s', r) ->
  exists evs, m_hist (s_mem s') = evs ++ m_hist (s_mem s) /\
    cleanups_run evs = pending (m_hist (s_mem s)) i /\ pending (m_hist (s_mem s')) i = [].
Proof.
  intros HR HP [->| ->] HS.
  - destruct (C07_reset_runs_pending e A HA HG s i s' r HR HP HS) as (evs & H1 & H2 & H3 & _). eauto.
  - destruct (C07_destroy_runs_pending e A HA HG s i s' r HR HP HS) as (evs & H1 & H2 & H3 & _). eauto.
Qed.

(** A registration is kept until its arena is reset or destroyed, and is run then. *)
Lemma registered_runs s i x rest s1 k o s2 r : reach e A s -> (i < length (s_arenas s))%nat ->
  pending (m_hist (s_mem s)) i = x :: rest -> carried e A s i s1 k ->
  permitted A s1 o -> ends k o -> step e s1 o = Ok (s2, r) ->
  exists evs newer, m_hist (s_mem s2) = evs ++ m_hist (s_mem s1) /\
    cleanups_run evs = newer ++ x :: rest /\ pending (m_hist (s_mem s2)) k = [].
Proof.
  intros HR Hi Hp HC HP HE HS. destruct (carried_pending s i s1 k HR Hi HC) as (HR1 & _ & l & E).
  destruct (ends_runs s1 k o s2 r HR1 HP HE HS) as (evs & H1 & H2 & H3). exists evs, l. rewrite H2, E, Hp. auto.
Qed.

Lemma op_alive s i o s' r : reach e A s -> permitted A s (SOp i o) -> step e s (SOp i o) = Ok (s', r) ->
  (i < length (s_arenas s'))%nat.
Proof.
  intros HR HP HS. destruct (P_op_post e A HA HG s i o s' r HR HP HS) as (_ & F & _). destruct HP as ((a & Ha) & _).
  pose proof (frame_length _ _ F). assert (i < length (s_arenas s))%nat by (apply nth_error_Some; congruence). lia.
Qed.

Lemma array_pending s i a sz num ty s1 p : reach e A s -> nth_error (s_arenas s) i = Some (Some a) ->
  op_ok A (OCreateArray sz num ty) -> step e s (SOp i (OCreateArray sz num ty)) = Ok (s1, p) ->
  forall j, pending (m_hist (s_mem s1)) j = pending (m_hist (s_mem s)) j.
Proof.
  intros HR Hi (K1 & K2 & K3) HS j. simpl in HS. unfold on_arena in HS. rewrite (get_arena_ok s i a Hi) in HS. cbn [bind] in HS.
  unfold CreateArray in HS. rewrite (proj2 (Z.eqb_neq sz 0)) in HS by lia.
  assert (E0 : mul64 sz num = sz * num) by (apply mul64_small; unfold max_request, M64 in *; nia).
  rewrite E0 in HS.
  assert (E1 : (M64 - 1) / sz <? num = false).
  { apply Z.ltb_ge. apply Z.div_le_lower_bound; unfold max_request, M64 in *; lia. }
  rewrite E1 in HS.
  destruct (allocateAligned e i a (s_mem s) (sz * num) kByteSize) as [[[a1 m1] q]| |] eqn:EA; cbn [bind] in HS; try discriminate.
  destruct (allocateAligned_events _ _ _ _ _ _ _ _ _ EA) as (_ & evs & ok & a3 & E & R & _); [nia|].
  assert (EP : pending (m_hist m1) j = pending (m_hist (s_mem s)) j) by (rewrite E; eapply room_pending; eauto).
  destruct (q =? 0); cbn [bind] in HS; [inversion HS; subst; exact EP|].
  destruct (hand_out i m1 q (num * sz)) as [m2| |] eqn:EH; cbn [bind] in HS; try discriminate.
  apply hand_out_events in EH. inversion HS; subst. unfold put; cbn [s_mem]. rewrite hook_alloc_pending, EH. exact EP.
Qed.

(** ** Alignment *)
Lemma pow2_divides8 a r : alignment a -> a <= 8 -> r mod 8 = 0 -> r mod a = 0.
Proof.
  intros (n & Hn & ->) Ha Hr. apply Z.mod_divide; [lia|]. apply Z.mod_divide in Hr; [|lia].
  apply Z.divide_trans with 8; auto.
  assert (n < 4) by (apply (Z.pow_lt_mono_r_iff 2); lia).
  assert (E : n = 0 \/ n = 1 \/ n = 2 \/ n = 3) by lia.
  destruct E as [->|[->|[->| ->]]]; [exists 8|exists 4|exists 2|exists 1]; reflexivity.
Qed.
End S.
