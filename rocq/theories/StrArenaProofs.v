(** The arena's side of arena strings. *)
Require Import ZArith List Bool Lia Permutation.
From Verif Require Import Base BaseProofs AlignModel BasicSpec BasicProofs ArenaSpec ArenaModel ArenaStatements ArenaProofs ArenaProofs2 ArenaProofs3 ArenaProofs4 ArenaProofs6 ArenaProofs7 ArenaProofs8 ArenaSpaceProofs2.
From Verif Require Import StrArenaModel StrArenaStatements.
Import ListNotations.
Open Scope Z_scope.

Section A.
Variables (e : env) (A : Z).
Hypothesis HA : block_alignment A.
Hypothesis HG : good_block_alloc A (e_alloc e).
Notation LR S := (live_ranges (m_hist (s_mem S))).

Lemma fits_spec n : fits n = true <-> 0 <= n <= max_request.
Proof. unfold fits. rewrite andb_true_iff, !Z.leb_le. tauto. Qed.
Lemma serves_permitted S i j n : serves S i j -> fits n = true -> permitted A S (SOp i (OResource n 1)).
Proof.
  intros (a & Ha & Hr & Hj) F. apply fits_spec in F. split; [exists a; exact Ha|]. split; [split; [exact F|auto]|].
  intros _. exists a, j. auto.
Qed.
Lemma serves_frame S S' i j : frame (s_arenas S) (s_arenas S') -> serves S i j -> serves S' i j.
Proof.
  intros F (a & Ha & Hr & Hj). pose proof (F i) as Fi. rewrite Ha in Fi. unfold cfg_rel in Fi.
  destruct (nth_error (s_arenas S') i) as [[b|]|] eqn:E; try easy. exists b. split; [auto|]. destruct Fi as (_ & -> & _). split; [auto|]. eapply frame_alive; eauto.
Qed.

Lemma step_req S i j n S' p : reach e A S -> serves S i j -> fits n = true -> step e S (SOp i (OResource n 1)) = Ok (S', p) ->
  reach e A S' /\ serves S' i j /\
  (p = 0 /\ (exists size, hist S' = EBlockAlloc j size None :: hist S) \/ 0 < p /\ p mod 8 = 0 /\ LR S' = (j, p, n) :: LR S).
Proof.
  intros HR HS F H. pose proof (serves_permitted _ _ _ _ HS F) as HP.
  assert (HR' : reach e A S') by (eapply reach_step; eauto). split; [exact HR'|].
  pose proof (P_op_post e A HA HG _ _ _ _ _ HR HP H) as (_ & FR & _). split; [eapply serves_frame; eauto|].
  destruct HS as (a & Hi & Hr & b & Hb). pose proof (reach_inv e A HA HG S HR) as HI. apply fits_spec in F.
  cbn [step exec] in H. rewrite (get_arena_ok S i a Hi) in H. cbn [bind] in H. rewrite Hr in H.
  unfold on_arena in H. rewrite (get_arena_ok S j b Hb) in H. cbn [bind] in H.
  destruct (resource_allocate_ok e A HA HG _ _ j b n 1 HI Hb F ltac:(auto)) as (a' & m' & q & E & _ & _ & _ & Q).
  rewrite E in H. cbn [bind] in H. inv H. destruct Q as [(-> & _ & _ & sz & E2)|(P0 & P1 & P2)].
  - left. split; [reflexivity|]. exists sz. exact E2.
  - right. auto.
Qed.
Lemma ask_total S i j n : reach e A S -> serves S i j -> exists S' p, ask e i S n = Ok (S', p).
Proof.
  intros HR HS. unfold ask. destruct (fits n) eqn:F; [|eauto].
  destruct (step_ok e A HA HG S _ (reach_inv e A HA HG S HR) (serves_permitted _ _ _ _ HS F)) as (S' & r & E & _). eauto.
Qed.
Lemma ask_ok S i j n S' p : reach e A S -> serves S i j -> ask e i S n = Ok (S', p) ->
  reach e A S' /\ serves S' i j /\
  (p = 0 /\ LR S' = LR S /\ (fits n = true -> exists size, hist S' = EBlockAlloc j size None :: hist S) \/
   p <> 0 /\ fits n = true /\ 0 < p /\ p mod 8 = 0 /\ LR S' = (j, p, n) :: LR S).
Proof.
  intros HR HS H. unfold ask in H. destruct (fits n) eqn:F.
  - destruct (step_req _ _ _ _ _ _ HR HS F H) as (R1 & R2 & [(-> & sz & E)|(P0 & P1 & E)]); split; auto; split; auto.
    + left. split; auto. split; [change (live_ranges (hist S') = live_ranges (hist S)); rewrite E; reflexivity|]. intros _. eauto.
    + right. split; [lia|]. auto.
  - inv H. split; auto. split; auto. left. split; auto. split; auto. discriminate.
Qed.

Definition won (j : nat) (l : list (Z * Z)) : list (nat * Z * Z) :=
  map (fun x => (j, snd x, fst x)) (filter (fun x => negb (snd x =? 0)) l).
Lemma serve_ok i j l : forall S S', reach e A S -> serves S i j -> serve e i S l S' ->
  reach e A S' /\ serves S' i j /\ LR S' = rev (won j l) ++ LR S /\
  Forall (fun x => snd x = 0 \/ fits (fst x) = true /\ 0 < snd x /\ snd x mod 8 = 0) l.
Proof.
  induction l as [|[n p] l IH]; intros S S' HR HS H; cbn in H.
  - subst. auto.
  - destruct H as (S1 & E & H). destruct (ask_ok _ _ _ _ _ _ HR HS E) as (R1 & R2 & C).
    destruct (IH _ _ R1 R2 H) as (R3 & R4 & R5 & R6). split; auto. split; auto. unfold won in *. cbn [filter snd fst].
    destruct C as [(-> & E1 & _)|(NZ & F & P0 & P1 & E1)].
    + cbn. rewrite R5, E1. split; auto.
    + destruct (Z.eqb_spec p 0); [congruence|]. cbn [negb map rev snd fst]. rewrite R5, E1, <- app_assoc. split; [reflexivity|]. constructor; auto.
Qed.
Lemma serve_hist i j l : forall S S', reach e A S -> serves S i j -> serve e i S l S' ->
  exists evs, hist S' = evs ++ hist S /\ cleanups_run evs = [] /\ (forall x, ~ In (EBlockFree x) evs) /\
    forall n, In (n, 0) l -> fits n = true -> exists size, In (EBlockAlloc j size None) evs.
Proof.
  induction l as [|[n p] l IH]; intros S S' HR HS H; cbn in H.
  - subst. exists []. split; [reflexivity|]. split; [reflexivity|]. split; [intros x []|intros n []].
  - destruct H as (S1 & E & H). destruct (ask_ok _ _ _ _ _ _ HR HS E) as (R1 & R2 & C). destruct (IH _ _ R1 R2 H) as (ev & E2 & E3 & E4 & E5).
    assert (X : exists ev1, hist S1 = ev1 ++ hist S /\ cleanups_run ev1 = [] /\ (forall x, ~ In (EBlockFree x) ev1)).
    { unfold ask in E. destruct (fits n) eqn:F; [|inv E; exists []; split; [reflexivity|]; split; [reflexivity|intros x []]].
      exact (P_op_space e A _ _ _ _ _ HR (serves_permitted _ _ _ _ HS F) E). }
    destruct X as (ev1 & F1 & F2 & F3). exists (ev ++ ev1). rewrite E2, F1, app_assoc. split; auto.
    split; [rewrite cleanups_run_app, E3, F2; reflexivity|]. split; [intros x K; apply in_app_or in K; destruct K as [K|K]; [exact (E4 x K)|exact (F3 x K)]|].
    intros m [K|K] Fm.
    + inversion K; subst n p; clear K. destruct C as [(_ & _ & C)|(K & _)]; [|congruence]. destruct (C Fm) as (sz & Z). exists sz.
      apply in_or_app. right. rewrite Z in F1. assert (F1' : [EBlockAlloc j sz None] ++ hist S = ev1 ++ hist S) by exact F1.
      apply app_inv_tail in F1'. subst ev1. left. reflexivity.
    + destruct (E5 m K Fm) as (sz & Z). exists sz. apply in_or_app. auto.
Qed.
(** Requests can always be put to the arena. *)

(** ** What others do *)
Definition mine (j : nat) (B L : list (nat * Z * Z)) : Prop := exists others, Permutation L (B ++ others).
Lemma mine_more j B L x : mine j B L -> mine j B (x ++ L).
Proof. intros (o & P). exists (x ++ o). rewrite P, Permutation_app_comm, <- app_assoc. apply Permutation_app_head, Permutation_app_comm. Qed.
Lemma mine_filter j B L k : Forall (fun x => fst (fst x) = j) B -> k <> j -> mine j B L -> mine j B (filter (fun x => negb (fst (fst x) =? k)%nat) L).
Proof.
  intros F NE (o & P). exists (filter (fun x => negb (fst (fst x) =? k)%nat) o).
  assert (Q : Permutation (filter (fun x => negb (fst (fst x) =? k)%nat) L) (filter (fun x => negb (fst (fst x) =? k)%nat) (B ++ o))).
  { clear -P. induction P; cbn; try (destruct (negb _)); try (destruct (negb _)); eauto using Permutation. }
  rewrite Q, filter_app. rewrite (filter_id _ B); [reflexivity|]. intros x Hx. rewrite Forall_forall in F. rewrite (F x Hx). destruct (Nat.eqb_spec j k); [congruence|reflexivity].
Qed.
Lemma mine_map j B L k d : Forall (fun x => fst (fst x) = j) B -> k <> j -> mine j B L ->
  mine j B (map (fun x => if (fst (fst x) =? k)%nat then (d, snd (fst x), snd x) else x) L).
Proof.
  intros F NE (o & P). exists (map (fun x => if (fst (fst x) =? k)%nat then (d, snd (fst x), snd x) else x) o).
  rewrite P, map_app. rewrite <- (map_id B) at 2. erewrite map_ext_in; [reflexivity|]. intros x Hx. rewrite Forall_forall in F. rewrite (F x Hx). destruct (Nat.eqb_spec j k); [congruence|reflexivity].
Qed.
Lemma ranges_more m m' : ext m m' -> exists x, live_ranges (m_hist m') = x ++ live_ranges (m_hist m).
Proof.
  intros (evs & E & F). rewrite E. clear E. induction F as [|ev evs Hev F (x & IH)]; [exists []; reflexivity|].
  destruct ev; cbn in *; try contradiction; try (exists x; exact IH). exists ((arena, p, n) :: x). rewrite IH. reflexivity.
Qed.
Lemma other_ok S o S' r i j B : reach e A S -> serves S i j -> permitted A S o -> leaves i j o -> step e S o = Ok (S', r) ->
  Forall (fun x => fst (fst x) = j) B -> mine j B (LR S) -> reach e A S' /\ serves S' i j /\ mine j B (LR S').
Proof.
  intros HR HS HP HL H FB HM. split; [eapply reach_step; eauto|]. pose proof (reach_inv e A HA HG S HR) as HI.
  destruct HS as (a & Ha & Hr & b & Hb).
  destruct o as [o|k o|k|k|k]; cbn [leaves] in HL.
  - destruct (P_new e A HA HG _ _ _ _ HR HP H) as (c & _ & E & _ & _ & _ & _ & E2). split.
    + exists a. rewrite E. split; [rewrite nth_error_app1; [exact Ha|apply nth_error_Some; congruence]|]. split; [exact Hr|]. exists b. rewrite E. rewrite nth_error_app1; [exact Hb|apply nth_error_Some; congruence].
    + rewrite E2. unfold hook_part. destruct (o_on_init o); exact HM.
  - destruct (P_op_post e A HA HG _ _ _ _ _ HR HP H) as (_ & FR & X). split; [eapply serves_frame; [exact FR|exists a; split; [exact Ha|split; [exact Hr|exists b; exact Hb]]]|].
    destruct (ranges_more _ _ X) as (x & ->). apply mine_more. exact HM.
  - destruct HP as (c & Hi & Hs). cbn [step] in H. apply (space_blocks A _ _ _ _ HI Hi) in Hs. destruct (list_snoc _ Hs) as (front & z & Eb).
    destruct (Reset_ok e A _ _ k c front z HI Hi Eb)
      as (a' & m' & evs & E & HI' & Hn & (Hh & Hc & Hev) & _ & _ & Hpo & _ & Hcfg & Ebl & _).
    unfold on_arena in H. rewrite (get_arena_ok S k c Hi) in H. cbn [bind] in H. rewrite E in H. cbn [bind] in H. inv H.
    destruct (reset_quiet evs (m_hist (s_mem S)) k) as (Q1 & Q2 & Q3).
    { intros ev Hin. destruct (Hev ev Hin) as [(x & y & ->)|[(d & _ & ->)|[_ ->]]]; eauto 8. }
    split.
    + eapply serves_frame; [apply (frame_upd (s_arenas S) k c a' Hi Hcfg)|]. exists a. split; [exact Ha|]. split; [exact Hr|]. exists b. exact Hb.
    + cbn [put s_mem]. rewrite Hh. cbn [live_ranges]. rewrite Q1. apply mine_filter; assumption.
  - destruct (P_move e A _ _ _ _ HR HP H) as (c & old & H1 & _ & _ & _ & _ & _ & HN & HH & _). split.
    + exists a. rewrite (HN i) by (try apply nth_error_Some; intuition congruence). split; [exact Ha|]. split; [exact Hr|].
      exists b. rewrite (HN j) by (try apply nth_error_Some; intuition congruence). exact Hb.
    + rewrite HH. cbn [live_ranges]. apply mine_map; intuition.
  - destruct HP as (c & Hi). cbn [step] in H. rewrite (get_arena_ok S k c Hi) in H. cbn [bind] in H.
    destruct (destroy_ok e A _ _ k c HI Hi) as (m' & evs & E & HI' & Hn & Hh & _ & Hev & _ & Hpo & _).
    rewrite E in H. cbn [bind] in H. inv H.
    destruct (reset_quiet evs (m_hist (s_mem S)) k) as (Q1 & Q2 & Q3).
    { intros ev Hin. destruct (Hev ev Hin) as [(x & y & ->)|(d & _ & ->)]; eauto 8. }
    split.
    + exists a. cbn [s_arenas]. rewrite nth_error_upd_ne by (intuition congruence). split; [exact Ha|]. split; [exact Hr|]. exists b. cbn [s_arenas]. rewrite nth_error_upd_ne by (intuition congruence). exact Hb.
    + cbn [s_mem]. rewrite Hh. cbn [live_ranges].
      assert (EL : live_ranges (hook_part (o_on_destroy (a_opts c)) (HDestroy k (a_cookie c) (a_space c) (total_unused (a_blocks c))) ++ evs ++ m_hist (s_mem S)) = LR S).
      { unfold hook_part. destruct (o_on_destroy _); simpl; exact Q1. }
      rewrite EL. apply mine_filter; intuition.
Qed.
End A.
