Require Import ZArith List Bool Lia Permutation.
From Verif Require Import Base BaseProofs AlignModel BasicSpec BasicProofs ArenaSpec ArenaModel ArenaStatements
  ArenaProofs ArenaProofs2 ArenaProofs3 ArenaProofs4 ArenaProofs5 ArenaProofs6 ArenaProofs7.
Import ListNotations.
Open Scope Z_scope.

Section S.
Variable e : env.
Variable A : Z.
Hypothesis HA : block_alignment A.
Hypothesis HG : good_block_alloc A (e_alloc e).

Lemma P_new s o s' r : reach e A s -> permitted A s (SNew o) -> step e s (SNew o) = Ok (s', r) ->
  let k := length (s_arenas s) in
  exists a, r = Z.of_nat k /\ s_arenas s' = s_arenas s ++ [Some a] /\ a_opts a = o /\ SpaceAllocated a = 0 /\
    held (m_hist (s_mem s')) k = [] /\ pending (m_hist (s_mem s')) k = [] /\
    m_hist (s_mem s') = CNew k :: hook_part (o_on_init o) (HInit k (a_cookie a)) ++ m_hist (s_mem s).
Proof.
  intros HR HP HS k. pose proof (reach_inv e A HA HG s HR) as HI. simpl in HP, HS.
  pose proof (construct_ok e A _ _ o HI HP) as HC. fold k in HC, HS.
  destruct (construct e k o (s_mem s)) as [a m'] eqn:E. inv HS. destruct HC as (HI' & E1 & E2 & E3 & E4).
  exists a. simpl. assert (Hk : nth_error (s_arenas s ++ [Some a]) k = Some (Some a)).
  { unfold k. rewrite nth_error_app2, Nat.sub_diag by lia. reflexivity. }
  destruct (I_arena _ _ _ HI' k a Hk) as (nss & [P1 P2 P3 P4 P5]). rewrite E2 in *. inversion P2; subst nss.
  repeat split; auto.
Qed.

(** No operation other than the constructor, Reset and the destructor makes a
    report of those kinds; see [flat_reports] for the rest. *)
Lemma due_held s i a l : reach e A s -> nth_error (s_arenas s) i = Some (Some a) ->
  due i a l = if o_on_newblock (a_opts a)
              then newblock_reports i (a_cookie a) (Z.of_nat (length (held (m_hist (s_mem s)) i))) l else [].
Proof.
  intros HR Hi. pose proof (reach_inv e A HA HG s HR) as HI.
  destruct (I_arena _ _ _ HI i a Hi) as (nss & [P1 P2 P3 P4 P5]). unfold due. rewrite P5, map_length. reflexivity.
Qed.

Lemma P_flat_reports s i a o s' r :
  reach e A s -> nth_error (s_arenas s) i = Some (Some a) -> op_ok A o -> flat o ->
  step e s (SOp i o) = Ok (s', r) ->
  exists evs, m_hist (s_mem s') = evs ++ m_hist (s_mem s) /\
    reports evs =
      (if o_on_newblock (a_opts a)
       then newblock_reports i (a_cookie a) (Z.of_nat (length (held (m_hist (s_mem s)) i))) (obtained i evs) else [])
      ++ (if o_on_alloc (a_opts a) then alloc_report o i (a_cookie a) r else []).
Proof.
  intros HR Hi Hok Hf HS. pose proof (reach_inv e A HA HG s HR) as HI.
  destruct (flat_reports e A s i a o s' r HI Hi Hok Hf HS) as (evs & E & R). exists evs. split; auto.
  rewrite R, (due_held s i a _ HR Hi). reflexivity.
Qed.

(** memory_resource allocations report only new blocks. *)
Lemma P_resource_reports s i j a b bytes al s' r :
  reach e A s -> nth_error (s_arenas s) i = Some (Some b) -> a_resource b = Some j ->
  nth_error (s_arenas s) j = Some (Some a) -> 0 <= bytes <= max_request ->
  step e s (SOp i (OResource bytes al)) = Ok (s', r) ->
  exists evs, m_hist (s_mem s') = evs ++ m_hist (s_mem s) /\
    reports evs =
      (if o_on_newblock (a_opts a)
       then newblock_reports j (a_cookie a) (Z.of_nat (length (held (m_hist (s_mem s)) j))) (obtained j evs) else []).
Proof.
  intros HR Hi Hb Hj Hok HS. simpl in HS. rewrite (get_arena_ok _ _ _ Hi) in HS. cbn [bind] in HS. rewrite Hb in HS.
  unfold on_arena in HS. rewrite (get_arena_ok _ _ _ Hj) in HS. cbn [bind] in HS. bk HS. destruct x as [[a1 m1] p]. inv HS.
  unfold resource_allocate in H. bk H. destruct x as [[a2 m2] q].
  destruct (allocateAligned_events _ _ _ _ _ _ _ _ _ H0 Hok) as (C & evs & ok & a3 & E & R & _ & _).
  destruct (room_reports _ _ _ _ _ _ _ _ R) as [R1 _].
  rewrite (due_held s j a _ HR Hj) in R1.
  destruct (Z.eqb_spec q 0) as [->|NZ].
  - inv H. exists evs. auto.
  - bk H. inv H. apply hand_out_events in H1. exists (CRange j r bytes :: evs). split; [simpl; rewrite H1, E; reflexivity|].
    change (CRange j r bytes :: evs) with ([CRange j r bytes] ++ evs). rewrite reports_app, obtained_app, R1. simpl.
    rewrite !app_nil_r. reflexivity.
Qed.

(** Create with a constructor that uses the arena: allocation, then the
    constructor's own operations run one after another, then registration of
    the destructor and one report. *)
Lemma P_create_reports s i a sz ty dtor body s' r :
  reach e A s -> nth_error (s_arenas s) i = Some (Some a) -> 0 <= sz <= max_request ->
  step e s (SOp i (OCreate sz ty dtor body)) = Ok (s', r) ->
  exists evs1 s2 s3 evs3,
    m_hist (s_mem s2) = evs1 ++ m_hist (s_mem s) /\
    reports evs1 = (if o_on_newblock (a_opts a)
       then newblock_reports i (a_cookie a) (Z.of_nat (length (held (m_hist (s_mem s)) i))) (obtained i evs1) else []) /\
    m_hist (s_mem s') = evs3 ++ m_hist (s_mem s3) /\
    ((r = 0 /\ s3 = s2 /\ evs3 = [] /\ forall p, ~ In (CRange i p sz) evs1) \/
     (run e s2 (map (SOp i) body) = Ok s3 /\
      forall a3, nth_error (s_arenas s3) i = Some (Some a3) ->
        reports evs3 = due i a3 (obtained i evs3) ++
          (if o_on_alloc (a_opts a3) then alloc_report (OCreate sz ty dtor body) i (a_cookie a3) r else []))).
Proof.
  intros HR Hi Hsz HS. simpl in HS. unfold on_arena in HS at 1. rewrite (get_arena_ok _ _ _ Hi) in HS. cbn [bind] in HS.
  bk HS. destruct x as [s1 q]. bk H. destruct x as [[a2 m2] q2]. inv H.
  destruct (allocateAligned_events _ _ _ _ _ _ _ _ _ H0 Hsz) as (C & evs & ok & a3 & E & R & HL & _).
  destruct (room_reports _ _ _ _ _ _ _ _ R) as [R1 R2]. rewrite (due_held s i a _ HR Hi) in R1.
  destruct (Z.eqb_spec q 0) as [->|NZ].
  - inv HS. exists evs, (put s i a2 m2), (put s i a2 m2), []. split; [auto|]. split; [auto|]. split; [auto|].
    left. repeat split; auto. intros p Hin. destruct R as [(-> & _)|(size & _ & [(_ & -> & _)|(addr & _ & _ & -> & _)])].
    + destruct Hin.
    + destruct Hin as [|[]]; discriminate.
    + apply in_app_or in Hin as [Hin|[|[]]]; try discriminate. unfold hook_part in Hin.
      destruct (o_on_newblock (a_opts a)); [|easy]. destruct Hin as [|[]]; discriminate.
  - bk HS. apply hand_out_events in H. simpl in H. bk HS.
    set (s2 := {| s_arenas := s_arenas (put s i a2 m2); s_mem := x |}) in *.
    assert (RUN : run e s2 (map (SOp i) body) = Ok x0).
    { clear - H1. revert H1. generalize s2. clear s2. induction body as [|y body IH]; intros s2 H1; simpl in *; [auto|].
      bk H1. destruct x1 as [s4 r4]. rewrite H. cbn [bind]. apply IH, H1. }
    bk HS. destruct x1 as [s4 ok4].
    assert (M1 : m_hist (s_mem s2) = (CRange i q sz :: evs) ++ m_hist (s_mem s)) by (unfold s2; simpl; rewrite H, E; reflexivity).
    assert (M2 : reports (CRange i q sz :: evs) = (if o_on_newblock (a_opts a)
       then newblock_reports i (a_cookie a) (Z.of_nat (length (held (m_hist (s_mem s)) i))) (obtained i (CRange i q sz :: evs)) else [])).
    { change (CRange i q sz :: evs) with ([CRange i q sz] ++ evs). rewrite reports_app, obtained_app, R1. simpl. rewrite !app_nil_r. reflexivity. }
    unfold alloc_report. destruct dtor as [fn|].
    + unfold on_arena in H2. bk H2. unfold get_arena in H3. destruct (nth_error (s_arenas x0) i) as [[ax|]|] eqn:Ex; try discriminate.
      inv H3. bk H2. destruct x2 as [[a5 m5] r5]. inv H2.
      unfold Own in H3. bk H3. destruct x2 as [[a6 m6] ok6].
      destruct (addCleanup_events _ _ _ _ _ _ _ _ _ H2) as (C2 & evs2 & a7 & E2 & RR & _).
      destruct (room_reports _ _ _ _ _ _ _ _ RR) as [R3 R4].
      assert (HN : nth_error (upd i (Some a6) (s_arenas x0)) i = Some (Some a6)) by (eapply nth_error_upd_eq; eauto).
      destruct ok6; inv H3; simpl in HS.
      * bk HS. unfold get_arena in H3. cbn [s_arenas put s_mem] in H3. rewrite HN in H3. inv H3. inv HS.
        destruct (Z.eqb_spec r 0); [congruence|].
        exists (CRange i r sz :: evs), s2, x0,
          (hook_part (o_on_alloc (a_opts x2)) (HAlloc i ty sz (a_cookie x2)) ++ CRegister i r fn :: evs2).
        split; [auto|]. split; [auto|]. split.
        { simpl. rewrite hook_alloc_events. simpl. rewrite E2. now rewrite <- app_assoc. }
        right. split; auto. intros a8 H8. rewrite Ex in H8. inv H8. destruct C2 as (-> & _ & ->).
        change (CRegister i r fn :: evs2) with ([CRegister i r fn] ++ evs2).
        rewrite !reports_app, !obtained_app, R3. simpl. rewrite !app_nil_r.
        destruct (o_on_alloc (a_opts a8)); simpl; rewrite ?app_nil_r; reflexivity.
      * inv HS. exists (CRange i q sz :: evs), s2, x0, evs2. split; [auto|]. split; [auto|]. split; [auto|].
        right. split; auto. intros a8 H8. rewrite Ex in H8. inv H8. rewrite R3. simpl.
        destruct (o_on_alloc (a_opts a8)); now rewrite app_nil_r.
    + inv H2. simpl in HS. bk HS. rename x0 into ay. inv HS. destruct (Z.eqb_spec r 0); [congruence|].
      unfold get_arena in H2. destruct (nth_error (s_arenas s4) i) as [[ax|]|] eqn:Ex; try discriminate. assert (ax = ay) by congruence; subst ay.
      exists (CRange i r sz :: evs), s2, s4, (hook_part (o_on_alloc (a_opts ax)) (HAlloc i ty sz (a_cookie ax))).
      split; [auto|]. split; [auto|]. split; [simpl; now rewrite hook_alloc_events|].
      right. split; auto. intros a8 H8. rewrite Ex in H8. inv H8. unfold due.
      unfold hook_part. destruct (o_on_alloc (a_opts a8)), (o_on_newblock (a_opts a8)); reflexivity.
Qed.

(** Moving and destroying both. *)
Lemma P_move_destroy s i s1 s2 s3 r1 r2 r3 (first second : nat) :
  reach e A s -> permitted A s (SMove i) -> step e s (SMove i) = Ok (s1, r1) ->
  let k := length (s_arenas s) in
  (first = k /\ second = i) \/ (first = i /\ second = k) ->
  step e s1 (SDestroy first) = Ok (s2, r2) -> step e s2 (SDestroy second) = Ok (s3, r3) ->
  exists evs, m_hist (s_mem s3) = evs ++ m_hist (s_mem s) /\
    cleanups_run evs = pending (m_hist (s_mem s)) i /\
    (forall x, In (EBlockFree x) evs <-> In x (map fst (held (m_hist (s_mem s)) i))) /\
    held (m_hist (s_mem s3)) k = [] /\ held (m_hist (s_mem s3)) i = [].
Proof.
  intros HR HP HS k HO H2 H3.
  destruct (P_move e A s i s1 r1 HR HP HS) as (a & old & M1 & M2 & M3 & M4 & M5 & M6 & M7 & M8 & M9 & M10 & M11 & M12).
  fold k in M3, M9, M10, M11, M12, M8.
  assert (R1 : reach e A s1) by (eapply reach_step; eauto).
  assert (Hik : i <> k). { intros ->. unfold k in M1. rewrite nth_error_length_none in M1. discriminate. }
  assert (P2 : permitted A s1 (SDestroy first)).
  { simpl. destruct HO as [[-> ->]|[-> ->]]; eexists; eauto. }
  destruct (P_destroy e A HA HG s1 first s2 r2 R1 P2 H2) as (a2 & evs2 & D1 & D2 & D3 & D4 & D5 & D6 & D7 & _ & D8).
  assert (R2 : reach e A s2) by (eapply reach_step; eauto).
  assert (Hne : second <> first) by (destruct HO as [[-> ->]|[-> ->]]; auto).
  assert (P3 : permitted A s2 (SDestroy second)).
  { simpl. unfold alive. rewrite D2, nth_error_upd_ne by auto. destruct HO as [[-> ->]|[-> ->]]; eexists; eauto. }
  destruct (P_destroy e A HA HG s2 second s3 r3 R2 P3 H3) as (a3 & evs3 & F1 & F2 & F3 & F4 & F5 & F6 & F7 & _ & F8).
  destruct (D8 second Hne) as [Hh Hp]. destruct (F8 first ltac:(auto)) as [Gh Gp].
  set (k2 := hook_part (o_on_destroy (a_opts a3)) (HDestroy second (a_cookie a3) (SpaceAllocated a3) (total_unused (a_blocks a3)))) in *.
  set (k1 := hook_part (o_on_destroy (a_opts a2)) (HDestroy first (a_cookie a2) (SpaceAllocated a2) (total_unused (a_blocks a2)))) in *.
  assert (Q2 : cleanups_run k2 = [] /\ forall x, ~ In (EBlockFree x) k2).
  { unfold k2, hook_part. destruct (o_on_destroy (a_opts a3)); simpl; (split; [reflexivity|]); [intros x [Hx|[]]; discriminate|intros x []]. }
  assert (Q1 : cleanups_run k1 = [] /\ forall x, ~ In (EBlockFree x) k1).
  { unfold k1, hook_part. destruct (o_on_destroy (a_opts a2)); simpl; (split; [reflexivity|]); [intros x [Hx|[]]; discriminate|intros x []]. }
  destruct Q1 as [Q1 Q1'], Q2 as [Q2 Q2'].
  exists (CDestroy second :: k2 ++ evs3 ++ CDestroy first :: k1 ++ evs2 ++ [CMove i k]).
  split. { rewrite F3, D3, M8. simpl. rewrite <- !app_assoc. simpl. rewrite <- !app_assoc. reflexivity. }
  split.
  { cbn [cleanups_run]. rewrite !cleanups_run_app. cbn [cleanups_run]. rewrite !cleanups_run_app, Q1, Q2, D4, F4, Hp. simpl.
    rewrite !app_nil_r. destruct HO as [[-> ->]|[-> ->]].
    - rewrite M11, M12. now rewrite app_nil_r.
    - rewrite M11, M12. reflexivity. }
  split.
  { intros x. specialize (D6 x). specialize (F6 x). specialize (Q1' x). specialize (Q2' x). rewrite Hh in F6.
    cbn [In]. rewrite !in_app_iff. cbn [In]. rewrite !in_app_iff. cbn [In].
    assert (In x (map fst (held (m_hist (s_mem s)) i)) <->
      In x (map fst (held (m_hist (s_mem s1)) first)) \/ In x (map fst (held (m_hist (s_mem s1)) second))).
    { destruct HO as [[-> ->]|[-> ->]]; rewrite M9, M10; simpl; tauto. }
    rewrite H, <- D6, <- F6. intuition discriminate. }
  rewrite D7 in Gh. destruct HO as [[-> ->]|[-> ->]]; auto.
Qed.
End S.
