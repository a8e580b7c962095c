Require Import ZArith List Bool Lia Permutation.
From Verif Require Import Base BaseProofs AlignModel BasicSpec BasicProofs ArenaSpec ArenaModel ArenaStatements
  ArenaSpaceStatements ArenaProofs ArenaProofs2 ArenaProofs3 ArenaProofs4 ArenaProofs5 ArenaProofs6 ArenaSpaceProofs.
Import ListNotations.
Open Scope Z_scope.

Definition cost_of (l : list (nat * Z * Z)) (i : nat) : Z := fold_right (fun x s => range_cost i x + s) 0 l.
Definition nonneg (l : list (nat * Z * Z)) : Prop := forall x, In x l -> 0 <= snd x.

Lemma charge_eq h i : charge h i = cost_of (live_ranges h) i + 48 * Z.of_nat (length (pending h i)).
Proof. reflexivity. Qed.

Lemma nonneg_cons x l : nonneg (x :: l) -> 0 <= snd x /\ nonneg l.
Proof. intros H. split; [apply H; simpl; auto|]. intros y Hy. apply H; simpl; auto. Qed.

Lemma range_cost_nonneg i x : 0 <= snd x -> 0 <= range_cost i x.
Proof. unfold range_cost. destruct (_ =? _)%nat; lia. Qed.

Lemma cost_nonneg l i : nonneg l -> 0 <= cost_of l i.
Proof.
  induction l as [|x l IH]; intros H; cbn [cost_of fold_right]; [lia|]. apply nonneg_cons in H as [H1 H2].
  pose proof (range_cost_nonneg i x H1). specialize (IH H2). unfold cost_of in *. lia.
Qed.

Lemma charge_nonneg h i : nonneg (live_ranges h) -> 0 <= charge h i.
Proof. intros H. rewrite charge_eq. pose proof (cost_nonneg _ i H). lia. Qed.

Lemma Inv_nonneg A l m : Inv A l m -> nonneg (live_ranges (m_hist m)).
Proof. intros HI [[j p] n] H. destruct (I_rng _ _ _ HI j p n H) as (H0 & _). exact H0. Qed.

Lemma pending_ext m m' j : ext m m' -> (length (pending (m_hist m) j) <= length (pending (m_hist m') j))%nat.
Proof.
  intros (evs & -> & F). induction F as [|ev evs Hev F IH]; auto.
  destruct ev; simpl in *; try contradiction; auto. destruct (_ =? _)%nat; simpl; lia.
Qed.

Lemma cost_ext m m' j : ext m m' -> nonneg (live_ranges (m_hist m')) ->
  cost_of (live_ranges (m_hist m)) j <= cost_of (live_ranges (m_hist m')) j.
Proof.
  intros (evs & -> & F). induction F as [|ev evs Hev F IH]; intros H; [simpl; lia|].
  destruct ev; simpl in *; try contradiction; auto.
  apply nonneg_cons in H as [H1 H2]. specialize (IH H2). pose proof (range_cost_nonneg j _ H1).
  unfold cost_of in *. cbn [fold_right]. lia.
Qed.

Lemma charge_ext m m' j : ext m m' -> nonneg (live_ranges (m_hist m')) -> charge (m_hist m) j <= charge (m_hist m') j.
Proof.
  intros X H. rewrite !charge_eq. pose proof (cost_ext m m' j X H). pose proof (pending_ext m m' j X). lia.
Qed.

Lemma charge_range m m' i p n : ext m m' -> live_ranges (m_hist m') = (i, p, n) :: live_ranges (m_hist m) ->
  charge (m_hist m) i + n + 39 <= charge (m_hist m') i.
Proof.
  intros X E. rewrite !charge_eq, E. unfold cost_of. cbn [fold_right]. unfold range_cost at 2. cbn [fst snd].
  rewrite Nat.eqb_refl. pose proof (pending_ext m m' i X). lia.
Qed.

Lemma no_failure_ext m m' : ext m m' -> no_failure (m_hist m') -> no_failure (m_hist m).
Proof. intros (evs & E & _) H i n Hin. apply (H i n). rewrite E. apply in_or_app. auto. Qed.

Lemma failed_absurd i a a' m m' : alloc_failed i a a' m m' -> no_failure (m_hist m') -> False.
Proof. intros (_ & _ & size & E) H. apply (H i size). rewrite E. simpl; auto. Qed.

Definition slim (h : history) (j : nat) (a : arena) : Prop :=
  chain (o_normal (a_opts a)) (a_blocks a) /\
  (no_failure h -> total_used (a_blocks a) <= 32 + charge h j).

Definition lean (s : sys) : Prop :=
  forall j a, nth_error (s_arenas s) j = Some (Some a) -> slim (m_hist (s_mem s)) j a.

Lemma slim_ext m m' j a : ext m m' -> nonneg (live_ranges (m_hist m')) -> slim (m_hist m) j a -> slim (m_hist m') j a.
Proof.
  intros X H [C U]. split; auto. intros NF. pose proof (charge_ext m m' j X H).
  specialize (U (no_failure_ext _ _ X NF)). lia.
Qed.

Lemma lean_put s i a a' m' : lean s -> nth_error (s_arenas s) i = Some (Some a) ->
  ext (s_mem s) m' -> nonneg (live_ranges (m_hist m')) -> slim (m_hist m') i a' -> lean (put s i a' m').
Proof.
  intros HL Hi X N HS j b Hj. simpl in *. destruct (Nat.eq_dec i j) as [<-|NE].
  - erewrite nth_error_upd_eq in Hj by eauto. inv Hj. exact HS.
  - rewrite nth_error_upd_ne in Hj by auto. eapply slim_ext; [exact X|exact N|exact (HL j b Hj)].
Qed.

Lemma lean_mem s m' : lean s -> ext (s_mem s) m' -> nonneg (live_ranges (m_hist m')) ->
  lean {| s_arenas := s_arenas s; s_mem := m' |}.
Proof. intros HL X N j b Hj. eapply slim_ext; [exact X|exact N|exact (HL j b Hj)]. Qed.

Section Ops.
Variable e : env.
Variable A : Z.
Hypothesis HA : block_alignment A.
Hypothesis HG : good_block_alloc A (e_alloc e).

(** One allocation, once the memory has been handed out. *)
Lemma slim_alloc l m i a bytes al a1 m1 p m2 n :
  Inv A l m -> nth_error l i = Some (Some a) -> 0 <= bytes <= max_request -> alignment_ok A al ->
  slim (m_hist m) i a -> allocateAligned e i a m bytes al = Ok (a1, m1, p) ->
  ext m m2 ->
  (p = 0 -> m2 = m1) -> (p <> 0 -> live_ranges (m_hist m2) = (i, p, n) :: live_ranges (m_hist m)) -> n = bytes ->
  slim (m_hist m2) i a1.
Proof.
  intros HI Hi Hb Hal [C U] E X H0 H1 ->.
  destruct (allocateAligned_ok e A l m i a bytes al HA HG HI Hi Hb Hal)
    as (a' & m' & p' & E' & HI1 & Hr & Hp & Hc & Hres). rewrite E in E'. inv E'.
  destruct (allocateAligned_space e A HA HG l m i a bytes al _ _ _ HI Hi Hb Hal E C) as [C1 U1].
  split; [destruct Hc as (-> & _); exact C1|]. intros NF.
  destruct (Z.eq_dec p' 0) as [->|NZ].
  - destruct Hres as [[_ Hf]|[? _]]; [|lia]. exfalso. rewrite (H0 eq_refl) in NF. eapply failed_absurd; eauto.
  - pose proof (charge_range _ _ _ _ _ X (H1 NZ)). specialize (U (no_failure_ext _ _ X NF)). specialize (U1 NZ). lia.
Qed.

Lemma slim_own l m i a obj fn a' m' r :
  Inv A l m -> nth_error l i = Some (Some a) -> slim (m_hist m) i a ->
  Own e i a m obj fn = Ok (a', m', r) -> slim (m_hist m') i a'.
Proof.
  intros HI Hi [C U] E.
  destruct (Own_ok e A HA HG l m i a obj fn HI Hi) as (a1 & m1 & r1 & E1 & HI1 & Hc & X & Hr & Hres).
  rewrite E in E1. inv E1. unfold Own in E. bk E. destruct x as [[a2 m2] ok].
  destruct (addCleanup_space e A HA HG l m i a obj fn _ _ _ HI Hi H C) as [C1 U1].
  assert (a2 = a1) by (destruct ok; inv E; auto). subst a2.
  split; [destruct Hc as (-> & _); exact C1|]. intros NF.
  destruct Hres as [[-> Hf]|[-> Hp]]; [exfalso; eapply failed_absurd; eauto|].
  destruct ok; [|inv E]. specialize (U1 eq_refl). specialize (U (no_failure_ext _ _ X NF)).
  rewrite charge_eq, Hr, Hp in *. cbn [length] in *. lia.
Qed.

Lemma slim_alloc_cleanup l m i a bytes fn el a' m' p :
  Inv A l m -> nth_error l i = Some (Some a) -> 0 <= bytes <= max_request -> slim (m_hist m) i a ->
  AllocateAlignedAndAddCleanup e i a m bytes fn el = Ok (a', m', p) -> slim (m_hist m') i a'.
Proof.
  intros HI Hi Hb [C U] E.
  destruct (AllocateAlignedAndAddCleanup_ok e A HA HG l m i a bytes fn el HI Hi Hb)
    as (a1 & m1 & p1 & E1 & HI1 & Hc & X & Hres). rewrite E in E1. inv E1.
  unfold AllocateAlignedAndAddCleanup in E. bk E. destruct x as [[a2 m2] q]. change kByteSize with 8 in H.
  destruct (allocateAligned_ok e A l m i a bytes 8 HA HG HI Hi Hb (al8 e A HA HG))
    as (a3 & m3 & p3 & E3 & HI3 & Hr3 & Hp3 & Hc3 & Hres3). rewrite H in E3. inv E3.
  destruct (allocateAligned_space e A HA HG l m i a bytes 8 _ _ _ HI Hi Hb (al8 e A HA HG) H C) as [C1 U1].
  destruct Hc3 as (Eo & _). destruct Hc as (Eo1 & _).
  destruct (Z.eqb_spec p3 0) as [Z0|NZ].
  - inv E. split; [rewrite Eo1; exact C1|]. intros NF.
    destruct Hres3 as [[_ Hf]|[? _]]; [|lia]. exfalso. eapply failed_absurd; eauto.
  - bk E. destruct x as [[a4 m4] ok].
    assert (Hi3 : nth_error (upd i (Some a3) l) i = Some (Some a3)) by (eapply nth_error_upd_eq; eauto).
    destruct (addCleanup_ok e A _ m3 i a3 (if el =? 0 then p3 else el) fn HA HG HI3 Hi3)
      as (a5 & m5 & ok5 & E5 & _ & _ & _ & _ & Hok). rewrite H0 in E5. inv E5.
    destruct (addCleanup_space e A HA HG _ m3 i a3 _ fn _ _ _ HI3 Hi3 H0) as [C2 U2]; [rewrite Eo; exact C1|].
    assert (a5 = a1) by (destruct ok5; [bk E|]; inv E; auto). subst a5.
    rewrite Eo in C2. split; [rewrite Eo1; exact C2|]. intros NF.
    destruct ok5.
    + bk E. inv E. destruct Hres as [[-> _]|(P0 & P1 & Hl & Hp)]; [congruence|].
      specialize (U1 NZ). specialize (U2 eq_refl). specialize (U (no_failure_ext _ _ X NF)).
      rewrite charge_eq, Hl, Hp. rewrite charge_eq in U. unfold cost_of in *. cbn [fold_right length].
      unfold range_cost at 1. cbn [fst snd]. rewrite Nat.eqb_refl. lia.
    + inv E. exfalso. destruct Hok as [_ Hf]. eapply failed_absurd; eauto.
Qed.

Lemma on_arena_lean s i a f a' m' r s' v :
  nth_error (s_arenas s) i = Some (Some a) -> f a (s_mem s) = Ok (a', m', r) ->
  on_arena s i f = Ok (s', v) -> s' = put s i a' m' /\ v = r.
Proof.
  intros Hi E H. unfold on_arena in H. rewrite (get_arena_ok s i a Hi) in H. cbn [bind] in H.
  rewrite E in H. cbn [bind] in H. inv H. auto.
Qed.

Lemma exec_lean : forall o i s s' r,
  Inv A (s_arenas s) (s_mem s) -> alive s i -> op_ok A o ->
  (uses_resource o = true -> resource_alive s i) ->
  lean s -> exec e o i s = Ok (s', r) -> lean s'.
Proof.
  fix IH 1. intros o i s s' r HI (a & Hi) Hok Hres HL H. pose proof (HL i a Hi) as HS. destruct o.
  - destruct Hok as [Hb Hal].
    destruct (AllocateAligned_ok e A HA HG _ _ i a bytes alignment HI Hi Hb Hal) as (a' & m' & p & E & HI' & Hc & X & HR).
    destruct (on_arena_lean _ _ _ _ _ _ _ _ _ Hi E H) as [-> ->].
    eapply lean_put; eauto; [eapply Inv_nonneg; eauto|].
    unfold AllocateAligned in E. bk E. destruct x as [[a1 m1] q].
    assert (EX : a1 = a' /\ (q = 0 -> m' = m1) /\ q = p).
    { destruct (Z.eqb_spec q 0); [inv E; auto|]. bk E. inv E. split; [auto|split; [congruence|auto]]. }
    destruct EX as (-> & E0 & ->).
    eapply (slim_alloc _ _ _ _ bytes alignment _ _ p _ bytes HI Hi); eauto. intros NZ. destruct HR as [[]|(_ & _ & HR)]; [congruence|exact HR].
  - destruct (AllocateAlignedAndAddCleanup_ok e A HA HG _ _ i a bytes fn elem HI Hi Hok) as (a' & m' & p & E & HI' & Hc & X & HR).
    destruct (on_arena_lean _ _ _ _ _ _ _ _ _ Hi E H) as [-> ->].
    eapply lean_put; eauto; [eapply Inv_nonneg; eauto|]. exact (slim_alloc_cleanup _ _ _ _ _ _ _ _ _ _ HI Hi Hok HS E).
  - destruct Hok as [Hb Hbody]. cbn [exec] in H. bk H. destruct x as [s1 p].
    destruct (allocateAligned_ok e A _ _ i a sz kByteSize HA HG HI Hi Hb (al8 e A HA HG))
      as (a1 & m1 & q & E & HI1 & Hr & Hp & Hc & HR).
    pose proof (allocateAligned_ext _ _ _ _ _ _ _ _ _ E) as X1.
    destruct (on_arena_lean _ _ _ _ _ _ _ _ _ Hi E H0) as [-> ->].
    destruct (Z.eqb_spec q 0) as [->|NZ].
    { inv H. eapply lean_put; eauto; [eapply Inv_nonneg; eauto|].
      eapply (slim_alloc _ _ _ _ sz 8 _ _ 0 _ sz HI Hi); eauto using al8; intros; congruence. }
    destruct HR as [[]|(P0 & P1 & HR)]; [lia|].
    assert (Hi1 : nth_error (s_arenas (put s i a1 m1)) i = Some (Some a1)) by (eapply nth_error_upd_eq; eauto).
    destruct (hand_out_ok A _ _ i q sz HI1 HR) as (m3 & E3 & HI3 & Hr3 & Hh3).
    bk H. simpl s_mem in H1. rewrite E3 in H1. inv H1.
    set (s2 := {| s_arenas := s_arenas (put s i a1 m1); s_mem := x |}) in *.
    assert (X2 : ext (s_mem s) x) by (eapply ext_trans; [exact X1|]; eapply hand_out_ext; eauto).
    assert (HL2 : lean s2).
    { change s2 with (put s i a1 x). eapply lean_put; eauto; [eapply Inv_nonneg; eauto|].
      eapply (slim_alloc _ _ _ _ sz 8 _ _ q _ sz HI Hi); eauto using al8; [congruence|]. intros _. rewrite Hr3, Hr. reflexivity. }
    assert (HP2 : op_post A s s2).
    { split; [exact HI3|]. split; [|exact X2]. eapply frame_upd; eauto. }
    assert (BODY : forall l s2 s3, Inv A (s_arenas s2) (s_mem s2) -> alive s2 i -> lean s2 ->
       (fix all (l : list op) : Prop := match l with [] => True | x :: r => op_ok A x /\ all r end) l ->
       ((fix any (l : list op) : bool := match l with [] => false | x :: r => uses_resource x || any r end) l = true -> resource_alive s2 i) ->
       (fix go (l : list op) (s : sys) : res sys :=
                  match l with
                  | [] => Ok s
                  | x :: r => do (s', _) <- exec e x i s; go r s'
                  end) l s2 = Ok s3 -> op_post A s2 s3 /\ lean s3).
    { clear - IH HA HG. induction l as [|x l IHl]; intros s2 s3 HI2 Ha2 HL2 Hok2 Hres2 E.
      - inv E. split; auto. now apply op_post_refl.
      - destruct Hok2 as [Hx Hl].
        assert (Hrx : uses_resource x = true -> resource_alive s2 i).
        { intros Hu. apply Hres2. rewrite Hu. reflexivity. }
        destruct (exec_ok e A HA HG x i s2 HI2 Ha2 Hx Hrx) as (s4 & r4 & E4 & HP4 & _).
        pose proof (IH x i s2 s4 r4 HI2 Ha2 Hx Hrx HL2 E4) as HL4.
        rewrite E4 in E. cbn [bind] in E.
        destruct (IHl s4 s3) as (HP3 & HL3); auto; [apply HP4| | |].
        + eapply frame_alive; [apply HP4|auto].
        + intros Hu. eapply frame_resource; [apply HP4|]. apply Hres2. rewrite Hu. apply orb_true_r.
        + split; auto. eapply op_post_trans; eauto. }
    assert (Ha0 : alive s i) by (exists a; auto).
    bk H. destruct (BODY body s2 x0) as (HP3 & HL3); auto.
    { eapply frame_alive; [apply HP2|auto]. }
    { intros Hu. eapply frame_resource; [apply HP2|]. apply Hres. exact Hu. }
    clear BODY H1. rename x0 into s3.
    assert (HP03 : op_post A s s3) by (eapply op_post_trans; eauto).
    assert (Ha3 : alive s3 i) by (eapply frame_alive; [apply HP03|auto]).
    destruct Ha3 as (a3 & Hi3). bk H. destruct x0 as [s4 ok].
    assert (HL4 : lean s4 /\ op_post A s3 s4).
    { destruct dtor as [fn|].
      - destruct (Own_ok e A HA HG _ _ i a3 q fn (proj1 HP03) Hi3) as (a4 & m4 & ok4 & E5 & HI5 & Hc5 & X5 & _).
        destruct (on_arena_lean _ _ _ _ _ _ _ _ _ Hi3 E5 H1) as [-> ->]. split.
        + eapply lean_put; eauto; [eapply Inv_nonneg; eauto|]. exact (slim_own _ _ _ _ _ _ _ _ _ (proj1 HP03) Hi3 (HL3 i a3 Hi3) E5).
        + split; [exact HI5|]. split; [|exact X5]. eapply frame_upd; eauto.
      - inv H1. split; auto. apply op_post_refl. apply HP03. }
    destruct HL4 as [HL4 HP4]. destruct (Z.eqb_spec ok 0); [inv H; auto|].
    bk H. inv H. apply lean_mem; auto; [apply hook_alloc_ext|]. rewrite hook_alloc_ranges.
    eapply Inv_nonneg. apply HP4.
  - destruct Hok as (H1 & H2 & H3).
    destruct (CreateArray_ok e A HA HG _ _ i a sz num ty HI Hi H1 H2 H3) as (a' & m' & p & E & HI' & Hc & X & HR).
    destruct (on_arena_lean _ _ _ _ _ _ _ _ _ Hi E H) as [-> ->].
    eapply lean_put; eauto; [eapply Inv_nonneg; eauto|].
    unfold CreateArray in E. destruct (Z.eqb_spec sz 0); [lia|].
    destruct (Z.ltb_spec ((M64 - 1) / sz) num) as [L|L].
    { exfalso. assert (num <= (M64 - 1) / sz); [|lia]. apply Z.div_le_lower_bound; auto.
      unfold max_request, M64 in *. lia. }
    cbv zeta in E. rewrite mul64_small in E by (unfold M64, max_request in *; nia). bk E.
    destruct x as [[a1 m1] q].
    assert (EX : a1 = a' /\ (q = 0 -> m' = m1) /\ q = p).
    { destruct (Z.eqb_spec q 0); [inv E; auto|]. bk E. inv E. split; [auto|split; [congruence|auto]]. }
    destruct EX as (-> & E0 & ->).
    eapply (slim_alloc _ _ _ _ (sz * num) 8 _ _ p _ (num * sz) HI Hi); eauto using al8; [nia| |apply Z.mul_comm].
    intros NZ. destruct HR as [[]|(_ & _ & HR)]; [congruence|exact HR].
  - destruct (Own_ok e A HA HG _ _ i a obj fn HI Hi) as (a' & m' & p & E & HI' & Hc & X & _ & HR).
    destruct (on_arena_lean _ _ _ _ _ _ _ _ _ Hi E H) as [-> ->].
    eapply lean_put; eauto; [eapply Inv_nonneg; eauto|]. exact (slim_own _ _ _ _ _ _ _ _ _ HI Hi HS E).
  - destruct Hok as [Hb Hal].
    destruct (Hres eq_refl) as (a' & j & Hi' & Hj & (b & Hbj)). rewrite Hi in Hi'. inv Hi'.
    cbn [exec] in H. rewrite (get_arena_ok s i a' Hi) in H. cbn [bind] in H. rewrite Hj in H.
    pose proof (HL j b Hbj) as HSj.
    destruct (resource_allocate_ok e A HA HG _ _ j b bytes alignment HI Hbj Hb Hal) as (a1 & m' & p & E & HI' & Hc & X & HR).
    destruct (on_arena_lean _ _ _ _ _ _ _ _ _ Hbj E H) as [-> ->].
    eapply lean_put; eauto; [eapply Inv_nonneg; eauto|].
    unfold resource_allocate in E. bk E. destruct x as [[a2 m1] q].
    assert (EX : a2 = a1 /\ (q = 0 -> m' = m1) /\ q = p).
    { destruct (Z.eqb_spec q 0); [inv E; auto|]. bk E. inv E. split; [auto|split; [congruence|auto]]. }
    destruct EX as (-> & E0 & ->).
    eapply (slim_alloc _ _ _ _ bytes (Z.max kByteSize alignment) _ _ p _ bytes HI Hbj); eauto using max8_al.
    intros NZ. destruct HR as [[]|(_ & _ & HR)]; [congruence|exact HR].
Qed.

(** * Reset, move, destruction *)
Lemma reset_quiet evs h i :
  (forall ev, In ev evs -> (exists x y, ev = ECleanup x y) \/ (exists x, ev = EBlockFree x) \/
     (exists c u w, ev = HReset i c u w) \/ (exists c u w, ev = HDestroy i c u w)) ->
  live_ranges (evs ++ h) = live_ranges h /\ (forall j, pending (evs ++ h) j = pending h j) /\
  (no_failure (evs ++ h) -> no_failure h).
Proof.
  intros H. split; [|split].
  - induction evs as [|ev evs IH]; auto. simpl. rewrite IH by (intros; apply H; simpl; auto).
    destruct (H ev (or_introl eq_refl)) as [(x & y & ->)|[(x & ->)|[(c & u & w & ->)|(c & u & w & ->)]]]; reflexivity.
  - intros j. induction evs as [|ev evs IH]; auto. simpl. rewrite IH by (intros; apply H; simpl; auto).
    destruct (H ev (or_introl eq_refl)) as [(x & y & ->)|[(x & ->)|[(c & u & w & ->)|(c & u & w & ->)]]]; reflexivity.
  - intros NF k n Hin. apply (NF k n). apply in_or_app. auto.
Qed.

Lemma cost_filter l i j : j <> i -> cost_of (filter (fun x => negb (fst (fst x) =? i)%nat) l) j = cost_of l j.
Proof.
  intros NE. induction l as [|[[k p] n] l IH]; auto. simpl. destruct (Nat.eqb_spec k i) as [->|]; simpl.
  - unfold cost_of in *. cbn [fold_right]. rewrite IH. unfold range_cost at 2. cbn [fst snd].
    destruct (Nat.eqb_spec i j); [congruence|lia].
  - unfold cost_of in *. cbn [fold_right]. now rewrite IH.
Qed.

Lemma cost_move l i d j : j <> i -> nonneg l ->
  cost_of l j <= cost_of (map (fun x => if (fst (fst x) =? i)%nat then (d, snd (fst x), snd x) else x) l) j.
Proof.
  intros NE. induction l as [|[[k p] n] l IH]; intros H; [simpl; lia|].
  apply nonneg_cons in H as [H1 H2]. specialize (IH H2). unfold cost_of in *. cbn [map fold_right fst snd].
  unfold range_cost at 1 3. cbn [fst snd] in *.
  destruct (Nat.eqb_spec k i) as [->|]; cbn [fst snd].
  - destruct (Nat.eqb_spec i j); [congruence|]. destruct (_ =? _)%nat; lia.
  - destruct (_ =? _)%nat; lia.
Qed.

Lemma cost_moved l i d : nonneg l ->
  cost_of l i <= cost_of (map (fun x => if (fst (fst x) =? i)%nat then (d, snd (fst x), snd x) else x) l) d.
Proof.
  induction l as [|[[k p] n] l IH]; intros H; [simpl; lia|].
  apply nonneg_cons in H as [H1 H2]. specialize (IH H2). unfold cost_of in *. cbn [map fold_right fst snd].
  unfold range_cost at 1 3. cbn [fst snd] in *.
  destruct (Nat.eqb_spec k i) as [->|]; cbn [fst snd].
  - rewrite Nat.eqb_refl. lia.
  - destruct (_ =? _)%nat; lia.
Qed.

Lemma step_lean s o s' r : Inv A (s_arenas s) (s_mem s) -> permitted A s o -> lean s ->
  step e s o = Ok (s', r) -> lean s'.
Proof.
  intros HI HP HL H. destruct o as [o|i o|i|i|i]; cbn [step permitted] in *.
  - pose proof (construct_ok e A _ _ o HI HP) as HC.
    destruct (construct e (length (s_arenas s)) o (s_mem s)) as [a m]. destruct HC as (HI' & Eo & Eb & Es & Hh). inv H.
    intros j b Hj. cbn [s_arenas s_mem] in *. pose proof (Inv_nonneg _ _ _ HI') as NN.
    apply nth_error_snoc in Hj as [[-> Hb]|Hj].
    + inv Hb. unfold slim. rewrite Eb. split; [exact I|]. intros _. pose proof (charge_nonneg _ (length (s_arenas s)) NN).
      change (total_used []) with 0. lia.
    + destruct (HL j b Hj) as [C U]. split; auto. rewrite Hh. intros NF.
      assert (NF0 : no_failure (m_hist (s_mem s))).
      { intros k n Hin. apply (NF k n). right. apply in_or_app. auto. }
      specialize (U NF0). unfold charge, hook_part in *. destruct (o_on_init _); simpl; exact U.
  - destruct HP as (H1 & H2 & H3). eapply exec_lean; eauto.
  - destruct HP as (a & Hi & Hs).
    apply (space_blocks A _ _ _ _ HI Hi) in Hs. destruct (list_snoc _ Hs) as (front & b & Eb).
    destruct (Reset_ok e A _ _ i a front b HI Hi Eb)
      as (a' & m' & evs & E & HI' & Hn & (Hh & Hc & Hev) & _ & _ & Hpo & _ & Hcfg & Ebl & _).
    destruct (on_arena_lean _ _ _ _ _ _ _ _ _ Hi E H) as [-> _].
    destruct (reset_quiet evs (m_hist (s_mem s)) i) as (Q1 & Q2 & Q3).
    { intros ev Hin. destruct (Hev ev Hin) as [(x & y & ->)|[(c & _ & ->)|[_ ->]]]; eauto 8. }
    intros j c Hj. cbn [put s_arenas s_mem] in *. destruct (Nat.eq_dec i j) as [<-|NE].
    + erewrite nth_error_upd_eq in Hj by eauto. inv Hj. unfold slim. rewrite Ebl. split; [exact I|]. intros _.
      pose proof (charge_nonneg _ i (Inv_nonneg _ _ _ HI')). unfold total_used. cbn [fold_right used b_pos b_size b_limit].
      unfold used. cbn [b_pos b_size b_limit]. lia.
    + rewrite nth_error_upd_ne in Hj by auto. destruct (HL j c Hj) as [C U]. split; auto. intros NF.
      rewrite charge_eq, Hpo by auto. rewrite Hh in *. cbn [live_ranges]. rewrite cost_filter, Q1 by auto.
      apply U. apply Q3. intros k n Hin. apply (NF k n). right. exact Hin.
  - destruct HP as (a & Hi). rewrite (get_arena_ok s i a Hi) in H. cbn [bind] in H.
    pose proof (move_ok A _ _ i a HI Hi) as HM. unfold move_construct in *. inv H.
    pose proof (Inv_nonneg _ _ _ HI) as NN. pose proof (Inv_nonneg _ _ _ HM) as NN'.
    intros j c Hj. cbn [s_arenas s_mem] in *.
    assert (NF0 : no_failure (m_hist (emit (s_mem s) (CMove i (length (s_arenas s))))) -> no_failure (m_hist (s_mem s))).
    { intros NF k n Hin. apply (NF k n). simpl. auto. }
    assert (Li : (i < length (s_arenas s))%nat) by (apply nth_error_Some; congruence).
    apply nth_error_snoc in Hj as [[-> Hb]|Hj].
    + inv Hb. destruct (HL i a Hi) as [C U]. split; auto. intros NF. specialize (U (NF0 NF)).
      rewrite charge_eq in *. rewrite length_upd. cbn [emit m_hist live_ranges pending]. rewrite Nat.eqb_refl.
      pose proof (cost_moved _ i (length (s_arenas s)) NN). lia.
    + destruct (Nat.eq_dec i j) as [<-|NE].
      * erewrite nth_error_upd_eq in Hj by eauto. inv Hj. unfold slim. cbn [a_blocks a_opts]. split; [exact I|].
        intros _. pose proof (charge_nonneg _ i NN'). change (total_used []) with 0. lia.
      * rewrite nth_error_upd_ne in Hj by auto. destruct (HL j c Hj) as [C U]. split; auto. intros NF.
        specialize (U (NF0 NF)). rewrite charge_eq in *. cbn [emit m_hist live_ranges pending].
        assert (j < length (s_arenas s))%nat by (apply nth_error_Some; congruence).
        destruct (Nat.eqb_spec (length (s_arenas s)) j); [lia|]. destruct (Nat.eqb_spec i j); [congruence|].
        pose proof (cost_move _ i (length (s_arenas s)) j ltac:(congruence) NN). lia.
  - destruct HP as (a & Hi). rewrite (get_arena_ok s i a Hi) in H. cbn [bind] in H.
    destruct (destroy_ok e A _ _ i a HI Hi) as (m' & evs & E & HI' & Hn & Hh & _ & Hev & _ & Hpo & _).
    rewrite E in H. cbn [bind] in H. inv H.
    destruct (reset_quiet evs (m_hist (s_mem s)) i) as (Q1 & Q2 & Q3).
    { intros ev Hin. destruct (Hev ev Hin) as [(x & y & ->)|(c & _ & ->)]; eauto 8. }
    intros j c Hj. cbn [s_arenas s_mem] in *. destruct (Nat.eq_dec i j) as [<-|NE].
    + erewrite nth_error_upd_eq in Hj by eauto. discriminate.
    + rewrite nth_error_upd_ne in Hj by auto. destruct (HL j c Hj) as [C U]. split; auto. intros NF.
      rewrite charge_eq, Hpo by auto. rewrite Hh in *.
      assert (NF0 : no_failure (evs ++ m_hist (s_mem s))).
      { intros k n Hin. apply (NF k n). right. apply in_or_app. auto. }
      specialize (U (Q3 NF0)). rewrite charge_eq in U. cbn [live_ranges]. rewrite cost_filter by auto.
      assert (EL : live_ranges (hook_part (o_on_destroy (a_opts a)) (HDestroy i (a_cookie a) (a_space a) (total_unused (a_blocks a))) ++ evs ++ m_hist (s_mem s)) = live_ranges (m_hist (s_mem s))).
      { unfold hook_part. destruct (o_on_destroy _); simpl; exact Q1. }
      rewrite EL. exact U.
Qed.

Lemma reach_lean s : reach e A s -> lean s.
Proof.
  induction 1 as [|s o s' r HR IH HP HS].
  - intros j a Hj. destruct j; discriminate.
  - eapply step_lean; eauto. eapply reach_inv; eauto.
Qed.

(** * The bounds *)
Lemma used_nonneg l m i a : Inv A l m -> nth_error l i = Some (Some a) -> Forall (fun c => 0 <= used c) (a_blocks a).
Proof.
  intros HI Hi. destruct (I_arena _ _ _ HI i a Hi) as (nss & [P1 P2 P3 P4 P5]).
  clear - P2. induction P2 as [|b ns bl nl HB]; constructor; auto.
  destruct HB. unfold used. lia.
Qed.

Lemma P_overhead s i a front x :
  reach e A s -> nth_error (s_arenas s) i = Some (Some a) -> held (m_hist (s_mem s)) i = front ++ [x] ->
  SpaceAllocated a <= snd x + o_normal (a_opts a) + 5 * (SpaceAllocated a - total_unused (a_blocks a)).
Proof.
  intros HR Hi Hh. pose proof (reach_inv e A HA HG s HR) as HI. destruct (reach_lean s HR i a Hi) as [C _].
  pose proof (used_nonneg _ _ _ _ HI Hi) as F.
  destruct (I_arena _ _ _ HI i a Hi) as (nss & [P1 P2 P3 P4 P5]).
  unfold SpaceAllocated. rewrite P4, <- total_used_eq.
  rewrite P5 in Hh.
  destruct (list_snoc (a_blocks a)) as (bf & b & Eb).
  { intros E. rewrite E in Hh. destruct front; discriminate. }
  rewrite Eb, map_app in Hh. simpl in Hh. apply app_inj_tail in Hh as [_ <-]. cbn [bspan snd].
  eapply chain_bound; eauto. destruct P1 as (((N0 & N1) & N2 & N3) & _). lia.
Qed.

Lemma P_linear s i a : reach e A s -> nth_error (s_arenas s) i = Some (Some a) -> no_failure (m_hist (s_mem s)) ->
  SpaceAllocated a - total_unused (a_blocks a) <= 32 + charge (m_hist (s_mem s)) i.
Proof.
  intros HR Hi NF. pose proof (reach_inv e A HA HG s HR) as HI. destruct (reach_lean s HR i a Hi) as [_ U].
  destruct (I_arena _ _ _ HI i a Hi) as (nss & [P1 P2 P3 P4 P5]).
  unfold SpaceAllocated. rewrite P4, <- total_used_eq. auto.
Qed.

Lemma P_held_linear s i a front x :
  reach e A s -> nth_error (s_arenas s) i = Some (Some a) -> no_failure (m_hist (s_mem s)) ->
  held (m_hist (s_mem s)) i = front ++ [x] ->
  sizes (held (m_hist (s_mem s)) i) <= snd x + o_normal (a_opts a) + 5 * (32 + charge (m_hist (s_mem s)) i).
Proof.
  intros HR Hi NF Hh. pose proof (P_overhead s i a front x HR Hi Hh) as B1. pose proof (P_linear s i a HR Hi NF) as B2.
  pose proof (reach_inv e A HA HG s HR) as HI.
  destruct (I_arena _ _ _ HI i a Hi) as (nss & [P1 P2 P3 P4 P5]).
  assert (sizes (held (m_hist (s_mem s)) i) = SpaceAllocated a).
  { unfold SpaceAllocated. rewrite P4, P5. clear. induction (a_blocks a); simpl; auto. now rewrite IHl. }
  lia.
Qed.
End Ops.
