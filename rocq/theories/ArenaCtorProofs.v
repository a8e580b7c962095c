Require Import ZArith List Bool Lia Permutation.
From Verif Require Import Base BaseProofs AlignModel BasicSpec BasicProofs ArenaSpec ArenaModel ArenaStatements
  ArenaProofs ArenaProofs2 ArenaProofs3 ArenaProofs4 ArenaProofs5 ArenaProofs6 ArenaProofs7
  ArenaReentModel ArenaReentSpec ArenaReentProofs ArenaReentProofs2 ArenaHookModel ArenaHookSpec
  ArenaHookProofs ArenaHookProofs2 ArenaHookProofs3 ArenaHookProofs4 ArenaHookProofs5 ArenaCallModel ArenaCallSpec
  ArenaCallProofs ArenaCallProofs2 ArenaCallProofs3 ArenaCtorModel ArenaCtorSpec.
Import ListNotations.
Open Scope Z_scope.

Section S.
Variable e : env.
Variable c : calls.
Variable A : Z.
Hypothesis HA : block_alignment A.
Hypothesis HG : good_block_alloc A (e_alloc e).

Let post := op_post A.

Lemma within_app_l l1 l2 x : within l1 x -> within (l1 ++ l2) x.
Proof. destruct x as [[i p] n]. intros (q & k & H & L). exists q, k. split; auto. apply in_or_app; auto. Qed.
Lemma within_app_r l1 l2 x : within l2 x -> within (l1 ++ l2) x.
Proof. destruct x as [[i p] n]. intros (q & k & H & L). exists q, k. split; auto. apply in_or_app; auto. Qed.
Lemma withins_app_l l1 l2 t : Forall (within l1) t -> Forall (within (l1 ++ l2)) t.
Proof. apply Forall_impl. intros x. apply within_app_l. Qed.
Lemma withins_app_r l1 l2 t : Forall (within l2) t -> Forall (within (l1 ++ l2)) t.
Proof. apply Forall_impl. intros x. apply within_app_r. Qed.
Lemma within_apart l1 l2 x y : pairwise rng_apart (l1 ++ l2) -> within l1 x -> within l2 y -> objects_apart x y /\ objects_apart y x.
Proof.
  destruct x as [[i p] n], y as [[i' p'] n']. intros H (q & k & H1 & L1) (q' & k' & H2 & L2).
  pose proof (pairwise_app_inv _ _ _ H _ _ H1 H2) as X. unfold rng_apart, objects_apart, apart in *. cbn [fst snd] in *. lia.
Qed.
Lemma post_new s s' : post s s' -> exists new, live_ranges (m_hist (s_mem s')) = new ++ live_ranges (m_hist (s_mem s)).
Proof. intros (_ & _ & evs & -> & F). exists (handed evs). now apply alloc_ranges. Qed.
Lemma hand_new s i p n s' : inv A s -> reserved (s_arenas s) (s_mem s) i p n -> hand_c i s p n = Ok s' ->
  live_ranges (m_hist (s_mem s')) = (i, p, n) :: live_ranges (m_hist (s_mem s)).
Proof.
  intros HI HR. unfold hand_c. destruct (hand_out_ok A _ _ i p n HI HR) as (m' & E & HI' & Hr & _). rewrite E. cbn [bind]. intros H. inv H. exact Hr.
Qed.
Lemma inv_apart s : inv A s -> pairwise rng_apart (live_ranges (m_hist (s_mem s))).
Proof. intros HI. apply (I_rapart _ _ _ HI). Qed.

(** The loop of CreateArray. *)
Definition elements (i : nat) (p sz : Z) (ctor : nat -> Z -> xprog) : nat -> nat -> sys -> res (sys * built) :=
  fix go (n k : nat) (s : sys) : res (sys * built) :=
    match n with
    | O => Ok (s, [])
    | S n =>
        let q := p + Z.of_nat k * sz in
        do (s', t) <- run_x e c (ctor k q) s;
        do (s'', tr) <- go n (S k) s';
        Ok (s'', (i, q, sz) :: t ++ tr)
    end.

Lemma exec_create sz ty dtor ctor i s : exec_x e c (XCreate sz ty dtor ctor) i s =
  do (s1, p) <- allocate_c e c i s sz kByteSize;
  if p =? 0 then Ok (s1, 0, []) else
  do s2 <- hand_c i s1 p sz;
  do (s3, tr) <- run_x e c (ctor p) s2;
  let tr := (i, p, sz) :: tr in
  do (s4, ok) <- match dtor with None => Ok (s3, 1) | Some fn => Own_c e c i s3 p fn end;
  if ok =? 0 then Ok (s4, 0, tr) else
  do s5 <- told_c i s4 ty sz;
  do s6 <- called_c e c i s5;
  Ok (s6, p, tr).
Proof. reflexivity. Qed.
Lemma exec_array sz num ty ctor i s : exec_x e c (XArray sz num ty ctor) i s =
  if sz =? 0 then Undef else
  let s0 := if (M64 - 1) / sz <? num then emits s ELog else s in
  let size := mul64 sz num in
  do (s1, p) <- allocate_c e c i s0 size kByteSize;
  if p =? 0 then Ok (s1, 0, []) else
  do s2 <- hand_c i s1 p (num * sz);
  do (s3, tr) <- elements i p sz ctor (Z.to_nat num) O s2;
  do s4 <- told_c i s3 ty size;
  do s5 <- called_c e c i s4;
  Ok (s5, p, tr).
Proof. reflexivity. Qed.
Lemma run_do j x next s : run_x e c (XDo j x next) s =
  do (s1, r, t) <- exec_x e c x j s; do (s2, t') <- run_x e c (next r) s1; Ok (s2, t ++ t').
Proof. reflexivity. Qed.

Definition places (s s' : sys) (t : built) : Prop :=
  exists new, live_ranges (m_hist (s_mem s')) = new ++ live_ranges (m_hist (s_mem s)) /\
    Forall (within new) t /\ pairwise objects_apart t.
Definition exec_good (x : xop) : Prop := forall s0 i s, post s0 s -> xop_ok A s0 x i -> calls_ok A c s0 ->
  exists s' r t, exec_x e c x i s = Ok (s', r, t) /\ post s s' /\
    (forall n al, x_range x = Some (n, al) -> r <> 0 ->
       0 < r /\ r mod al = 0 /\ exists j, x_served_by s i x j /\ In (j, r, n) (live_ranges (m_hist (s_mem s')))) /\
    places s s' t.
Definition run_good (q : xprog) : Prop := forall s0 s, post s0 s -> xprog_ok A s0 q -> calls_ok A c s0 ->
  exists s' t, run_x e c q s = Ok (s', t) /\ post s s' /\ places s s' t.

Lemma places_nil s s' : post s s' -> places s s' [].
Proof. intros P. destruct (post_new _ _ P) as (new & E). exists new. split; auto. split; constructor. Qed.
Lemma places_app s s1 s2 t1 t2 : inv A s2 -> places s s1 t1 -> places s1 s2 t2 -> places s s2 (t1 ++ t2).
Proof.
  intros HI (n1 & E1 & F1 & W1) (n2 & E2 & F2 & W2). pose proof (inv_apart _ HI) as P. exists (n2 ++ n1). split; [now rewrite E2, E1, app_assoc|].
  split; [apply Forall_app; split; [now apply withins_app_r|now apply withins_app_l]|].
  apply pairwise_app. split; auto. split; auto. intros x y Hx Hy. rewrite Forall_forall in F1, F2. rewrite E2 in P.
  eapply within_apart; [exact P|apply F2; exact Hy|rewrite E1; apply within_app_l, F1; exact Hx].
Qed.
Lemma places_later s s1 s2 t : post s1 s2 -> places s s1 t -> places s s2 t.
Proof.
  intros P (n1 & E1 & F1 & W1). destruct (post_new _ _ P) as (n2 & E2). exists (n2 ++ n1). split; [now rewrite E2, E1, app_assoc|].
  split; auto. now apply withins_app_r.
Qed.

(** [x] is a new object, or one of the elements [k] to [k + n]. *)
Definition elem_or (new : list (nat * Z * Z)) (i : nat) (p sz : Z) (k n : nat) (x : nat * Z * Z) : Prop :=
  within new x \/ exists m, (k <= m < k + n)%nat /\ x = (i, p + Z.of_nat m * sz, sz).

Lemma elements_ok i p sz ctor N : 0 < sz -> 0 < p -> (forall k q, run_good (ctor k q)) ->
  forall n k s0 s, post s0 s -> (forall k q, xprog_ok A s0 (ctor k q)) -> calls_ok A c s0 ->
  Z.of_nat (k + n) <= N -> In (i, p, N * sz) (live_ranges (m_hist (s_mem s))) ->
  exists s' t new, elements i p sz ctor n k s = Ok (s', t) /\ post s s' /\
    live_ranges (m_hist (s_mem s')) = new ++ live_ranges (m_hist (s_mem s)) /\
    Forall (elem_or new i p sz k n) t /\ pairwise objects_apart t.
Proof.
  intros Hs Hp HR. induction n as [|n IH]; intros k s0 s P HX HC HN IN; cbn [elements].
  - exists s, [], []. split; auto. split; [apply op_post_refl; apply P|]. split; auto. split; constructor.
  - destruct (HR k (p + Z.of_nat k * sz) s0 s P (HX _ _) HC) as (s1 & t1 & E1 & P1 & n1 & L1 & F1 & W1). cbv zeta. rewrite E1. cbn [bind].
    destruct (IH (S k) s0 s1) as (s2 & t2 & n2 & E2 & P2 & L2 & F2 & W2); auto.
    + eapply op_post_trans; eauto.
    + lia.
    + eapply ranges_ext; [apply P1|exact IN].
    + fold (elements i p sz ctor). rewrite E2. cbn [bind]. exists s2. eexists. exists (n2 ++ n1). split; [reflexivity|].
      assert (P02 : post s s2) by (eapply op_post_trans; eauto). split; auto. split; [now rewrite L2, L1, app_assoc|].
      pose proof (inv_apart _ (proj1 P2)) as PA. rewrite L2 in PA. pose proof (inv_apart _ (proj1 P1)) as PB. rewrite L1 in PB.
      assert (EL : forall m, (k <= m < k + S n)%nat -> within (live_ranges (m_hist (s_mem s))) (i, p + Z.of_nat m * sz, sz)).
      { intros m Hm. exists p, (N * sz). split; auto. nia. }
      assert (EL1 : forall m, (k <= m < k + S n)%nat -> within (live_ranges (m_hist (s_mem s1))) (i, p + Z.of_nat m * sz, sz)).
      { intros m Hm. rewrite L1. apply within_app_r. auto. }
      rewrite Forall_forall in F1, F2. split.
      * constructor; [right; exists k; split; [lia|reflexivity]|]. apply Forall_app. split; apply Forall_forall; intros x Hx.
        -- left. apply within_app_r. auto.
        -- destruct (F2 x Hx) as [Hw|(m & Hm & ->)]; [left; now apply within_app_l|right; exists m; split; [lia|reflexivity]].
      * apply pairwise_cons. split.
        -- apply Forall_app. split; apply Forall_forall; intros x Hx.
           ++ eapply (within_apart n1); [exact PB|apply F1; exact Hx|apply EL; lia].
           ++ destruct (F2 x Hx) as [Hw|(m & Hm & ->)]; [eapply within_apart; [exact PA|exact Hw|apply EL1; lia]|].
              unfold objects_apart, apart. cbn [fst snd]. nia.
        -- apply pairwise_app. split; auto. split; auto. intros x y Hx Hy.
           destruct (F2 y Hy) as [Hw|(m & Hm & ->)].
           ++ eapply within_apart; [exact PA|exact Hw|rewrite L1; apply within_app_l; auto].
           ++ refine (proj1 (within_apart _ _ _ _ PB (F1 _ Hx) (EL m _))). lia.
Qed.

Lemma in_frame s0 s i : post s0 s -> alive s0 i -> alive s i.
Proof. intros (_ & F & _). now apply frame_alive. Qed.
Lemma calls_of s0 s : post s0 s -> calls_ok A c s0 -> calls_ok A c s.
Proof. apply calls_ok_post. Qed.
Lemma al8'' : alignment_ok A 8.
Proof. split; [auto|destruct HA as [->|[->| ->]]; lia]. Qed.

Scheme xop_rec' := Induction for xop Sort Prop
  with xprog_rec' := Induction for xprog Sort Prop.
Combined Scheme xop_xprog_ind from xop_rec', xprog_rec'.

Lemma op_good o : exec_good (XOp o).
Proof.
  intros s0 i s P HX HC. cbn in HX. destruct HX as (HL & HO & HU). cbn [exec_x].
  destruct (exec_c_ok e c A HA HG o i s (proj1 P) (in_frame _ _ _ P HL) HO) as (s' & r & E & P' & H1 & H2).
  - intros Hu. eapply frame_resource; [apply P|auto].
  - eapply calls_of; eauto.
  - rewrite E. cbn [bind]. exists s', r, []. split; auto. split; auto. split; auto. now apply places_nil.
Qed.

Lemma create_good sz ty dtor ctor : (forall p, run_good (ctor p)) -> exec_good (XCreate sz ty dtor ctor).
Proof.
  intros IH s0 i s P HX HC. cbn in HX. destruct HX as (HL0 & Hb & HX). rewrite exec_create.
  pose proof (in_frame _ _ _ P HL0) as HL. pose proof (calls_of _ _ P HC) as HCs. pose proof (proj1 P) as HI.
  destruct (allocate_ok e c A HA HG s i sz kByteSize HI HL HCs Hb al8'') as (s1 & p & E & P1 & HR). rewrite E. cbn [bind].
  destruct (Z.eqb_spec p 0) as [->|NZ]. { eexists _, _, _. split; [reflexivity|]. split; auto. split; [congruence|]. now apply places_nil. }
  destruct HR as [HR|(P0 & P2 & HR)]; [lia|].
  destruct (hand_ok A s1 i p sz (proj1 P1) HR) as (s2 & E2 & Q2 & IN2). rewrite E2. cbn [bind].
  assert (Q02 : post s s2) by (eapply op_post_trans; eauto).
  destruct (IH p s0 s2) as (s3 & t3 & E3 & Q3 & F3); auto. { eapply op_post_trans; eauto. }
  rewrite E3. cbn [bind]. cbv zeta.
  assert (Q03 : post s s3) by (eapply op_post_trans; eauto).
  assert (HD : exists s4 ok, match dtor with None => Ok (s3, 1) | Some fn => Own_c e c i s3 p fn end = Ok (s4, ok) /\ post s3 s4).
  { destruct dtor as [fn|].
    - destruct (Own_c_ok e c A HA HG s3 i p fn (proj1 Q3) (in_frame _ _ _ Q03 HL) (calls_of _ _ Q03 HCs)) as (s4 & ok & E4 & Q4 & _). eauto.
    - exists s3, 1. split; auto. apply op_post_refl. apply Q3. }
  destruct HD as (s4 & ok & -> & Q4). cbn [bind]. assert (Q04 : post s s4) by (eapply op_post_trans; eauto).
  assert (IN4 : In (i, p, sz) (live_ranges (m_hist (s_mem s4)))).
  { eapply ranges_ext; [apply Q4|]. eapply ranges_ext; [apply Q3|]. exact IN2. }
  assert (T4 : places s s4 ((i, p, sz) :: t3)).
  { eapply places_later; [exact Q4|]. apply (places_app s s2 s3 [(i, p, sz)] t3); [apply Q3| |exact F3].
    destruct (post_new _ _ P1) as (n1 & L1). exists ((i, p, sz) :: n1). split; [rewrite (hand_new s1 i p sz s2 (proj1 P1) HR E2), L1; reflexivity|].
    split; [repeat constructor; exists p, sz; split; [simpl; auto|lia]|repeat constructor]. }
  destruct (ok =? 0). { eexists _, _, _. split; [reflexivity|]. split; auto. split; [congruence|auto]. }
  destruct (told_ok A s4 i ty sz (proj1 Q4) (in_frame _ _ _ Q04 HL)) as (s5 & E5 & Q5 & _). rewrite E5. cbn [bind].
  assert (Q05 : post s s5) by (eapply op_post_trans; eauto).
  destruct (called_ok e c A HA HG s5 i (proj1 Q5) (in_frame _ _ _ Q05 HL) (calls_of _ _ Q05 HCs)) as (s6 & E6 & Q6 & _). rewrite E6. cbn [bind].
  assert (Q46 : post s4 s6) by (eapply op_post_trans; eauto).
  eexists _, _, _. split; [reflexivity|]. split; [eapply op_post_trans; eauto|]. split.
  - intros n al Hra _. inv Hra. split; auto. split; auto. exists i. split; [reflexivity|]. eapply ranges_ext; [apply Q46|auto].
  - eapply places_later; [exact Q46|auto].
Qed.

Lemma array_good sz num ty ctor : (forall k p, run_good (ctor k p)) -> exec_good (XArray sz num ty ctor).
Proof.
  intros IH s0 i s P HX HC. cbn in HX. destruct HX as (HL0 & H1 & H2 & H3 & HX). rewrite exec_array.
  pose proof (in_frame _ _ _ P HL0) as HL. pose proof (calls_of _ _ P HC) as HCs. pose proof (proj1 P) as HI.
  destruct (Z.eqb_spec sz 0); [lia|].
  destruct (Z.ltb_spec ((M64 - 1) / sz) num) as [L|L].
  { exfalso. assert (num <= (M64 - 1) / sz); [|lia]. apply Z.div_le_lower_bound; auto. unfold max_request, M64 in *. lia. }
  cbv zeta. rewrite mul64_small by (unfold M64, max_request in *; nia).
  destruct (allocate_ok e c A HA HG s i (sz * num) kByteSize HI HL HCs ltac:(unfold max_request; nia) al8'') as (s1 & p & E & P1 & HR). rewrite E. cbn [bind].
  destruct (Z.eqb_spec p 0) as [->|NZ]. { eexists _, _, _. split; [reflexivity|]. split; auto. split; [congruence|]. now apply places_nil. }
  destruct HR as [HR|(P0 & P2 & HR)]; [lia|]. rewrite (Z.mul_comm sz num) in HR.
  destruct (hand_ok A s1 i p _ (proj1 P1) HR) as (s2 & E2 & Q2 & IN2). rewrite E2. cbn [bind].
  assert (Q02 : post s s2) by (eapply op_post_trans; eauto).
  destruct (elements_ok i p sz ctor num H1 P0 IH (Z.to_nat num) 0 s0 s2) as (s3 & t3 & n3 & E3 & Q3 & L3 & F3 & W3); auto.
  { eapply op_post_trans; eauto. } { lia. }
  rewrite E3. cbn [bind]. assert (Q03 : post s s3) by (eapply op_post_trans; eauto).
  destruct (told_ok A s3 i ty (sz * num) (proj1 Q3) (in_frame _ _ _ Q03 HL)) as (s4 & E4 & Q4 & _). rewrite E4. cbn [bind].
  assert (Q04 : post s s4) by (eapply op_post_trans; eauto).
  destruct (called_ok e c A HA HG s4 i (proj1 Q4) (in_frame _ _ _ Q04 HL) (calls_of _ _ Q04 HCs)) as (s5 & E5 & Q5 & _). rewrite E5. cbn [bind].
  assert (Q35 : post s3 s5) by (eapply op_post_trans; eauto).
  eexists _, _, _. split; [reflexivity|]. split; [eapply op_post_trans; eauto|]. split.
  - intros n0 al Hra _. inv Hra. split; auto. split; auto. exists i. split; [reflexivity|].
    eapply ranges_ext; [apply Q35|]. eapply ranges_ext; [apply Q3|auto].
  - eapply places_later; [exact Q35|]. destruct (post_new _ _ P1) as (n1 & L1). exists (n3 ++ (i, p, num * sz) :: n1).
    split; [rewrite L3, (hand_new s1 i p _ s2 (proj1 P1) HR E2), L1, <- app_assoc; reflexivity|]. split; auto.
    eapply Forall_impl; [|exact F3]. intros x [Hx|(m & Hm & ->)]; [now apply within_app_l|]. apply within_app_r. exists p, (num * sz).
    split; [simpl; auto|]. nia.
Qed.

Lemma all_good : (forall x, exec_good x) /\ (forall q, run_good q).
Proof.
  apply xop_xprog_ind.
  - apply op_good.
  - intros. now apply create_good.
  - intros. now apply array_good.
  - intros s0 s P _ _. exists s, []. split; auto. assert (P' : post s s) by (apply op_post_refl; apply P). split; auto. now apply places_nil.
  - intros j x Hx next Hn s0 s P [H1 H2] HC. rewrite run_do.
    destruct (Hx s0 j s P H1 HC) as (s1 & r & t & E & P1 & _ & F1). rewrite E. cbn [bind].
    destruct (Hn r s0 s1) as (s2 & t2 & E2 & P2 & F2); auto. { eapply op_post_trans; eauto. }
    rewrite E2. cbn [bind]. eexists _, _. split; [reflexivity|]. split; [eapply op_post_trans; eauto|].
    eapply places_app; eauto. apply P2.
Qed.

Lemma post_refl s : inv A s -> post s s.
Proof. apply op_post_refl. Qed.

Lemma step_x_ok k s o : inv A s -> permitted_x A k c s o ->
  exists s' r t, step_x e c k s o = Ok (s', r, t) /\ (tame_x s s' o -> inv A s').
Proof.
  intros HI HP. destruct o as [o|i x]; cbn [step_x tame_x].
  - destruct (step_c_ok e c A HA HG k s o HI HP) as (s' & r & E & H). rewrite E. cbn [bind]. eauto.
  - destruct HP as [H1 H2]. destruct (proj1 all_good x s i s (post_refl s HI) H1 H2) as (s' & r & t & E & P & _).
    exists s', r, t. split; auto. intros _. apply P.
Qed.
Lemma reach_x_inv k s : reach_x e k c A s -> inv A s.
Proof.
  induction 1 as [|s o s' r t HR IH HP HS HT]; [exact (Inv_init A)|].
  destruct (step_x_ok k s o IH HP) as (s2 & r2 & t2 & E & HI). rewrite HS in E. inv E. auto.
Qed.

(** * What a run of CreateArray and Create consists of *)
Lemma later_ext m m' : ext m m' <-> later (m_hist m) (m_hist m').
Proof.
  unfold ext, later. split; intros (evs & E & F); exists evs; (split; [exact E|]); (eapply Forall_impl; [|exact F]); intros x; apply request_iff.
Qed.
Lemma post_later s s' : post s s' -> later (m_hist (s_mem s)) (m_hist (s_mem s')).
Proof. intros (_ & _ & X). now apply later_ext. Qed.
Lemma later_trans h1 h2 h3 : later h1 h2 -> later h2 h3 -> later h1 h3.
Proof.
  intros (e1 & -> & Y1) (e2 & -> & Y2). exists (e2 ++ e1). rewrite app_assoc. split; auto. apply Forall_app; auto.
Qed.
Lemma later_pending h h' i : later h h' -> exists t, pending h' i = t ++ pending h i.
Proof.
  intros (evs & -> & F). exists (registered i evs). apply inner_pending. eapply Forall_impl; [|exact F]. intros x Hx. left. now apply request_iff.
Qed.

Lemma elements_order i p sz ctor N : 0 < sz -> 0 < p ->
  forall n k s0 s, post s0 s -> (forall k q, xprog_ok A s0 (ctor k q)) -> calls_ok A c s0 ->
  Z.of_nat (k + n) <= N -> In (i, p, N * sz) (live_ranges (m_hist (s_mem s))) ->
  exists s' t inner, elements i p sz ctor n k s = Ok (s', t) /\
    t = flat_map (fun m => (i, p + Z.of_nat m * sz, sz) :: inner m) (seq k n) /\
    forall m, (k <= m < k + n)%nat -> exists s1 s2, run_x e c (ctor m (p + Z.of_nat m * sz)) s1 = Ok (s2, inner m) /\
      later (m_hist (s_mem s)) (m_hist (s_mem s1)) /\ later (m_hist (s_mem s2)) (m_hist (s_mem s')) /\
      In (i, p, N * sz) (live_ranges (m_hist (s_mem s1))).
Proof.
  intros Hs Hp. induction n as [|n IH]; intros k s0 s P HX HC HN IN; cbn [elements].
  - exists s, [], (fun _ => []). split; auto. split; auto. intros m Hm. lia.
  - destruct (proj2 all_good (ctor k (p + Z.of_nat k * sz)) s0 s P (HX _ _) HC) as (s1 & t1 & E1 & P1 & F1). cbv zeta. rewrite E1. cbn [bind].
    assert (P01 : post s0 s1) by (eapply op_post_trans; eauto).
    assert (IN1 : In (i, p, N * sz) (live_ranges (m_hist (s_mem s1)))) by (eapply ranges_ext; [apply P1|exact IN]).
    destruct (IH (S k) s0 s1) as (s2 & t2 & inner & E2 & T2 & V2); auto. { lia. }
    destruct (elements_ok i p sz ctor N Hs Hp (fun k q => proj2 all_good (ctor k q)) n (S k) s0 s1 P01 HX HC ltac:(lia) IN1) as (s2' & t2' & n2' & E2' & P2 & _).
    rewrite E2 in E2'. inv E2'.
    fold (elements i p sz ctor). rewrite E2. cbn [bind]. exists s2'. eexists. exists (fun m => if (m =? k)%nat then t1 else inner m).
    split; [reflexivity|]. split.
    + cbn [seq flat_map]. rewrite Nat.eqb_refl. cbn [app]. f_equal. f_equal. rewrite !flat_map_concat_map. f_equal.
      apply map_ext_in. intros m Hm. apply in_seq in Hm. destruct (Nat.eqb_spec m k); [lia|reflexivity].
    + intros m Hm. destruct (Nat.eqb_spec m k) as [->|NE].
      * exists s, s1. split; auto. split; [apply post_later, post_refl; apply P|]. split; [now apply post_later|auto].
      * destruct (V2 m ltac:(lia)) as (s3 & s4 & R & L1 & L2 & I3). exists s3, s4. split; auto. split; [|auto].
        eapply later_trans; [apply post_later; exact P1|exact L1].
Qed.

Lemma post_before h s s' : later h (m_hist (s_mem s)) -> post s s' -> later h (m_hist (s_mem s')).
Proof.
  intros L P. eapply later_trans; [exact L|now apply post_later].
Qed.

Lemma array_run sz num ty ctor i s s' r t : inv A s -> xop_ok A s (XArray sz num ty ctor) i -> calls_ok A c s ->
  exec_x e c (XArray sz num ty ctor) i s = Ok (s', r, t) ->
  (r = 0 /\ t = []) \/
  (exists inner, t = flat_map (fun m => (i, r + Z.of_nat m * sz, sz) :: inner m) (seq 0 (Z.to_nat num)) /\
    forall m, (m < Z.to_nat num)%nat -> exists s1 s2, run_x e c (ctor m (r + Z.of_nat m * sz)) s1 = Ok (s2, inner m) /\
      later (m_hist (s_mem s)) (m_hist (s_mem s1)) /\ later (m_hist (s_mem s2)) (m_hist (s_mem s')) /\
      In (i, r, num * sz) (live_ranges (m_hist (s_mem s1)))).
Proof.
  intros HI HX HC. pose proof HX as HXX. cbn in HX. destruct HX as (HL & H1 & H2 & H3 & HX). rewrite exec_array.
  destruct (Z.eqb_spec sz 0); [lia|].
  destruct (Z.ltb_spec ((M64 - 1) / sz) num) as [L|L].
  { exfalso. assert (num <= (M64 - 1) / sz); [|lia]. apply Z.div_le_lower_bound; auto. unfold max_request, M64 in *. lia. }
  cbv zeta. rewrite mul64_small by (unfold M64, max_request in *; nia).
  destruct (allocate_ok e c A HA HG s i (sz * num) kByteSize HI HL HC ltac:(unfold max_request; nia) al8'') as (s1 & p & E & P1 & HR). rewrite E. cbn [bind].
  destruct (Z.eqb_spec p 0) as [->|NZ]. { intros H. inv H. auto. }
  destruct HR as [HR|(P0 & P2 & HR)]; [lia|]. rewrite (Z.mul_comm sz num) in HR.
  destruct (hand_ok A s1 i p _ (proj1 P1) HR) as (s2 & E2 & Q2 & IN2). rewrite E2. cbn [bind].
  assert (Q02 : post s s2) by (eapply op_post_trans; eauto).
  destruct (elements_order i p sz ctor num H1 P0 (Z.to_nat num) 0 s s2 Q02 HX HC ltac:(lia) IN2) as (s3 & t3 & inner & E3 & T3 & V3).
  destruct (elements_ok i p sz ctor num H1 P0 (fun k q => proj2 all_good (ctor k q)) (Z.to_nat num) 0 s s2 Q02 HX HC ltac:(lia) IN2) as (s3' & t3' & n3' & E3' & Q3 & _).
  rewrite E3 in E3'. inv E3'.
  rewrite E3. cbn [bind]. assert (Q03 : post s s3') by (eapply op_post_trans; eauto).
  destruct (told_ok A s3' i ty (sz * num) (proj1 Q3) (in_frame _ _ _ Q03 HL)) as (s4 & E4 & Q4 & _). rewrite E4. cbn [bind].
  assert (Q04 : post s s4) by (eapply op_post_trans; eauto).
  destruct (called_ok e c A HA HG s4 i (proj1 Q4) (in_frame _ _ _ Q04 HL) (calls_of _ _ Q04 HC)) as (s5 & E5 & Q5 & _). rewrite E5. cbn [bind].
  assert (Q35 : post s3' s5) by (eapply op_post_trans; eauto).
  intros H. inv H. right. exists inner. split; auto. intros m Hm. destruct (V3 m ltac:(lia)) as (sa & sb & R & L1 & L2 & IN). exists sa, sb.
  split; auto. split; [eapply later_trans; [apply post_later; exact Q02|auto]|]. split; [eapply post_before; eauto|auto].
Qed.

Lemma Own_pending s i obj fn s' r : inv A s -> alive s i -> calls_ok A c s -> Own_c e c i s obj fn = Ok (s', r) -> r <> 0 ->
  exists t, pending (m_hist (s_mem s')) i = (obj, fn) :: t ++ pending (m_hist (s_mem s)) i.
Proof.
  intros HI HL HC H Hr. unfold Own_c in H. destruct (addCleanup_c_ok e c A HA HG s i obj fn HI HL HC) as (s1 & ok & E & F & X & _).
  rewrite E in H. cbn [bind] in H. destruct ok; inv H; [|congruence].
  apply later_ext in X. destruct (later_pending _ _ i X) as (t & Et). exists t. simpl. rewrite Nat.eqb_refl. simpl. now rewrite <- Et.
Qed.

Lemma create_run sz ty dtor ctor i s s' r t : inv A s -> xop_ok A s (XCreate sz ty dtor ctor) i -> calls_ok A c s ->
  exec_x e c (XCreate sz ty dtor ctor) i s = Ok (s', r, t) -> r <> 0 ->
  exists inner s1 s2, t = (i, r, sz) :: inner /\ run_x e c (ctor r) s1 = Ok (s2, inner) /\
    later (m_hist (s_mem s)) (m_hist (s_mem s1)) /\ later (m_hist (s_mem s2)) (m_hist (s_mem s')) /\
    In (i, r, sz) (live_ranges (m_hist (s_mem s1))) /\
    match dtor with
    | None => True
    | Some fn => exists t1 t2, pending (m_hist (s_mem s')) i = t1 ++ (r, fn) :: t2 ++ pending (m_hist (s_mem s2)) i
    end.
Proof.
  intros HI HX HC. pose proof HX as HXX. cbn in HX. destruct HX as (HL & Hb & HX). rewrite exec_create.
  destruct (allocate_ok e c A HA HG s i sz kByteSize HI HL HC Hb al8'') as (s1 & p & E & P1 & HR). rewrite E. cbn [bind].
  destruct (Z.eqb_spec p 0) as [->|NZ]. { intros H Hr. inv H. congruence. }
  destruct HR as [HR|(P0 & P2 & HR)]; [lia|].
  destruct (hand_ok A s1 i p sz (proj1 P1) HR) as (s2 & E2 & Q2 & IN2). rewrite E2. cbn [bind].
  assert (Q02 : post s s2) by (eapply op_post_trans; eauto).
  destruct (proj2 all_good (ctor p) s s2 Q02 (HX p) HC) as (s3 & t3 & E3 & Q3 & F3).
  rewrite E3. cbn [bind]. cbv zeta.
  assert (Q03 : post s s3) by (eapply op_post_trans; eauto).
  assert (HD : exists s4 ok, match dtor with None => Ok (s3, 1) | Some fn => Own_c e c i s3 p fn end = Ok (s4, ok) /\ post s3 s4 /\
     (ok <> 0 -> match dtor with None => True | Some fn => exists t2, pending (m_hist (s_mem s4)) i = (p, fn) :: t2 ++ pending (m_hist (s_mem s3)) i end)).
  { destruct dtor as [fn|].
    - destruct (Own_c_ok e c A HA HG s3 i p fn (proj1 Q3) (in_frame _ _ _ Q03 HL) (calls_of _ _ Q03 HC)) as (s4 & ok & E4 & Q4 & _).
      exists s4, ok. split; auto. split; auto. intros Ho.
      apply (Own_pending s3 i p fn s4 ok (proj1 Q3) (in_frame _ _ _ Q03 HL) (calls_of _ _ Q03 HC) E4 Ho).
    - exists s3, 1. split; auto. split; auto. apply op_post_refl. apply Q3. }
  destruct HD as (s4 & ok & -> & Q4 & HP). cbn [bind]. assert (Q04 : post s s4) by (eapply op_post_trans; eauto).
  destruct (Z.eqb_spec ok 0) as [->|NO]. { intros H Hr. inv H. congruence. }
  destruct (told_ok A s4 i ty sz (proj1 Q4) (in_frame _ _ _ Q04 HL)) as (s5 & E5 & Q5 & _). rewrite E5. cbn [bind].
  assert (Q05 : post s s5) by (eapply op_post_trans; eauto).
  destruct (called_ok e c A HA HG s5 i (proj1 Q5) (in_frame _ _ _ Q05 HL) (calls_of _ _ Q05 HC)) as (s6 & E6 & Q6 & _). rewrite E6. cbn [bind].
  assert (Q46 : post s4 s6) by (eapply op_post_trans; eauto). assert (Q36 : post s3 s6) by (eapply op_post_trans; eauto).
  intros H Hr. inv H. exists t3, s2, s3. split; auto. split; auto. split; [now apply post_later|]. split; [now apply post_later|]. split; auto.
  specialize (HP NO). destruct dtor as [fn|]; auto. destruct HP as (t2 & Et2).
  destruct (later_pending _ _ i (post_later _ _ Q46)) as (t1 & Et1). exists t1, t2. now rewrite Et1, Et2.
Qed.

(** * Constructors that do as before *)
Lemma inject_same : forall o i s, (do (s', r, _) <- exec_x e c (inject i o) i s; Ok (s', r)) = exec_c e c o i s.
Proof.
  fix IH 1. intros o i s.
  assert (OP : forall o, (do (s', r, _) <- exec_x e c (XOp o) i s; Ok (s', r)) = exec_c e c o i s).
  { intros o0. cbn [exec_x]. destruct (exec_c e c o0 i s) as [[s' r]| |]; reflexivity. }
  destruct o; try apply OP; cbn [inject].
  - rewrite exec_create. cbn [exec_c]. destruct (allocate_c e c i s sz kByteSize) as [[s1 p]| |]; cbn [bind]; auto.
    destruct (p =? 0); auto. destruct (hand_c i s1 p sz) as [s2| |]; cbn [bind]; auto.
    match goal with |- context [run_x e c ?q s2] => set (prog := q) end.
    match goal with |- context [?f body s2] => set (go := f) end.
    assert (B : (do (s3, _) <- run_x e c prog s2; Ok s3) = go body s2).
    { unfold prog. clear prog OP s1 p s. revert s2. induction body as [|y l IHl]; intros s2; [reflexivity|].
      rewrite run_do. cbn [go]. rewrite <- (IH y i s2). destruct (exec_x e c (inject i y) i s2) as [[[s3 r3] t3]| |]; cbn [bind]; auto.
      rewrite <- IHl. match goal with |- context [run_x e c ?q s3] => destruct (run_x e c q s3) as [[s4 t4]| |] end; reflexivity. }
    rewrite <- B. destruct (run_x e c prog s2) as [[s3 t3]| |]; cbn [bind]; auto.
    destruct (match dtor with None => Ok (s3, 1) | Some fn => Own_c e c i s3 p fn end) as [[s4 ok]| |]; cbn [bind]; auto.
    destruct (ok =? 0); auto. destruct (told_c i s4 ty sz) as [s5| |]; cbn [bind]; auto. destruct (called_c e c i s5); reflexivity.
  - rewrite exec_array. cbn [exec_c]. destruct (sz =? 0); auto. cbv zeta.
    destruct (allocate_c e c i _ (mul64 sz num) kByteSize) as [[s1 p]| |]; cbn [bind]; auto.
    destruct (p =? 0); auto. destruct (hand_c i s1 p (num * sz)) as [s2| |]; cbn [bind]; auto.
    assert (EL : forall n k, exists t, elements i p sz (fun _ _ => XDone) n k s2 = Ok (s2, t)).
    { induction n as [|n IHn]; intros k; cbn [elements]; [eauto|]. destruct (IHn (S k)) as (t & Et). cbn [run_x bind].
      fold (elements i p sz (fun _ _ => XDone)). rewrite Et. cbn [bind]. eauto. }
    destruct (EL (Z.to_nat num) 0%nat) as (t & ->). cbn [bind].
    destruct (told_c i s2 ty (mul64 sz num)) as [s4| |]; cbn [bind]; auto. destruct (called_c e c i s4); reflexivity.
Qed.
End S.
