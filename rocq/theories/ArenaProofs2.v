Require Import ZArith List Bool Lia Permutation.
From Verif Require Import Base BaseProofs AlignModel BasicSpec BasicProofs ArenaSpec ArenaModel ArenaStatements ArenaProofs.
Import ListNotations.
Open Scope Z_scope.

(** * Frames *)
Definition cfg_rel (x y : option (option arena)) : Prop :=
  match x, y with
  | Some (Some a), Some (Some a') => same_cfg a a'
  | None, None => True
  | Some None, Some None => True
  | _, _ => False
  end.
Definition frame (l l' : list (option arena)) : Prop :=
  forall j, cfg_rel (nth_error l j) (nth_error l' j).

Lemma frame_refl l : frame l l.
Proof. intros j. unfold cfg_rel. destruct (nth_error l j) as [[a|]|]; auto. repeat split. Qed.

Lemma frame_trans l1 l2 l3 : frame l1 l2 -> frame l2 l3 -> frame l1 l3.
Proof.
  intros H1 H2 j. specialize (H1 j). specialize (H2 j). unfold cfg_rel in *.
  destruct (nth_error l1 j) as [[a|]|], (nth_error l2 j) as [[b|]|], (nth_error l3 j) as [[c|]|]; try tauto.
  unfold same_cfg in *. destruct H1 as (?&?&?), H2 as (?&?&?). repeat split; congruence.
Qed.

Lemma frame_upd l i a a' : nth_error l i = Some (Some a) -> same_cfg a a' -> frame l (upd i (Some a') l).
Proof.
  intros Hi Hc j. destruct (Nat.eq_dec i j) as [<-|NE].
  - rewrite Hi. erewrite nth_error_upd_eq by eauto. exact Hc.
  - rewrite nth_error_upd_ne by auto. apply frame_refl.
Qed.

Lemma frame_alive s s' i : frame (s_arenas s) (s_arenas s') -> alive s i -> alive s' i.
Proof.
  intros H (a & Ha). specialize (H i). rewrite Ha in H. unfold cfg_rel in H.
  destruct (nth_error (s_arenas s') i) as [[b|]|] eqn:E; try easy. now exists b.
Qed.

Lemma frame_resource s s' i : frame (s_arenas s) (s_arenas s') -> resource_alive s i -> resource_alive s' i.
Proof.
  intros H (a & j & Ha & Hr & Hj). pose proof (H i) as Hi. rewrite Ha in Hi. unfold cfg_rel in Hi.
  destruct (nth_error (s_arenas s') i) as [[b|]|] eqn:E; try easy.
  exists b, j. split; auto. split; [destruct Hi as (_ & -> & _); auto|]. eapply frame_alive; eauto.
Qed.

Lemma get_arena_ok s i a : nth_error (s_arenas s) i = Some (Some a) -> get_arena s i = Ok a.
Proof. intros H. unfold get_arena. now rewrite H. Qed.

(** * History extension *)
Definition alloc_event (ev : event) : Prop :=
  match ev with
  | EBlockAlloc _ _ _ | ELog | HAlloc _ _ _ _ | HNewBlock _ _ _ _ | CRange _ _ _ | CRegister _ _ _ => True
  | _ => False
  end.
Definition ext (m m' : mem) : Prop :=
  exists evs, m_hist m' = evs ++ m_hist m /\ Forall alloc_event evs.

Lemma ext_refl m : ext m m.
Proof. exists []. split; auto. Qed.
Lemma ext_trans m1 m2 m3 : ext m1 m2 -> ext m2 m3 -> ext m1 m3.
Proof.
  intros (e1 & E1 & F1) (e2 & E2 & F2). exists (e2 ++ e1). split.
  - now rewrite E2, E1, app_assoc.
  - apply Forall_app; auto.
Qed.
Lemma ext_emit m m' ev : ext m m' -> alloc_event ev -> ext m (emit m' ev).
Proof. intros (e1 & E1 & F1) H. exists (ev :: e1). simpl. rewrite E1. auto. Qed.
Lemma ext_hist m m1 m2 : ext m m1 -> m_hist m2 = m_hist m1 -> ext m m2.
Proof. intros (e1 & E1 & F1) H. exists e1. rewrite H. auto. Qed.

Ltac bk H := apply bind_ok in H; destruct H as (? & ? & H).
Ltac split_ext := repeat first
  [ apply ext_refl | apply ext_emit; [|exact I] ].

Lemma ensure_block_ext e i a m n al a' m' ok : ensure_block e i a m n al = Ok (a', m', ok) -> ext m m'.
Proof.
  unfold ensure_block. intros H. bk H. destruct x; [|inv H; apply ext_refl].
  bk H. destruct x as [[a1 m1] ob]. unfold newBlock in H1. bk H1.
  set (m0 := if M64 - 1 - kBlockHeaderSize <? n then emit m ELog else m) in *.
  assert (E0 : ext m m0) by (unfold m0; destruct (_ <? _); split_ext).
  destruct (e_alloc e (m_hist m0) x) as [addr|].
  - inv H1. inv H.
    destruct (o_on_newblock (a_opts a)).
    + apply ext_emit; [|exact I]. eapply ext_hist; [|reflexivity]. apply ext_emit; [exact E0|exact I].
    + eapply ext_hist; [|reflexivity]. apply ext_emit; [exact E0|exact I].
  - inv H1. inv H. apply ext_emit; [exact E0|exact I].
Qed.

Lemma allocateAligned_ext e i a m n al a' m' p : allocateAligned e i a m n al = Ok (a', m', p) -> ext m m'.
Proof.
  unfold allocateAligned. intros H. bk H. destruct x as [[a1 m1] ok].
  apply ensure_block_ext in H0. destruct ok; [|inv H; auto].
  destruct (a_blocks a1); [discriminate|]. bk H. destruct x. bk H. inv H. auto.
Qed.

Lemma touch_hist m p n m' : touch m p n = Ok m' -> m_hist m' = m_hist m.
Proof. unfold touch. destruct (accessible m p n); intros H; inv H. reflexivity. Qed.

Lemma addCleanup_ext e i a m o f a' m' ok : addCleanup e i a m o f = Ok (a', m', ok) -> ext m m'.
Proof.
  unfold addCleanup. intros H. bk H. destruct x as [[a1 m1] b].
  apply ensure_block_ext in H0. destruct b; [|inv H; auto].
  destruct (a_blocks a1); [discriminate|]. bk H. destruct x as [b' m2]. inv H.
  unfold register_cleanup in H1. bk H1. destruct x as [b1 p].
  destruct (negb _); [discriminate|]. bk H1. inv H1.
  apply touch_hist in H2. eapply ext_hist; [exact H0|]. simpl. auto.
Qed.

Lemma hand_out_ext i m p n m' : hand_out i m p n = Ok m' -> ext m m'.
Proof.
  unfold hand_out. intros H. bk H. inv H. apply touch_hist in H0.
  apply ext_emit; [|exact I]. eapply ext_hist; [apply ext_refl|auto].
Qed.

Lemma hook_alloc_ext i a m ty n : ext m (hook_alloc i a m ty n).
Proof. unfold hook_alloc. destruct (o_on_alloc _); split_ext. Qed.

Lemma hook_alloc_inv A l i a m ty n : Inv A l m -> Inv A l (hook_alloc i a m ty n).
Proof. unfold hook_alloc. destruct (o_on_alloc _); auto. apply Inv_quiet; exact I. Qed.

Lemma hook_alloc_ranges i a m ty n : live_ranges (m_hist (hook_alloc i a m ty n)) = live_ranges (m_hist m).
Proof. unfold hook_alloc. destruct (o_on_alloc _); reflexivity. Qed.

Lemma reserved_hist l m m' i p n : live_ranges (m_hist m') = live_ranges (m_hist m) ->
  reserved l m i p n -> reserved l m' i p n.
Proof. intros E (H1 & H2 & H3). split; auto. split; auto. rewrite E. auto. Qed.

Lemma ranges_register i o f m : live_ranges (m_hist (emit m (CRegister i o f))) = live_ranges (m_hist m).
Proof. reflexivity. Qed.

(** * The operations preserve the invariant *)
Section Ops.
Variable e : env.
Variable A : Z.
Hypothesis HA : block_alignment A.
Hypothesis HG : good_block_alloc A (e_alloc e).

(** What a successful operation guarantees. *)
Definition op_post (s s' : sys) : Prop :=
  Inv A (s_arenas s') (s_mem s') /\ frame (s_arenas s) (s_arenas s') /\ ext (s_mem s) (s_mem s').

(** Range returned to the client. *)
Definition returned (i : nat) (p n al : Z) (s' : sys) : Prop :=
  p = 0 \/ (0 < p /\ p mod al = 0 /\ In (i, p, n) (live_ranges (m_hist (s_mem s')))).

Lemma on_arena_ok s i a f :
  nth_error (s_arenas s) i = Some (Some a) ->
  (exists a' m' r, f a (s_mem s) = Ok (a', m', r) /\ Inv A (upd i (Some a') (s_arenas s)) m' /\ same_cfg a a' /\ ext (s_mem s) m') ->
  exists a' m' r, f a (s_mem s) = Ok (a', m', r) /\ on_arena s i f = Ok (put s i a' m', r) /\ op_post s (put s i a' m').
Proof.
  intros Hi (a' & m' & r & E & HI & Hc & Hx). exists a', m', r. split; auto.
  unfold on_arena. rewrite (get_arena_ok s i a Hi). cbn [bind]. rewrite E. cbn [bind].
  split; auto. split; [exact HI|]. split; [|exact Hx]. eapply frame_upd; eauto.
Qed.

Lemma AllocateAligned_ok l m i a bytes al :
  Inv A l m -> nth_error l i = Some (Some a) -> 0 <= bytes <= max_request -> alignment_ok A al ->
  exists a' m' p, AllocateAligned e i a m bytes al = Ok (a', m', p) /\
    Inv A (upd i (Some a') l) m' /\ same_cfg a a' /\ ext m m' /\
    ((p = 0 /\ alloc_failed i a a' m m') \/
     (0 < p /\ p mod al = 0 /\ live_ranges (m_hist m') = (i, p, bytes) :: live_ranges (m_hist m))).
Proof.
  intros HI Hi Hb Hal. unfold AllocateAligned.
  destruct (allocateAligned_ok e A l m i a bytes al HA HG HI Hi Hb Hal)
    as (a1 & m1 & p & E & HI1 & Hr & Hp & Hc & Hres).
  pose proof (allocateAligned_ext _ _ _ _ _ _ _ _ _ E) as X1.
  rewrite E. cbn [bind]. destruct (Z.eqb_spec p 0) as [->|NZ].
  - exists a1, m1, 0. repeat (split; [auto; fail|]). destruct Hres as [[_ Hf]|[]]; [left; auto|lia].
  - destruct Hres as [[]|(P0 & P1 & HR)]; [lia|].
    pose proof (hook_alloc_inv A _ i a1 m1 0 bytes HI1) as HI2.
    pose proof (hook_alloc_ranges i a1 m1 0 bytes) as E2.
    destruct (hand_out_ok A _ _ i p bytes HI2 (reserved_hist _ _ _ _ _ _ E2 HR)) as (m3 & E3 & HI3 & Hr3 & _).
    rewrite E3. cbn [bind]. exists a1, m3, p. split; auto. split; auto. split; auto. split.
    + eapply ext_trans; [exact X1|]. eapply ext_trans; [apply hook_alloc_ext|]. eapply hand_out_ext; eauto.
    + right. split; auto. split; auto. rewrite Hr3, E2, Hr. reflexivity.
Qed.

Lemma max8_al al : (al = 1 \/ al = 2 \/ al = 4 \/ alignment_ok A al) -> alignment_ok A (Z.max kByteSize al).
Proof.
  change kByteSize with 8. intros H.
  assert (8 <= A) by (destruct HA as [->|[->| ->]]; lia).
  destruct H as [->|[->|[->|[H1 H2]]]];
    try (split; [left; reflexivity|simpl; lia]).
  destruct H1 as [->|[->| ->]]; (split; [simpl; auto|simpl; lia]).
Qed.

Lemma resource_allocate_ok l m i a bytes al :
  Inv A l m -> nth_error l i = Some (Some a) -> 0 <= bytes <= max_request ->
  (al = 1 \/ al = 2 \/ al = 4 \/ alignment_ok A al) ->
  exists a' m' p, resource_allocate e i a m bytes al = Ok (a', m', p) /\
    Inv A (upd i (Some a') l) m' /\ same_cfg a a' /\ ext m m' /\
    ((p = 0 /\ alloc_failed i a a' m m') \/
     (0 < p /\ p mod (Z.max 8 al) = 0 /\ live_ranges (m_hist m') = (i, p, bytes) :: live_ranges (m_hist m))).
Proof.
  intros HI Hi Hb Hal. unfold resource_allocate.
  destruct (allocateAligned_ok e A l m i a bytes (Z.max kByteSize al) HA HG HI Hi Hb (max8_al al Hal))
    as (a1 & m1 & p & E & HI1 & Hr & Hp & Hc & Hres).
  pose proof (allocateAligned_ext _ _ _ _ _ _ _ _ _ E) as X1.
  rewrite E. cbn [bind]. destruct (Z.eqb_spec p 0) as [->|NZ].
  - exists a1, m1, 0. repeat (split; [auto; fail|]). destruct Hres as [[_ Hf]|[]]; [left; auto|lia].
  - destruct Hres as [[]|(P0 & P1 & HR)]; [lia|].
    destruct (hand_out_ok A _ _ i p bytes HI1 HR) as (m3 & E3 & HI3 & Hr3 & _).
    rewrite E3. cbn [bind]. exists a1, m3, p. split; auto. split; auto. split; auto. split.
    + eapply ext_trans; [exact X1|]. eapply hand_out_ext; eauto.
    + right. split; auto. split; auto. rewrite Hr3, Hr. reflexivity.
Qed.

Lemma al8 : alignment_ok A 8.
Proof. split; [auto|destruct HA as [->|[->| ->]]; lia]. Qed.

Lemma CreateArray_ok l m i a sz num ty :
  Inv A l m -> nth_error l i = Some (Some a) -> 0 < sz -> 0 <= num -> sz * num <= max_request ->
  exists a' m' p, CreateArray e i a m sz num ty = Ok (a', m', p) /\
    Inv A (upd i (Some a') l) m' /\ same_cfg a a' /\ ext m m' /\
    ((p = 0 /\ alloc_failed i a a' m m') \/
     (0 < p /\ p mod 8 = 0 /\ live_ranges (m_hist m') = (i, p, num * sz) :: live_ranges (m_hist m))).
Proof.
  intros HI Hi Hs Hn Hb. unfold CreateArray. destruct (Z.eqb_spec sz 0); [lia|].
  destruct (Z.ltb_spec ((M64 - 1) / sz) num) as [L|L].
  { exfalso. assert (num <= (M64 - 1) / sz); [|lia]. apply Z.div_le_lower_bound; auto.
    unfold max_request, M64 in *. lia. }
  cbv zeta. rewrite mul64_small by (unfold M64, max_request in *; nia).
  destruct (allocateAligned_ok e A l m i a (sz * num) kByteSize HA HG HI Hi ltac:(nia) al8)
    as (a1 & m1 & p & E & HI1 & Hr & Hp & Hc & Hres).
  pose proof (allocateAligned_ext _ _ _ _ _ _ _ _ _ E) as X1.
  rewrite E. cbn [bind]. destruct (Z.eqb_spec p 0) as [->|NZ].
  - exists a1, m1, 0. repeat (split; [auto; fail|]). destruct Hres as [[_ Hf]|[]]; [left; auto|lia].
  - destruct Hres as [[]|(P0 & P1 & HR)]; [lia|]. rewrite (Z.mul_comm sz num) in HR.
    destruct (hand_out_ok A _ _ i p _ HI1 HR) as (m3 & E3 & HI3 & Hr3 & _).
    rewrite E3. cbn [bind]. eexists a1, _, p. split; [reflexivity|].
    split; [apply hook_alloc_inv; auto|]. split; auto. split.
    + eapply ext_trans; [exact X1|]. eapply ext_trans; [eapply hand_out_ext; eauto|]. apply hook_alloc_ext.
    + right. split; auto. split; auto. rewrite hook_alloc_ranges, Hr3, Hr. reflexivity.
Qed.

Lemma Own_ok l m i a obj fn :
  Inv A l m -> nth_error l i = Some (Some a) ->
  exists a' m' r, Own e i a m obj fn = Ok (a', m', r) /\
    Inv A (upd i (Some a') l) m' /\ same_cfg a a' /\ ext m m' /\
    live_ranges (m_hist m') = live_ranges (m_hist m) /\
    (r = 0 /\ alloc_failed i a a' m m' \/
     r = 1 /\ pending (m_hist m') i = (obj, fn) :: pending (m_hist m) i).
Proof.
  intros HI Hi. unfold Own.
  destruct (addCleanup_ok e A l m i a obj fn HA HG HI Hi) as (a1 & m1 & ok & E & Hr & Hp & Hc & HR & Hok).
  pose proof (addCleanup_ext _ _ _ _ _ _ _ _ _ E) as X1.
  rewrite E. cbn [bind]. destruct ok.
  - eexists a1, _, 1. split; [reflexivity|]. split; auto. split; auto.
    split; [apply ext_emit; [auto|exact I]|]. split; auto.
    right. split; auto. simpl. rewrite Nat.eqb_refl, Hp. reflexivity.
  - destruct Hok as [HI1 Hf]. exists a1, m1, 0. repeat (split; [auto; fail|]). left; auto.
Qed.

Lemma hook_alloc_pending i a m ty n j : pending (m_hist (hook_alloc i a m ty n)) j = pending (m_hist m) j.
Proof. unfold hook_alloc. destruct (o_on_alloc _); reflexivity. Qed.

Lemma AllocateAlignedAndAddCleanup_ok l m i a bytes fn el :
  Inv A l m -> nth_error l i = Some (Some a) -> 0 <= bytes <= max_request ->
  exists a' m' p, AllocateAlignedAndAddCleanup e i a m bytes fn el = Ok (a', m', p) /\
    Inv A (upd i (Some a') l) m' /\ same_cfg a a' /\ ext m m' /\
    ((p = 0 /\ live_ranges (m_hist m') = live_ranges (m_hist m) /\
               (forall j, pending (m_hist m') j = pending (m_hist m) j)) \/
     (0 < p /\ p mod 8 = 0 /\ live_ranges (m_hist m') = (i, p, bytes) :: live_ranges (m_hist m) /\
      pending (m_hist m') i = (if el =? 0 then p else el, fn) :: pending (m_hist m) i)).
Proof.
  intros HI Hi Hb. unfold AllocateAlignedAndAddCleanup.
  destruct (allocateAligned_ok e A l m i a bytes kByteSize HA HG HI Hi Hb al8)
    as (a1 & m1 & p & E & HI1 & Hr & Hp & Hc & Hres).
  pose proof (allocateAligned_ext _ _ _ _ _ _ _ _ _ E) as X1.
  rewrite E. cbn [bind]. destruct (Z.eqb_spec p 0) as [->|NZ].
  - exists a1, m1, 0. repeat (split; [auto; fail|]). left. auto.
  - destruct Hres as [[]|(P0 & P1 & HR)]; [lia|].
    assert (Hi1 : nth_error (upd i (Some a1) l) i = Some (Some a1)) by (eapply nth_error_upd_eq; eauto).
    set (elem := if el =? 0 then p else el).
    destruct (addCleanup_ok e A _ m1 i a1 elem fn HA HG HI1 Hi1) as (a2 & m2 & ok & E2 & Hr2 & Hp2 & Hc2 & HR2 & Hok).
    pose proof (addCleanup_ext _ _ _ _ _ _ _ _ _ E2) as X2.
    assert (Hc12 : same_cfg a a2).
    { destruct Hc as (?&?&?), Hc2 as (?&?&?). repeat split; congruence. }
    fold elem. rewrite E2. cbn [bind]. rewrite upd_upd in *. destruct ok.
    + set (m3 := emit (hook_alloc i a2 m2 0 bytes) (CRegister i elem fn)).
      assert (HI3 : Inv A (upd i (Some a2) l) m3).
      { eapply Inv_ext; [exact Hok|..]; unfold m3, hook_alloc; destruct (o_on_alloc _); try reflexivity;
          simpl; destruct (live_blocks (m_hist m2)); reflexivity. }
      assert (E3 : live_ranges (m_hist m3) = live_ranges (m_hist m2)) by apply hook_alloc_ranges.
      destruct (hand_out_ok A _ _ i p bytes HI3 (reserved_hist _ _ _ _ _ _ E3 (HR2 _ _ HR)))
        as (m4 & E4 & HI4 & Hr4 & Hh4).
      cbv zeta. fold m3. rewrite E4. cbn [bind].
      exists a2, m4, p. split; auto. split; auto. split; auto. split.
      { eapply ext_trans; [exact X1|]. eapply ext_trans; [exact X2|].
        eapply ext_trans; [apply hook_alloc_ext|]. eapply ext_trans; [|eapply hand_out_ext; eauto].
        apply ext_emit; [apply ext_refl|exact I]. }
      right. split; auto. split; auto. split; [rewrite Hr4, E3, Hr2, Hr; reflexivity|].
      rewrite Hh4. simpl. rewrite Nat.eqb_refl, hook_alloc_pending, Hp2, Hp. reflexivity.
    + destruct Hok as [HI2 Hf]. exists a2, m2, 0. split; auto. split; auto. split; auto.
      split; [eapply ext_trans; eauto|]. left. split; auto. split; [congruence|].
      intros j. rewrite Hp2, Hp. reflexivity.
Qed.

Lemma op_post_refl s : Inv A (s_arenas s) (s_mem s) -> op_post s s.
Proof. intros. split; auto. split; [apply frame_refl|apply ext_refl]. Qed.
Lemma op_post_trans s1 s2 s3 : op_post s1 s2 -> op_post s2 s3 -> op_post s1 s3.
Proof.
  intros (_ & F1 & X1) (I2 & F2 & X2). split; auto.
  split; [eapply frame_trans; eauto|eapply ext_trans; eauto].
Qed.

Lemma ranges_ext m m' : ext m m' -> forall x, In x (live_ranges (m_hist m)) -> In x (live_ranges (m_hist m')).
Proof.
  intros (evs & E & F) x Hx. rewrite E. clear E. induction F as [|ev evs Hev F IH]; auto.
  destruct ev; simpl in *; try contradiction; auto.
Qed.

Lemma exec_ok : forall o i s,
  Inv A (s_arenas s) (s_mem s) -> alive s i -> op_ok A o ->
  (uses_resource o = true -> resource_alive s i) ->
  exists s' r, exec e o i s = Ok (s', r) /\ op_post s s' /\
    (forall n al, op_range o = Some (n, al) -> r <> 0 ->
       0 < r /\ r mod al = 0 /\ exists j, served_by s i o j /\ In (j, r, n) (live_ranges (m_hist (s_mem s')))).
Proof.
  fix IH 1. intros o i s HI (a & Hi) Hok Hres. destruct o.
  - destruct Hok as [Hb Hal].
    destruct (AllocateAligned_ok _ _ i a bytes alignment HI Hi Hb Hal) as (a' & m' & p & E & HI' & Hc & X & HR).
    destruct (on_arena_ok s i a (fun a m => AllocateAligned e i a m bytes alignment) Hi) as (a2 & m2 & r2 & E' & E2 & HP).
    { exists a', m', p. auto. }
    rewrite E in E'. inv E'. eexists _, _. split; [exact E2|]. split; [exact HP|].
    intros n al Hra Hr. inv Hra. destruct HR as [[]|(?&?&HR)]; [congruence|]. split; auto. split; auto.
    exists i. split; [reflexivity|]. simpl. rewrite HR. simpl; auto.
  - destruct (AllocateAlignedAndAddCleanup_ok _ _ i a bytes fn elem HI Hi Hok) as (a' & m' & p & E & HI' & Hc & X & HR).
    destruct (on_arena_ok s i a (fun a m => AllocateAlignedAndAddCleanup e i a m bytes fn elem) Hi) as (a2 & m2 & r2 & E' & E2 & HP).
    { exists a', m', p. auto. }
    rewrite E in E'. inv E'. eexists _, _. split; [exact E2|]. split; [exact HP|].
    intros n al Hra Hr. inv Hra. destruct HR as [[]|(?&?&HR&_)]; [congruence|]. split; auto. split; auto.
    exists i. split; [reflexivity|]. simpl. rewrite HR. simpl; auto.
  - destruct Hok as [Hb Hbody].
    destruct (allocateAligned_ok e A _ _ i a sz kByteSize HA HG HI Hi Hb al8)
      as (a1 & m1 & p & E & HI1 & Hr & Hp & Hc & HR).
    pose proof (allocateAligned_ext _ _ _ _ _ _ _ _ _ E) as X1.
    destruct (on_arena_ok s i a (fun a m => allocateAligned e i a m sz kByteSize) Hi) as (a2 & m2 & r2 & E' & E2 & HP).
    { exists a1, m1, p. auto. }
    rewrite E in E'. inv E'. cbn [exec]. rewrite E2. cbn [bind].
    destruct (Z.eqb_spec r2 0) as [->|NZ].
    { eexists _, _. split; [reflexivity|]. split; [exact HP|]. intros; congruence. }
    destruct HR as [[]|(P0 & P1 & HR)]; [lia|].
    assert (Hi1 : nth_error (s_arenas (put s i a2 m2)) i = Some (Some a2)) by (eapply nth_error_upd_eq; eauto).
    destruct (hand_out_ok A _ _ i r2 sz HI1 HR) as (m3 & E3 & HI3 & Hr3 & Hh3).
    simpl s_mem. rewrite E3. cbn [bind].
    set (s2 := {| s_arenas := s_arenas (put s i a2 m2); s_mem := m3 |}).
    assert (HP2 : op_post s s2).
    { split; [exact HI3|]. split; [apply HP|]. eapply ext_trans; [apply HP|]. eapply hand_out_ext; eauto. }
    assert (BODY : forall l s2, Inv A (s_arenas s2) (s_mem s2) -> alive s2 i ->
       (fix all (l : list op) : Prop := match l with [] => True | x :: r => op_ok A x /\ all r end) l ->
       ((fix any (l : list op) : bool := match l with [] => false | x :: r => uses_resource x || any r end) l = true -> resource_alive s2 i) ->
       exists s3, (fix go (l : list op) (s : sys) : res sys :=
                  match l with
                  | [] => Ok s
                  | x :: r => do (s', _) <- exec e x i s; go r s'
                  end) l s2 = Ok s3 /\ op_post s2 s3).
    { clear - IH. induction l as [|x l IHl]; intros s2 HI2 Ha2 Hok2 Hres2.
      - exists s2. split; auto. now apply op_post_refl.
      - destruct Hok2 as [Hx Hl].
        destruct (IH x i s2 HI2 Ha2 Hx) as (s3 & r3 & E3 & HP3 & _).
        { intros Hu. apply Hres2. rewrite Hu. reflexivity. }
        rewrite E3. cbn [bind].
        destruct (IHl s3) as (s4 & E4 & HP4); [apply HP3| | | |].
        + eapply frame_alive; [apply HP3|auto].
        + exact Hl.
        + intros Hu. eapply frame_resource; [apply HP3|]. apply Hres2. rewrite Hu. apply orb_true_r.
        + exists s4. split; auto. eapply op_post_trans; eauto. }
    assert (Ha0 : alive s i) by (exists a; auto).
    destruct (BODY body s2) as (s3 & E4 & HP3).
    { apply HP2. } { eapply frame_alive; [apply HP2|auto]. } { exact Hbody. }
    { intros Hu. eapply frame_resource; [apply HP2|]. apply Hres. exact Hu. }
    rewrite E4. cbn [bind]. clear BODY E4.
    assert (HP03 : op_post s s3) by (eapply op_post_trans; eauto).
    assert (Ha3 : alive s3 i) by (eapply frame_alive; [apply HP03|auto]).
    destruct Ha3 as (a3 & Hi3).
    assert (HD : exists s4 ok, match dtor with None => Ok (s3, 1)
                   | Some fn => on_arena s3 i (fun a m => Own e i a m r2 fn) end = Ok (s4, ok) /\ op_post s3 s4).
    { destruct dtor as [fn|].
      - destruct (Own_ok _ _ i a3 r2 fn (proj1 HP03) Hi3) as (a4 & m4 & ok & E5 & HI5 & Hc5 & X5 & _).
        destruct (on_arena_ok s3 i a3 (fun a m => Own e i a m r2 fn) Hi3) as (a5 & m5 & r5 & E5' & E6 & HP6).
        { exists a4, m4, ok. auto. }
        eauto.
      - exists s3, 1. split; auto. apply op_post_refl. apply HP03. }
    destruct HD as (s4 & ok & -> & HP4). cbn [bind].
    destruct (Z.eqb_spec ok 0) as [->|NZ2].
    { eexists _, _. split; [reflexivity|]. split; [eapply op_post_trans; eauto|]. intros; congruence. }
    destruct (frame_alive s3 s4 i (proj1 (proj2 HP4)) ltac:(exists a3; auto)) as (a4 & Hi4).
    rewrite (get_arena_ok s4 i a4 Hi4). cbn [bind].
    eexists _, _. split; [reflexivity|].
    assert (HP5 : op_post s4 {| s_arenas := s_arenas s4; s_mem := hook_alloc i a4 (s_mem s4) ty sz |}).
    { split; [apply hook_alloc_inv; apply HP4|]. split; [apply frame_refl|apply hook_alloc_ext]. }
    split; [eapply op_post_trans; [exact HP03|]; eapply op_post_trans; eauto|].
    intros n al Hra _. inv Hra. split; auto. split; auto. exists i. split; [reflexivity|].
    simpl. rewrite hook_alloc_ranges. eapply ranges_ext; [apply HP4|]. eapply ranges_ext; [apply HP3|].
    simpl. rewrite Hr3. simpl; auto.
  - destruct Hok as (H1 & H2 & H3).
    destruct (CreateArray_ok _ _ i a sz num ty HI Hi H1 H2 H3) as (a' & m' & p & E & HI' & Hc & X & HR).
    destruct (on_arena_ok s i a (fun a m => CreateArray e i a m sz num ty) Hi) as (a2 & m2 & r2 & E' & E2 & HP).
    { exists a', m', p. auto. }
    rewrite E in E'. inv E'. eexists _, _. split; [exact E2|]. split; [exact HP|].
    intros n al Hra Hr. inv Hra. destruct HR as [[]|(?&?&HR)]; [congruence|]. split; auto. split; auto.
    exists i. split; [reflexivity|]. simpl. rewrite HR. simpl; auto.
  - destruct (Own_ok _ _ i a obj fn HI Hi) as (a' & m' & p & E & HI' & Hc & X & _ & HR).
    destruct (on_arena_ok s i a (fun a m => Own e i a m obj fn) Hi) as (a2 & m2 & r2 & E' & E2 & HP).
    { exists a', m', p. auto. }
    eexists _, _. split; [exact E2|]. split; [exact HP|]. intros n al Hra. discriminate.
  - destruct Hok as [Hb Hal].
    destruct (Hres eq_refl) as (a' & j & Hi' & Hj & (b & Hbj)). rewrite Hi in Hi'. inv Hi'.
    cbn [exec]. rewrite (get_arena_ok s i a' Hi). cbn [bind]. rewrite Hj.
    destruct (resource_allocate_ok _ _ j b bytes alignment HI Hbj Hb Hal) as (a1 & m' & p & E & HI' & Hc & X & HR).
    destruct (on_arena_ok s j b (fun a m => resource_allocate e j a m bytes alignment) Hbj) as (a2 & m2 & r2 & E' & E2 & HP).
    { exists a1, m', p. auto. }
    rewrite E in E'. inv E'. eexists _, _. split; [exact E2|]. split; [exact HP|].
    intros n al Hra Hr. inv Hra. destruct HR as [[]|(?&?&HR)]; [congruence|]. split; auto. split; auto.
    exists j. split; [exists a'; auto|]. simpl. rewrite HR. simpl; auto.
Qed.
End Ops.
