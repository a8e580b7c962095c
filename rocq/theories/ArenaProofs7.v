Require Import ZArith List Bool Lia Permutation.
From Verif Require Import Base BaseProofs AlignModel BasicSpec BasicProofs ArenaSpec ArenaModel ArenaStatements
  ArenaProofs ArenaProofs2 ArenaProofs3 ArenaProofs4 ArenaProofs5 ArenaProofs6.
Import ListNotations.
Open Scope Z_scope.

(** * check *)
Definition inside (b : block) (p : Z) : Prop := b_addr b <= p < b_addr b + b_size b.
Definition classify (b : block) (p : Z) : contain_status :=
  let off := p - b_addr b in
  if off <? 32 then BlockHeader else if off <? b_pos b then BlockUsed
  else if off <? b_limit b then BlockUnUsed else BlockCleanup.

Lemma to_int64_small x : 0 <= x < 2 ^ 63 -> to_int64 x = x.
Proof.
  intros H. unfold to_int64. rewrite Z.mod_small by (unfold M64; lia).
  destruct (Z.ltb_spec x (2 ^ 63)); lia.
Qed.

Lemma to_int64_neg x : - 2 ^ 63 <= x < 0 -> to_int64 x = x.
Proof.
  intros H. unfold to_int64. rewrite <- (Z_mod_plus_full x 1 M64).
  rewrite Z.mod_small by (unfold M64; lia). destruct (Z.ltb_spec (x + 1 * M64) (2 ^ 63)); unfold M64 in *; lia.
Qed.

Lemma to_int64_big x : 2 ^ 63 <= x < M64 -> to_int64 x = x - M64.
Proof.
  intros H. unfold to_int64. rewrite Z.mod_small by (unfold M64 in *; lia).
  destruct (Z.ltb_spec x (2 ^ 63)); lia.
Qed.

Lemma check_block A f b ns p r : binv A f b ns -> word p ->
  check_blocks (b :: r) p = if (b_addr b <=? p) && (p <? b_addr b + b_size b) then classify b p else check_blocks r p.
Proof.
  intros [B1 B2 B3 B4 B5 B6 B7 B8 B9] [Hp1 Hp2]. cbn [check_blocks]. rewrite kH32. unfold classify.
  rewrite (to_int64_small (b_pos b)), (to_int64_small (b_limit b)), (to_int64_small (b_size b)) by lia.
  assert (Hoff : exists off, to_int64 (p - b_addr b) = off /\
     ((off = p - b_addr b) \/ (off < 0 /\ p - b_addr b >= 2 ^ 63))).
  { destruct (Z_lt_le_dec (p - b_addr b) 0).
    - eexists; split; [apply to_int64_neg; lia|]. lia.
    - destruct (Z_lt_le_dec (p - b_addr b) (2 ^ 63)).
      + eexists; split; [apply to_int64_small; lia|]. lia.
      + eexists; split; [apply to_int64_big; lia|]. unfold M64 in *. lia. }
  destruct Hoff as (off & -> & Hoff).
  repeat match goal with |- context [?x <=? ?y] => destruct (Z.leb_spec x y) end;
  repeat match goal with |- context [?x <? ?y] => destruct (Z.ltb_spec x y) end; simpl; try reflexivity; try lia.
Qed.

Lemma check_cases A f l nss p : Forall2 (binv A f) l nss -> word p ->
  (exists b, In b l /\ inside b p /\ check_blocks l p = classify b p) \/
  ((forall b, In b l -> ~ inside b p) /\ check_blocks l p = NotContain).
Proof.
  intros HF Hp. induction HF as [|b ns l nss HB HF IH].
  - right. split; auto.
  - rewrite (check_block A f b ns p l HB Hp).
    destruct (Z.leb_spec (b_addr b) p), (Z.ltb_spec p (b_addr b + b_size b)); cbn [andb].
    1: left; exists b; unfold inside; simpl; auto.
    all: destruct IH as [(c & Hc & Hi & E)|[N E]];
      [left; exists c; simpl; auto
      |right; split; auto; intros c [<-|Hc]; [unfold inside; lia|auto]].
Qed.

Section S.
Variable e : env.
Variable A : Z.
Hypothesis HA : block_alignment A.
Hypothesis HG : good_block_alloc A (e_alloc e).

Lemma P_check s i a p : reach e A s -> nth_error (s_arenas s) i = Some (Some a) -> word p ->
  let in_area lo hi := exists b, In b (a_blocks a) /\ b_addr b + lo b <= p < b_addr b + hi b in
  (check a p = BlockHeader <-> in_area (fun _ => 0) (fun _ => 32)) /\
  (check a p = BlockUsed <-> in_area (fun _ => 32) b_pos) /\
  (check a p = BlockUnUsed <-> in_area b_pos b_limit) /\
  (check a p = BlockCleanup <-> in_area b_limit b_size) /\
  (check a p = NotContain <-> forall b n, In (b, n) (held (m_hist (s_mem s)) i) -> ~ (b <= p < b + n)).
Proof.
  intros HR Hi Hp in_area. pose proof (reach_inv e A HA HG s HR) as HI.
  destruct (I_arena _ _ _ HI i a Hi) as (nss & HAi). pose proof HAi as [P1 P2 P3 P4 P5].
  assert (HB : forall b, In b (a_blocks a) -> 32 <= b_pos b <= b_limit b /\ b_limit b <= b_size b).
  { intros b Hb. destruct (binv_of _ _ _ _ _ b HAi Hb) as (ns & []). lia. }
  assert (HU : forall b c, In b (a_blocks a) -> In c (a_blocks a) -> inside b p -> inside c p -> b = c).
  { intros b c Hb Hc Ib Ic. destruct (Inv_blocks_cases _ _ _ b c HI) as [|Hap]; auto.
    - eapply in_all_blocks; eauto. - eapply in_all_blocks; eauto.
    - exfalso. unfold blk_apart, bspan, apart, inside in *. simpl in Hap. lia. }
  rewrite P5. unfold in_area, check.
  destruct (check_cases _ _ _ _ p P2 Hp) as [(b & Hb & Ib & E)|[N E]]; rewrite E.
  - assert (K : forall lo hi, (forall c, In c (a_blocks a) -> 0 <= lo c /\ hi c <= b_size c) ->
       ((exists c, In c (a_blocks a) /\ b_addr c + lo c <= p < b_addr c + hi c) <-> b_addr b + lo b <= p < b_addr b + hi b)).
    { intros lo hi Hlh. split; [|intros; exists b; auto]. intros (c & Hc & Hr).
      rewrite (HU b c) by (auto; unfold inside; specialize (Hlh c Hc); lia). auto. }
    rewrite !K by (intros c Hc; specialize (HB c Hc); lia). clear K.
    specialize (HB b Hb). unfold classify, inside in *.
    assert (KN : ~ (forall b0 n, In (b0, n) (map bspan (a_blocks a)) -> ~ b0 <= p < b0 + n)).
    { intros Q. apply (Q (b_addr b) (b_size b)); [now apply (in_map bspan)|lia]. }
    destruct (Z.ltb_spec (p - b_addr b) 32), (Z.ltb_spec (p - b_addr b) (b_pos b)), (Z.ltb_spec (p - b_addr b) (b_limit b));
      try lia; repeat split; intros; try discriminate; try lia; try tauto.
  - assert (K : forall lo hi, (forall c, In c (a_blocks a) -> 0 <= lo c /\ hi c <= b_size c) ->
       ~ (exists c, In c (a_blocks a) /\ b_addr c + lo c <= p < b_addr c + hi c)).
    { intros lo hi Hlh (c & Hc & Hr). apply (N c Hc). unfold inside. specialize (Hlh c Hc). lia. }
    assert (K0 : forall lo hi (X : Prop) st, NotContain <> st -> (forall c, In c (a_blocks a) -> 0 <= lo c /\ hi c <= b_size c) ->
       (NotContain = st <-> (exists c, In c (a_blocks a) /\ b_addr c + lo c <= p < b_addr c + hi c))).
    { intros lo hi X st Hne Hlh. split; [intros ?; now subst|]. intros Hx. exfalso. exact (K lo hi Hlh Hx). }
    split; [apply (K0 (fun _ => 0) (fun _ => 32) True); [discriminate|intros c Hc; specialize (HB c Hc); simpl; lia]|].
    split; [apply (K0 (fun _ => 32) b_pos True); [discriminate|intros c Hc; specialize (HB c Hc); simpl; lia]|].
    split; [apply (K0 b_pos b_limit True); [discriminate|intros c Hc; specialize (HB c Hc); simpl; lia]|].
    split; [apply (K0 b_limit b_size True); [discriminate|intros c Hc; specialize (HB c Hc); simpl; lia]|].
    split; [|reflexivity].
    intros _ b n Hin. apply in_map_iff in Hin as (c & Ec & Hc). inv Ec. apply (N c Hc).
Qed.

Lemma P_cleanups_count s i a : reach e A s -> nth_error (s_arenas s) i = Some (Some a) ->
  cleanups e a = Ok (Z.of_nat (length (pending (m_hist (s_mem s)) i))).
Proof.
  intros HR Hi. pose proof (reach_inv e A HA HG s HR) as HI.
  destruct (I_arena _ _ _ HI i a Hi) as (nss & HAi). pose proof HAi as [P1 P2 P3 P4 P5].
  rewrite P3, map_length. unfold cleanups.
  pose proof (Inv_space_bound _ _ _ _ _ HI Hi) as HS. rewrite P4 in HS.
  assert (G : forall acc, 0 <= acc -> acc + total_size (a_blocks a) < M64 ->
     cleanups_of e (a_blocks a) acc = Ok (acc + Z.of_nat (length (concat nss)))).
  { clear - P2. induction P2 as [|b ns l nss HB HF IH]; intros acc H0 H1; simpl in *.
    - now rewrite Z.add_0_r.
    - unfold block_cleanups. pose proof HB as [B1 B2 B3 B4 B5 B6 B7 B8 B9].
      assert (0 <= total_size l) by (pose proof (total_unused_bound _ _ _ _ HF); lia).
      rewrite kC16. rewrite sub64_small by (unfold M64; lia). rewrite B8.
      rewrite (Z.mul_comm 16), Z_mod_mult, Z_div_mult by lia. unfold check_assert. simpl. rewrite andb_false_r. cbn [bind].
      rewrite add64_small by (unfold M64 in *; lia). rewrite IH by lia. rewrite app_length. f_equal. lia. }
  rewrite G by (unfold M64; lia). reflexivity.
Qed.

(** * Registrations *)
Lemma room_pending e' i a h need evs ok a' j : room_events e' i a h need evs ok a' -> pending (evs ++ h) j = pending h j.
Proof.
  intros [(-> & _)|(size & _ & [(_ & -> & _)|(addr & _ & _ & -> & _)])]; auto.
  unfold hook_part. destruct (o_on_newblock _); reflexivity.
Qed.

Lemma exec_ext : forall o i s s' r, exec e o i s = Ok (s', r) -> ext (s_mem s) (s_mem s').
Proof.
  fix IH 1. intros o i s s' r H. destruct o as [bytes al|bytes fn el|sz ty dtor body|sz num ty|obj fn|bytes al]; simpl in H.
  - unfold on_arena in H. bk H. bk H. destruct x0 as [[a1 m1] p]. inv H. unfold AllocateAligned in H1. bk H1. destruct x0 as [[a2 m2] q].
    apply allocateAligned_ext in H. destruct (q =? 0); [inv H1; auto|]. bk H1. inv H1. apply hand_out_ext in H2.
    eapply ext_trans; [exact H|]. eapply ext_trans; [apply hook_alloc_ext|exact H2].
  - unfold on_arena in H. bk H. bk H. destruct x0 as [[a1 m1] p]. inv H. unfold AllocateAlignedAndAddCleanup in H1. bk H1. destruct x0 as [[a2 m2] q].
    apply allocateAligned_ext in H. destruct (q =? 0); [inv H1; auto|]. bk H1. destruct x0 as [[a3 m3] ok]. apply addCleanup_ext in H2.
    destruct ok; [|inv H1; eapply ext_trans; eauto]. bk H1. inv H1. apply hand_out_ext in H3.
    eapply ext_trans; [exact H|]. eapply ext_trans; [exact H2|]. eapply ext_trans; [|exact H3].
    apply ext_emit; [apply hook_alloc_ext|exact I].
  - bk H. destruct x as [s1 p]. unfold on_arena in H0. bk H0. bk H0. destruct x0 as [[a1 m1] q]. inv H0. apply allocateAligned_ext in H2.
    destruct (p =? 0); [inv H; auto|]. bk H. apply hand_out_ext in H0. simpl in H0. bk H.
    assert (BODY : forall l s2 s3, (fix go (l : list op) (s : sys) : res sys :=
                  match l with [] => Ok s | x :: r => do (s', _) <- exec e x i s; go r s' end) l s2 = Ok s3 ->
                  ext (s_mem s2) (s_mem s3)).
    { clear - IH. induction l as [|y l IHl]; intros s2 s3 H; simpl in H.
      - inv H. apply ext_refl.
      - bk H. destruct x as [s4 r4]. apply IH in H0. apply IHl in H. eapply ext_trans; eauto. }
    apply BODY in H3. simpl in H3. bk H. destruct x2 as [s4 ok].
    assert (ext (s_mem x1) (s_mem s4)).
    { destruct dtor; [|inv H4; apply ext_refl]. unfold on_arena in H4. bk H4. bk H4. destruct x3 as [[a5 m5] r5]. inv H4.
      unfold Own in H6. bk H6. destruct x3 as [[a6 m6] r6]. apply addCleanup_ext in H4. destruct r6; inv H6; [|auto].
      apply ext_emit; [auto|exact I]. }
    assert (ext (s_mem s) (s_mem s4)).
    { eapply ext_trans; [exact H2|]. eapply ext_trans; [exact H0|]. eapply ext_trans; eauto. }
    destruct (ok =? 0); [inv H; auto|]. bk H. inv H. eapply ext_trans; [exact H6|]. apply hook_alloc_ext.
  - unfold on_arena in H. bk H. bk H. destruct x0 as [[a1 m1] p]. inv H. unfold CreateArray in H1.
    destruct (sz =? 0); [discriminate|]. cbv zeta in H1.
    match type of H1 with bind (allocateAligned _ _ _ ?mm _ _) _ = _ => set (m0 := mm) in H1 end.
    assert (ext (s_mem s) m0) by (unfold m0; destruct ((M64 - 1) / sz <? num); [apply ext_emit; [apply ext_refl|exact I]|apply ext_refl]).
    bk H1. destruct x0 as [[a2 m2] q]. apply allocateAligned_ext in H2. assert (ext (s_mem s) m2) by (eapply ext_trans; eauto).
    destruct (q =? 0); [inv H1; auto|]. bk H1. inv H1. apply hand_out_ext in H4.
    eapply ext_trans; [exact H3|]. eapply ext_trans; [exact H4|]. apply hook_alloc_ext.
  - unfold on_arena in H. bk H. bk H. destruct x0 as [[a1 m1] p]. inv H. unfold Own in H1. bk H1. destruct x0 as [[a2 m2] q].
    apply addCleanup_ext in H. destruct q; inv H1; [apply ext_emit; [auto|exact I]|auto].
  - bk H. destruct (a_resource x); [|discriminate]. unfold on_arena in H. bk H. bk H. destruct x1 as [[a1 m1] p]. inv H.
    unfold resource_allocate in H2. bk H2. destruct x1 as [[a2 m2] q].
    apply allocateAligned_ext in H. destruct (q =? 0); [inv H2; auto|]. bk H2. inv H2. apply hand_out_ext in H3. eapply ext_trans; eauto.
Qed.

Lemma P_own_registers s i obj fn s' r : reach e A s -> permitted A s (SOp i (OOwn obj fn)) ->
  step e s (SOp i (OOwn obj fn)) = Ok (s', r) ->
  (r = 1 /\ pending (m_hist (s_mem s')) i = (obj, fn) :: pending (m_hist (s_mem s)) i) \/
  (r = 0 /\ pending (m_hist (s_mem s')) i = pending (m_hist (s_mem s)) i).
Proof.
  intros HR (H1 & H2 & H3) HS. pose proof (reach_inv e A HA HG s HR) as HI. destruct H1 as (a & Hi). simpl in HS, H2.
  unfold on_arena in HS. rewrite (get_arena_ok s i a Hi) in HS. cbn [bind] in HS.
  destruct (Own_ok e A HA HG _ _ i a obj fn HI Hi) as (a' & m' & p & E & _ & _ & _ & _ & HP).
  rewrite E in HS. cbn [bind] in HS. inv HS. destruct HP as [(-> & -> & E1 & sz' & E2)|(-> & HP)]; [right|left; auto].
  split; auto. simpl. rewrite E2. reflexivity.
Qed.

Lemma P_alloc_registers s i bytes fn el s' r : reach e A s -> permitted A s (SOp i (OAllocateCleanup bytes fn el)) ->
  step e s (SOp i (OAllocateCleanup bytes fn el)) = Ok (s', r) ->
  pending (m_hist (s_mem s')) i =
    (if r =? 0 then [] else [(if el =? 0 then r else el, fn)]) ++ pending (m_hist (s_mem s)) i.
Proof.
  intros HR (H1 & H2 & H3) HS. pose proof (reach_inv e A HA HG s HR) as HI. destruct H1 as (a & Hi). simpl in HS, H2.
  unfold on_arena in HS. rewrite (get_arena_ok s i a Hi) in HS. cbn [bind] in HS.
  destruct (AllocateAlignedAndAddCleanup_ok e A HA HG _ _ i a bytes fn el HI Hi H2) as (a' & m' & p & E & _ & _ & _ & HP).
  rewrite E in HS. cbn [bind] in HS. inv HS. destruct HP as [(-> & E1 & E2)|(? & _ & _ & E2)].
  - simpl. apply E2.
  - destruct (Z.eqb_spec r 0); [lia|]. exact E2.
Qed.

(** Create: the object's destructor is registered on top of whatever the
    constructor itself registered; with a trivial destructor only the latter. *)
Lemma P_create_registers s i sz ty dtor body s' r :
  0 <= sz <= max_request ->
  step e s (SOp i (OCreate sz ty dtor body)) = Ok (s', r) ->
  exists l, (body = [] -> l = []) /\
    pending (m_hist (s_mem s')) i =
    (if r =? 0 then [] else match dtor with Some fn => [(r, fn)] | None => [] end) ++ l ++ pending (m_hist (s_mem s)) i.
Proof.
  intros Hsz H. simpl in H. bk H. destruct x as [s1 p]. unfold on_arena in H0. bk H0. bk H0. destruct x0 as [[a1 m1] q]. inv H0.
  destruct (allocateAligned_events _ _ _ _ _ _ _ _ _ H2 Hsz) as (_ & evs & ok & a3 & E & R & _).
  assert (E0 : pending (m_hist m1) i = pending (m_hist (s_mem s)) i) by (rewrite E; eapply room_pending; eauto).
  destruct (p =? 0) eqn:Ep; [inv H; exists []; simpl; auto|].
  bk H. apply hand_out_events in H0. simpl in H0. bk H.
  assert (BODY : exists l, (body = [] -> l = []) /\ pending (m_hist (s_mem x1)) i = l ++ pending (m_hist (s_mem s)) i).
  { destruct body as [|y body].
    - inv H3. exists []. split; auto. simpl. rewrite H0. exact E0.
    - assert (X : ext x0 (s_mem x1)).
      { assert (forall l s2 s3, (fix go (l : list op) (s : sys) : res sys :=
                  match l with [] => Ok s | x :: r => do (s', _) <- exec e x i s; go r s' end) l s2 = Ok s3 ->
                  ext (s_mem s2) (s_mem s3)).
        { clear. induction l as [|y l IHl]; intros s2 s3 H; simpl in H.
          - inv H. apply ext_refl.
          - bk H. destruct x as [s4 r4]. apply exec_ext in H0. apply IHl in H. eapply ext_trans; eauto. }
        apply (H4 (y :: body)) in H3. exact H3. }
      destruct (pending_ext _ _ i X) as (l & El). exists l. split; [discriminate|]. rewrite El, H0. simpl. now rewrite E0. }
  destruct BODY as (l & Hl & El). exists l. split; auto.
  bk H. destruct x2 as [s4 ok4]. destruct dtor as [fn|].
  - unfold on_arena in H4. bk H4. bk H4. destruct x3 as [[a5 m5] r5]. inv H4.
    unfold Own in H6. bk H6. destruct x3 as [[a6 m6] r6].
    destruct (addCleanup_events _ _ _ _ _ _ _ _ _ H4) as (_ & evs2 & a7 & E2 & RR & _).
    assert (E3 : pending (m_hist m6) i = l ++ pending (m_hist (s_mem s)) i).
    { rewrite E2, <- El. eapply room_pending; eauto. }
    destruct r6; inv H6; simpl in H.
    + bk H. inv H. rewrite Ep. simpl. rewrite hook_alloc_pending. simpl. rewrite Nat.eqb_refl, E3. reflexivity.
    + inv H. simpl. auto.
  - inv H4. simpl in H. bk H. inv H. rewrite Ep. simpl. rewrite hook_alloc_pending. auto.
Qed.

(** Null from block_alloc means null to the client; sizes follow the policy. *)
Lemma room_new e' i a h need evs ok a' : room_events e' i a h need evs ok a' -> good_options (a_opts a) -> req_ok need ->
  forall j size res, In (EBlockAlloc j size res) evs ->
    j = i /\ (res = None -> ok = false) /\
    block_size_policy (o_normal (a_opts a)) (o_huge (a_opts a)) (o_init (a_opts a)) (is_first a) need size.
Proof.
  intros [(-> & _)|(sz & E & [(_ & -> & -> & _)|(addr & _ & _ & -> & _)])] GO RQ j size res Hin.
  - destruct Hin.
  - destruct Hin as [Hin|[]]. inv Hin. split; auto. split; auto. eapply new_block_size_policy; eauto.
  - rewrite in_app_iff in Hin. destruct Hin as [Hin|[Hin|[]]].
    + unfold hook_part in Hin. destruct (o_on_newblock _); [|easy]. destruct Hin as [|[]]; discriminate.
    + inv Hin. split; auto. split; [discriminate|]. eapply new_block_size_policy; eauto.
Qed.

Lemma req_align bytes : 0 <= bytes <= max_request -> req_ok (align_size bytes).
Proof.
  intros Hb. destruct (align_size_ok bytes Hb) as [Hs Hs8]. split; auto. split; [lia|]. unfold max_request in *.
  destruct (Z_le_gt_dec (align_size bytes) (2 ^ 62)); auto. exfalso.
  change (2^62) with 4611686018427387904 in *.
  apply Z.mod_divide in Hs8; [|lia]. destruct Hs8 as (k & Hk). lia.
Qed.

Lemma P_new_blocks s i a o s' r : reach e A s -> nth_error (s_arenas s) i = Some (Some a) -> op_ok A o ->
  (exists need, room_need o need) ->
  step e s (SOp i o) = Ok (s', r) ->
  exists evs, m_hist (s_mem s') = evs ++ m_hist (s_mem s) /\
  forall j size res, In (EBlockAlloc j size res) evs ->
    j = i /\ (res = None -> r = 0) /\
    forall need, room_need o need ->
    block_size_policy (o_normal (a_opts a)) (o_huge (a_opts a)) (o_init (a_opts a))
      (match held (m_hist (s_mem s)) i with [] => true | _ => false end) need size.
Proof.
  intros HR Hi Hok Hneed HS. pose proof (reach_inv e A HA HG s HR) as HI.
  destruct (I_arena _ _ _ HI i a Hi) as (nss & HAi). pose proof HAi as [P1 P2 P3 P4 P5].
  assert (EF : match held (m_hist (s_mem s)) i with [] => true | _ => false end = is_first a).
  { rewrite P5. unfold is_first. destruct (a_blocks a); reflexivity. }
  rewrite EF. clear EF.
  assert (UN : forall bytes need, 0 <= bytes <= max_request -> bytes <= need < bytes + 8 -> need mod 8 = 0 -> need = align_size bytes).
  { intros bytes need Hb H1 H2. destruct (align_size_ok bytes Hb) as [Hs Hs8].
    apply Z.mod_divide in H2; [|lia]. apply Z.mod_divide in Hs8; [|lia]. destruct H2 as (k & ->), Hs8 as (q & Hq). lia. }
  destruct o as [bytes al|bytes fn el|sz ty dtor body|sz num ty|obj fn|]; try (destruct Hneed; easy); simpl in HS.
  - unfold on_arena in HS. rewrite (get_arena_ok _ _ _ Hi) in HS. cbn [bind] in HS.
    bk HS. destruct x as [[a1 m1] p]. inv HS. unfold AllocateAligned in H. bk H. destruct x as [[a2 m2] q].
    destruct (allocateAligned_events _ _ _ _ _ _ _ _ _ H0 (proj1 Hok)) as (C & evs & ok & a3 & E & R & _ & Hz).
    pose proof (room_new _ _ _ _ _ _ _ _ R P1 (req_align _ (proj1 Hok))) as HN.
    assert (G : forall j size res, In (EBlockAlloc j size res) evs ->
      j = i /\ (res = None -> q = 0) /\ forall need, room_need (OAllocate bytes al) need ->
      block_size_policy (o_normal (a_opts a)) (o_huge (a_opts a)) (o_init (a_opts a)) (is_first a) need size).
    { intros j size res Hin. destruct (HN j size res Hin) as (-> & N & PO). split; auto. split; auto.
      intros need [K1 K2]. rewrite (UN bytes need (proj1 Hok) K1 K2). auto. }
    destruct (Z.eqb_spec q 0) as [->|NZ].
    + inv H. exists evs. split; auto.
    + bk H. inv H. apply hand_out_events in H1. rewrite hook_alloc_events in H1.
      exists (CRange i r bytes :: hook_part (o_on_alloc (a_opts a1)) (HAlloc i 0 bytes (a_cookie a1)) ++ evs).
      split. { simpl. rewrite H1, E. now rewrite <- app_assoc. }
      intros j size res [?|Hin]; [discriminate|]. apply in_app_or in Hin as [Hin|Hin]; [|apply (G j size res Hin)].
      unfold hook_part in Hin. destruct (o_on_alloc _); [|easy]. destruct Hin as [|[]]; discriminate.
  - destruct Hok as (K1 & K2 & K3).
    unfold on_arena in HS. rewrite (get_arena_ok _ _ _ Hi) in HS. cbn [bind] in HS.
    bk HS. destruct x as [[a1 m1] p]. inv HS. unfold CreateArray in H. destruct (Z.eqb_spec sz 0); [lia|].
    destruct (Z.ltb_spec ((M64 - 1) / sz) num) as [L|L].
    { exfalso. assert (num <= (M64 - 1) / sz); [|lia]. apply Z.div_le_lower_bound; auto.
      unfold max_request, M64 in *. lia. }
    cbv zeta in H. rewrite mul64_small in H by (unfold M64, max_request in *; nia).
    assert (Hb : 0 <= sz * num <= max_request) by nia.
    bk H. destruct x as [[a2 m2] q].
    destruct (allocateAligned_events _ _ _ _ _ _ _ _ _ H0 Hb) as (C & evs & ok & a3 & E & R & _ & Hz).
    pose proof (room_new _ _ _ _ _ _ _ _ R P1 (req_align _ Hb)) as HN.
    assert (G : forall j size res, In (EBlockAlloc j size res) evs ->
      j = i /\ (res = None -> q = 0) /\ forall need, room_need (OCreateArray sz num ty) need ->
      block_size_policy (o_normal (a_opts a)) (o_huge (a_opts a)) (o_init (a_opts a)) (is_first a) need size).
    { intros j size res Hin. destruct (HN j size res Hin) as (-> & N & PO). split; auto. split; auto.
      intros need [J1 J2]. rewrite (UN (sz * num) need Hb J1 J2). auto. }
    destruct (Z.eqb_spec q 0) as [->|NZ].
    + inv H. exists evs. split; auto.
    + bk H. inv H. apply hand_out_events in H1.
      exists (hook_part (o_on_alloc (a_opts a1)) (HAlloc i ty (sz * num) (a_cookie a1)) ++ CRange i r (num * sz) :: evs).
      split. { simpl. rewrite hook_alloc_events, H1, E. now rewrite <- app_assoc. }
      intros j size res Hin. apply in_app_or in Hin as [Hin|[?|Hin]]; [|discriminate|apply (G j size res Hin)].
      unfold hook_part in Hin. destruct (o_on_alloc _); [|easy]. destruct Hin as [|[]]; discriminate.
  - unfold on_arena in HS. rewrite (get_arena_ok _ _ _ Hi) in HS. cbn [bind] in HS.
    bk HS. destruct x as [[a1 m1] p]. inv HS. unfold Own in H. bk H. destruct x as [[a2 m2] q].
    destruct (addCleanup_events _ _ _ _ _ _ _ _ _ H0) as (C2 & evs & a5 & E2 & R & _).
    pose proof (room_new _ _ _ _ _ _ _ _ R P1 ltac:(split; [lia|reflexivity])) as HN.
    assert (G : forall j size res, In (EBlockAlloc j size res) evs ->
      j = i /\ (res = None -> q = false) /\ forall need, room_need (OOwn obj fn) need ->
      block_size_policy (o_normal (a_opts a)) (o_huge (a_opts a)) (o_init (a_opts a)) (is_first a) need size).
    { intros j size res Hin. destruct (HN j size res Hin) as (-> & N & PO). split; auto. split; auto.
      intros need ->. auto. }
    destruct q; inv H.
    + exists (CRegister i obj fn :: evs). split; [simpl; now rewrite E2|].
      intros j size res [?|Hin]; [discriminate|]. destruct (G j size res Hin) as (-> & N & PO). split; auto. split; auto.
      intros Hr. specialize (N Hr). discriminate.
    + exists evs. split; auto. intros j size res Hin. destruct (G j size res Hin) as (-> & N & PO). split; auto.
Qed.

(** * Ownership *)
Lemma flat_map_ext_in {X Y : Type} (f g : X -> list Y) l : (forall x, In x l -> f x = g x) -> flat_map f l = flat_map g l.
Proof.
  induction l as [|x l IH]; simpl; intros H; auto. rewrite (H x) by auto. f_equal. apply IH. intros; apply H; auto.
Qed.

Lemma P_space s i a : reach e A s -> nth_error (s_arenas s) i = Some (Some a) ->
  SpaceAllocated a = sizes (held (m_hist (s_mem s)) i).
Proof.
  intros HR Hi. pose proof (reach_inv e A HA HG s HR) as HI.
  destruct (I_arena _ _ _ HI i a Hi) as (nss & HAi). pose proof HAi as [P1 P2 P3 P4 P5].
  unfold SpaceAllocated. rewrite P4, P5, total_size_sum. reflexivity.
Qed.

Lemma P_no_bad_free s : reach e A s -> exists L, live_blocks (m_hist (s_mem s)) = Some L /\
  pairwise (fun x y => apart (fst x) (snd x) (fst y) (snd y)) L.
Proof.
  intros HR. pose proof (reach_inv e A HA HG s HR) as HI. destruct (I_live _ _ _ HI) as (L & E & _). exists L. split; auto.
  pose proof (I_apart _ _ _ HI) as P. unfold live_blocks_list in P. rewrite E in P. exact P.
Qed.

Lemma P_all_returned s : reach e A s -> (forall i, ~ alive s i) -> live_blocks (m_hist (s_mem s)) = Some [].
Proof.
  intros HR Hd. pose proof (reach_inv e A HA HG s HR) as HI. destruct (I_live _ _ _ HI) as (L & E & P).
  assert (EB : all_blocks (s_arenas s) = []).
  { unfold all_blocks. destruct (flat_map blocks_of (s_arenas s)) as [|b r] eqn:Ef; auto. exfalso.
    assert (In b (flat_map blocks_of (s_arenas s))) by (rewrite Ef; simpl; auto).
    apply in_flat_map in H as ([a|] & Ha & Hb); [|easy]. apply In_nth_error in Ha as (i & Hi). apply (Hd i). exists a; auto. }
  rewrite EB in P. simpl in P. apply Permutation_sym, Permutation_nil in P. now subst L.
Qed.

(** Every live block is held by exactly the arenas alive. *)
Lemma P_partition s : reach e A s -> exists L, live_blocks (m_hist (s_mem s)) = Some L /\
  Permutation L (flat_map (fun i => match nth_error (s_arenas s) i with Some (Some _) => held (m_hist (s_mem s)) i | _ => [] end)
                   (seq 0 (length (s_arenas s)))).
Proof.
  intros HR. pose proof (reach_inv e A HA HG s HR) as HI. destruct (I_live _ _ _ HI) as (L & E & P).
  exists L. split; auto. rewrite P. clear P E L.
  assert (K : forall l k, (forall i a, nth_error l i = Some (Some a) -> held (m_hist (s_mem s)) (k + i)%nat = map bspan (a_blocks a)) ->
     Permutation (map bspan (all_blocks l))
       (flat_map (fun i => match nth_error l (i - k) with Some (Some _) => held (m_hist (s_mem s)) i | _ => [] end) (seq k (length l)))).
  { induction l as [|x l IH]; intros k Hk; simpl; auto.
    rewrite map_app. rewrite Nat.sub_diag. simpl. apply Permutation_app.
    - destruct x as [a|]; simpl; auto. rewrite <- (Hk 0%nat a eq_refl). now rewrite Nat.add_0_r.
    - rewrite (IH (S k)).
      + apply Permutation_refl'. apply flat_map_ext_in. intros j Hj. apply in_seq in Hj.
        replace (j - k)%nat with (S (j - S k)) by lia. reflexivity.
      + intros i a Hi. rewrite <- (Hk (S i) a Hi). f_equal. lia. }
  rewrite (K (s_arenas s) O).
  - apply Permutation_refl'. apply flat_map_ext_in. intros j Hj. now rewrite Nat.sub_0_r.
  - intros i a Hi. destruct (I_arena _ _ _ HI i a Hi) as (nss & [_ _ _ _ P5]). exact P5.
Qed.

Lemma P_op_space s i o s' r : reach e A s -> permitted A s (SOp i o) -> step e s (SOp i o) = Ok (s', r) ->
  exists evs, m_hist (s_mem s') = evs ++ m_hist (s_mem s) /\ cleanups_run evs = [] /\ (forall x, ~ In (EBlockFree x) evs).
Proof. intros HR HP HS. apply ext_no_cleanup. eapply exec_ext. exact HS. Qed.
End S.
