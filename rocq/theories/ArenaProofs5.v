Require Import ZArith List Bool Lia Permutation.
From Verif Require Import Base BaseProofs AlignModel BasicSpec BasicProofs ArenaSpec ArenaModel ArenaStatements
  ArenaProofs ArenaProofs2 ArenaProofs3 ArenaProofs4.
Import ListNotations.
Open Scope Z_scope.

Definition good_cfg (o : options) : Prop := o_huge o < M64 /\ 0 <= o_huge o /\ 0 < o_normal o.

Definition is_first (a : arena) : bool := match a_blocks a with [] => true | _ => false end.

(** Exact events of making sure there is a block with room. *)
Definition room_events (e : env) (i : nat) (a : arena) (h : history) (need : Z) (evs : history) (ok : bool) (a' : arena) : Prop :=
  (evs = [] /\ ok = true /\ a' = a) \/
  exists size, new_block_size (a_opts a) (is_first a) need = Ok size /\
    ((e_alloc e h size = None /\ evs = [EBlockAlloc i size None] /\ ok = false /\ a' = a) \/
     exists addr, e_alloc e h size = Some addr /\ ok = true /\
       evs = hook_part (o_on_newblock (a_opts a)) (HNewBlock i (Z.of_nat (length (a_blocks a))) size (a_cookie a))
              ++ [EBlockAlloc i size (Some addr)] /\
       length (a_blocks a') = S (length (a_blocks a))).

Lemma ensure_block_events e i a m need al a' m' ok :
  ensure_block e i a m need al = Ok (a', m', ok) -> need <= M64 - 1 - 32 ->
  same_cfg a a' /\ exists evs, m_hist m' = evs ++ m_hist m /\ room_events e i a (m_hist m) need evs ok a'.
Proof.
  unfold ensure_block. intros H Hn. bk H. destruct x; [|inv H; split; [repeat split|]; exists []; split; auto; left; auto].
  bk H. destruct x as [[a1 m1] ob]. unfold newBlock in H1. bk H1. rewrite kH32 in *.
  destruct (Z.ltb_spec (M64 - 1 - 32) need); [lia|].
  destruct (e_alloc e (m_hist m) x) as [addr|] eqn:Ea.
  - inv H1. inv H. split; [repeat split|]. unfold hook_part.
    exists ((if o_on_newblock (a_opts a) then [HNewBlock i (Z.of_nat (length (a_blocks a))) x (a_cookie a)] else [])
      ++ [EBlockAlloc i x (Some addr)]).
    split; [destruct (o_on_newblock (a_opts a)); reflexivity|]. right. exists x. split; auto. right. exists addr.
    repeat split; auto.
  - inv H1. inv H. split; [repeat split|]. exists [EBlockAlloc i x None]. split; auto. right. exists x. split; auto.
Qed.

Lemma allocateAligned_events e i a m bytes al a' m' p :
  allocateAligned e i a m bytes al = Ok (a', m', p) -> 0 <= bytes <= max_request ->
  same_cfg a a' /\ exists evs ok a1, m_hist m' = evs ++ m_hist m /\
    room_events e i a (m_hist m) (align_size bytes) evs ok a1 /\ length (a_blocks a') = length (a_blocks a1) /\
    (ok = false -> p = 0).
Proof.
  unfold allocateAligned. intros H Hb. bk H. destruct x as [[a1 m1] ok].
  pose proof (align_size_ok bytes Hb) as [HS _]. unfold max_request in *.
  apply ensure_block_events in H0; [|unfold M64; lia]. destruct H0 as (C & evs & E & R).
  destruct ok.
  - destruct (a_blocks a1) as [|b rest] eqn:Eb; [discriminate|]. bk H. destruct x as [b' q]. bk H. inv H.
    split; [exact C|]. exists evs, true, a1. repeat split; auto. simpl. now rewrite Eb. congruence.
  - inv H. split; [exact C|]. exists evs, false, a'. auto.
Qed.

Lemma addCleanup_events e i a m o f a' m' ok :
  addCleanup e i a m o f = Ok (a', m', ok) ->
  same_cfg a a' /\ exists evs a1, m_hist m' = evs ++ m_hist m /\
    room_events e i a (m_hist m) 16 evs ok a1 /\ length (a_blocks a') = length (a_blocks a1).
Proof.
  unfold addCleanup. intros H. bk H. destruct x as [[a1 m1] b]. rewrite kC16 in *.
  apply ensure_block_events in H0; [|unfold M64; lia]. destruct H0 as (C & evs & E & R).
  destruct b.
  - destruct (a_blocks a1) as [|b rest] eqn:Eb; [discriminate|]. bk H. destruct x as [b' m2]. inv H.
    unfold register_cleanup in H0. bk H0. destruct x as [b1 p].
    destruct (negb _); [discriminate|]. bk H0. inv H0. apply touch_hist in H1. simpl.
    split; [exact C|]. exists evs, a1. rewrite H1. repeat split; auto. now rewrite Eb.
  - inv H. split; [exact C|]. exists evs, a'. auto.
Qed.

Lemma hand_out_events i m p n m' : hand_out i m p n = Ok m' -> m_hist m' = CRange i p n :: m_hist m.
Proof. unfold hand_out. intros H. bk H. inv H. apply touch_hist in H0. simpl. now rewrite H0. Qed.

Lemma hook_alloc_events i a m ty n : m_hist (hook_alloc i a m ty n) = hook_part (o_on_alloc (a_opts a)) (HAlloc i ty n (a_cookie a)) ++ m_hist m.
Proof. unfold hook_alloc, hook_part. destruct (o_on_alloc _); reflexivity. Qed.

(** Reports. *)
Lemma reports_app h1 h2 : reports (h1 ++ h2) = reports h2 ++ reports h1.
Proof. unfold reports. now rewrite rev_app_distr, filter_app. Qed.
Lemma obtained_app i h1 h2 : obtained i (h1 ++ h2) = obtained i h2 ++ obtained i h1.
Proof.
  induction h1 as [|ev h1 IH]; simpl; [now rewrite app_nil_r|]. destruct ev; auto. destruct r; auto.
  now rewrite IH, app_assoc.
Qed.
Lemma newblock_reports_app i c k l1 l2 :
  newblock_reports i c k (l1 ++ l2) = newblock_reports i c k l1 ++ newblock_reports i c (k + Z.of_nat (length l1)) l2.
Proof.
  revert k. induction l1; intros k; simpl app; simpl newblock_reports.
  - simpl. now rewrite Z.add_0_r.
  - rewrite IHl1. simpl length. do 3 f_equal. lia.
Qed.

Definition due (i : nat) (a : arena) (l : list Z) : list event :=
  if o_on_newblock (a_opts a) then newblock_reports i (a_cookie a) (Z.of_nat (length (a_blocks a))) l else [].

Lemma room_reports e i a h need evs ok a' : room_events e i a h need evs ok a' ->
  reports evs = due i a (obtained i evs) /\ Z.of_nat (length (a_blocks a')) = Z.of_nat (length (a_blocks a)) + Z.of_nat (length (obtained i evs)).
Proof.
  unfold due. intros [(-> & -> & ->)|(size & _ & [(_ & -> & -> & ->)|(addr & _ & -> & -> & Hl)])].
  - simpl. destruct (o_on_newblock _); auto with zarith.
  - simpl. destruct (o_on_newblock _); auto with zarith.
  - unfold hook_part. destruct (o_on_newblock _); simpl; rewrite Nat.eqb_refl; simpl; split; auto; rewrite Hl; lia.
Qed.

Lemma due_cfg i a a' l : same_cfg a a' -> length (a_blocks a') = length (a_blocks a) -> due i a' l = due i a l.
Proof. unfold due. intros (-> & _ & ->) ->. reflexivity. Qed.

Lemma due_app i a a' l1 l2 : same_cfg a a' ->
  Z.of_nat (length (a_blocks a')) = Z.of_nat (length (a_blocks a)) + Z.of_nat (length l1) ->
  due i a (l1 ++ l2) = due i a l1 ++ due i a' l2.
Proof.
  unfold due. intros (-> & _ & ->) E. destruct (o_on_newblock _); auto. now rewrite newblock_reports_app, E.
Qed.

Ltac rp := repeat first [rewrite reports_app | rewrite obtained_app].

Lemma obtained_alloc i x : obtained i [x] = match x with EBlockAlloc j n (Some _) => if (j =? i)%nat then [n] else [] | _ => [] end.
Proof. destruct x; auto. Qed.

Definition range_part (i : nat) (p n : Z) : history := [CRange i p n].

Lemma part_facts i o ev : match ev with HAlloc _ _ _ _ => True | _ => False end ->
  obtained i (hook_part o ev) = [] /\ reports (hook_part o ev) = if o then [ev] else [].
Proof. destruct ev; try easy. destruct o; auto. Qed.

Section Ops.
Variable e : env.
Variable A : Z.
Hypothesis HA : block_alignment A.
Hypothesis HG : good_block_alloc A (e_alloc e).

Lemma flat_reports s i a o s' r :
  Inv A (s_arenas s) (s_mem s) -> nth_error (s_arenas s) i = Some (Some a) -> op_ok A o -> flat o ->
  exec e o i s = Ok (s', r) ->
  exists evs, m_hist (s_mem s') = evs ++ m_hist (s_mem s) /\
    reports evs = due i a (obtained i evs) ++ (if o_on_alloc (a_opts a) then alloc_report o i (a_cookie a) r else []).
Proof.
  intros HI Hi Hok Hfl HE. unfold alloc_report.
  destruct o as [bytes al|bytes fn el|sz ty dtor body|sz num ty|obj fn|]; try easy.
  - simpl in HE. unfold on_arena in HE. rewrite (get_arena_ok _ _ _ Hi) in HE. cbn [bind] in HE.
    bk HE. destruct x as [[a1 m1] p]. inv HE. unfold AllocateAligned in H. bk H. destruct x as [[a2 m2] q].
    destruct (allocateAligned_events _ _ _ _ _ _ _ _ _ H0 (proj1 Hok)) as (C & evs & ok & a3 & E & R & _ & _).
    destruct (room_reports _ _ _ _ _ _ _ _ R) as [R1 _].
    destruct (Z.eqb_spec q 0) as [->|NZ].
    + inv H. exists evs. split; auto. rewrite R1. simpl. destruct (o_on_alloc (a_opts a)); now rewrite app_nil_r.
    + bk H. inv H. apply hand_out_events in H1. rewrite hook_alloc_events in H1.
      destruct (Z.eqb_spec r 0); [congruence|].
      exists (CRange i r bytes :: hook_part (o_on_alloc (a_opts a1)) (HAlloc i 0 bytes (a_cookie a1)) ++ evs).
      split. { simpl. rewrite H1, E. now rewrite <- app_assoc. }
      destruct C as (-> & _ & ->).
      change (CRange i r bytes :: ?x) with ([CRange i r bytes] ++ x). rp. rewrite R1.
      destruct (o_on_alloc (a_opts a)); simpl; rewrite ?app_nil_r; reflexivity.
  - simpl in HE. unfold on_arena in HE. rewrite (get_arena_ok _ _ _ Hi) in HE. cbn [bind] in HE.
    bk HE. destruct x as [[a1 m1] p]. inv HE. unfold AllocateAlignedAndAddCleanup in H. bk H. destruct x as [[a2 m2] q].
    destruct (allocateAligned_events _ _ _ _ _ _ _ _ _ H0 Hok) as (C & evs & ok & a3 & E & R & HL & _).
    destruct (room_reports _ _ _ _ _ _ _ _ R) as [R1 R2].
    destruct (Z.eqb_spec q 0) as [->|NZ].
    + inv H. exists evs. split; auto. rewrite R1. simpl. destruct (o_on_alloc (a_opts a)); now rewrite app_nil_r.
    + bk H. destruct x as [[a4 m4] ok2].
      destruct (addCleanup_events _ _ _ _ _ _ _ _ _ H1) as (C2 & evs2 & a5 & E2 & RR & _).
      destruct (room_reports _ _ _ _ _ _ _ _ RR) as [R3 R4].
      assert (C' : same_cfg a a4) by (destruct C as (?&?&?), C2 as (?&?&?); repeat split; congruence).
      assert (D : reports (evs2 ++ evs) = due i a (obtained i (evs2 ++ evs))).
      { rp. rewrite R1, R3. symmetry. apply due_app; auto. lia. }
      destruct ok2.
      * bk H. inv H. apply hand_out_events in H2. unfold emit in H2. cbn [m_hist] in H2. rewrite hook_alloc_events in H2.
        destruct (Z.eqb_spec r 0); [congruence|].
        exists ([CRange i r bytes; CRegister i (if el =? 0 then r else el) fn] ++
                hook_part (o_on_alloc (a_opts a1)) (HAlloc i 0 bytes (a_cookie a1)) ++ evs2 ++ evs).
        split. { simpl. rewrite H2, E2, E. now rewrite <- !app_assoc. }
        destruct C' as (-> & _ & ->).
        rewrite reports_app, reports_app, D. rewrite !obtained_app.
        destruct (o_on_alloc (a_opts a)); simpl; rewrite ?app_nil_r; reflexivity.
      * inv H. exists (evs2 ++ evs). split; [simpl; rewrite E2, E; now rewrite app_assoc|]. rewrite D.
        simpl. destruct (o_on_alloc (a_opts a)); now rewrite app_nil_r.
  - destruct body; [|easy]. simpl in HE. destruct Hok as [Hb _].
    unfold on_arena in HE. rewrite (get_arena_ok _ _ _ Hi) in HE. cbn [bind] in HE.
    bk HE. destruct x as [s1 q]. bk H. destruct x as [[a2 m2] q2]. inv H.
    destruct (allocateAligned_events _ _ _ _ _ _ _ _ _ H0 Hb) as (C & evs & ok & a3 & E & R & HL & _).
    destruct (room_reports _ _ _ _ _ _ _ _ R) as [R1 R2].
    destruct (Z.eqb_spec q 0) as [->|NZ].
    + inv HE. exists evs. split; auto. rewrite R1. simpl. destruct (o_on_alloc (a_opts a)); now rewrite app_nil_r.
    + bk HE. apply hand_out_events in H. simpl in H.
      assert (Hi1 : nth_error (upd i (Some a2) (s_arenas s)) i = Some (Some a2)) by (eapply nth_error_upd_eq; eauto).
      destruct dtor as [fn|].
      * bk HE. destruct x0 as [s4 ok4]. bk H1. unfold get_arena in H2. cbn [s_arenas put s_mem] in H2. rewrite Hi1 in H2. inv H2.
        bk H1. destruct x1 as [[a4 m4] r4]. inv H1. unfold Own in H2. bk H2. destruct x1 as [[a5 m5] ok5].
        destruct (addCleanup_events _ _ _ _ _ _ _ _ _ H1) as (C2 & evs2 & a6 & E2 & RR & _).
        destruct (room_reports _ _ _ _ _ _ _ _ RR) as [R3 R4].
        assert (C' : same_cfg a a5) by (destruct C as (?&?&?), C2 as (?&?&?); repeat split; congruence).
        assert (D : reports (evs2 ++ CRange i q sz :: evs) = due i a (obtained i (evs2 ++ CRange i q sz :: evs))).
        { change (CRange i q sz :: evs) with ([CRange i q sz] ++ evs). rp. rewrite R1, R3. simpl. rewrite !app_nil_r.
          symmetry. apply due_app; auto. lia. }
        destruct ok5; inv H2.
        -- simpl in HE. bk HE. unfold get_arena in H2. cbn [s_arenas put s_mem] in H2. rewrite upd_upd in H2.
           assert (Hi4 : nth_error (upd i (Some a4) (s_arenas s)) i = Some (Some a4)) by (eapply nth_error_upd_eq; eauto).
           rewrite Hi4 in H2. inv H2. inv HE. destruct (Z.eqb_spec r 0); [congruence|].
           exists (hook_part (o_on_alloc (a_opts x1)) (HAlloc i ty sz (a_cookie x1)) ++ [CRegister i r fn] ++ evs2 ++ CRange i r sz :: evs).
           split. { simpl. rewrite hook_alloc_events. simpl. rewrite E2. simpl. rewrite H, E. rewrite <- !app_assoc. simpl. now rewrite <- !app_assoc. }
           destruct C' as (-> & _ & ->). rewrite reports_app, reports_app, D. rewrite !obtained_app.
           destruct (o_on_alloc (a_opts a)); simpl; rewrite ?app_nil_r; reflexivity.
        -- simpl in HE. inv HE. exists (evs2 ++ CRange i q sz :: evs).
           split; [simpl; rewrite E2; simpl; rewrite H, E; now rewrite <- app_assoc|]. rewrite D. simpl.
           destruct (o_on_alloc (a_opts a)); now rewrite app_nil_r.
      * simpl in HE. unfold get_arena in HE. cbn [s_arenas put s_mem] in HE. rewrite Hi1 in HE. cbn [bind] in HE. inv HE.
        destruct (Z.eqb_spec r 0); [congruence|].
        exists (hook_part (o_on_alloc (a_opts a2)) (HAlloc i ty sz (a_cookie a2)) ++ CRange i r sz :: evs).
        split. { simpl. rewrite hook_alloc_events. simpl. rewrite H, E. now rewrite <- !app_assoc. }
        destruct C as (-> & _ & ->). change (CRange i r sz :: evs) with ([CRange i r sz] ++ evs). rp. rewrite R1.
        destruct (o_on_alloc (a_opts a)); simpl; rewrite ?app_nil_r; reflexivity.
  - destruct Hok as (K1 & K2 & K3).
    simpl in HE. unfold on_arena in HE. rewrite (get_arena_ok _ _ _ Hi) in HE. cbn [bind] in HE.
    bk HE. destruct x as [[a1 m1] p]. inv HE. unfold CreateArray in H. destruct (Z.eqb_spec sz 0); [lia|].
    destruct (Z.ltb_spec ((M64 - 1) / sz) num) as [L|L].
    { exfalso. assert (num <= (M64 - 1) / sz); [|lia]. apply Z.div_le_lower_bound; auto.
      unfold max_request, M64 in *. lia. }
    cbv zeta in H. rewrite mul64_small in H by (unfold M64, max_request in *; nia).
    bk H. destruct x as [[a2 m2] q].
    destruct (allocateAligned_events _ _ _ _ _ _ _ _ _ H0 ltac:(nia)) as (C & evs & ok & a3 & E & R & _ & _).
    destruct (room_reports _ _ _ _ _ _ _ _ R) as [R1 _].
    destruct (Z.eqb_spec q 0) as [->|NZ].
    + inv H. exists evs. split; auto. rewrite R1. simpl. destruct (o_on_alloc (a_opts a)); now rewrite app_nil_r.
    + bk H. inv H. apply hand_out_events in H1.
      destruct (Z.eqb_spec r 0); [congruence|].
      exists (hook_part (o_on_alloc (a_opts a1)) (HAlloc i ty (sz * num) (a_cookie a1)) ++ CRange i r (num * sz) :: evs).
      split. { simpl. rewrite hook_alloc_events, H1, E. now rewrite <- app_assoc. }
      destruct C as (-> & _ & ->).
      change (CRange i r (num * sz) :: evs) with ([CRange i r (num * sz)] ++ evs). rp. rewrite R1.
      destruct (o_on_alloc (a_opts a)); simpl; rewrite ?app_nil_r; reflexivity.
  - simpl in HE. unfold on_arena in HE. rewrite (get_arena_ok _ _ _ Hi) in HE. cbn [bind] in HE.
    bk HE. destruct x as [[a1 m1] p]. inv HE. unfold Own in H. bk H. destruct x as [[a2 m2] q].
    destruct (addCleanup_events _ _ _ _ _ _ _ _ _ H0) as (C2 & evs2 & a5 & E2 & RR & _).
    destruct (room_reports _ _ _ _ _ _ _ _ RR) as [R3 R4].
    destruct q; inv H.
    + exists ([CRegister i obj fn] ++ evs2). split; [simpl; now rewrite E2|]. rp. rewrite R3. simpl.
      destruct (o_on_alloc (a_opts a)); rewrite ?app_nil_r; reflexivity.
    + exists evs2. split; auto. rewrite R3. simpl. destruct (o_on_alloc (a_opts a)); now rewrite app_nil_r.
Qed.
End Ops.
