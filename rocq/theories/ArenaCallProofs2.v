Require Import ZArith List Bool Lia Permutation.
From Verif Require Import Base BaseProofs AlignModel BasicSpec BasicProofs ArenaSpec ArenaModel ArenaStatements
  ArenaProofs ArenaProofs2 ArenaProofs3 ArenaProofs4 ArenaProofs5 ArenaProofs6 ArenaProofs7
  ArenaReentModel ArenaReentSpec ArenaReentProofs ArenaReentProofs2 ArenaHookModel ArenaHookSpec
  ArenaHookProofs ArenaHookProofs2 ArenaHookProofs3 ArenaHookProofs4 ArenaHookProofs5 ArenaCallModel ArenaCallSpec
  ArenaCallProofs.
Import ListNotations.
Open Scope Z_scope.

Lemma request_iff x : request x <-> alloc_event x.
Proof. destruct x; simpl; tauto. Qed.

Lemma pairwise_app_inv {T} (R : T -> T -> Prop) l1 l2 : pairwise R (l1 ++ l2) -> forall x y, In x l1 -> In y l2 -> R x y.
Proof. intros H. apply pairwise_app in H. tauto. Qed.

Lemma inner_alloc evs : Forall inner_event evs -> cleanups_run evs = [] -> Forall alloc_event evs.
Proof.
  induction 1 as [|x evs Hx F IH]; simpl; auto. intros H. destruct Hx as [Hx|(a & b & ->)]; [|apply app_eq_nil in H as [_ H]; discriminate].
  constructor; auto. apply IH. destruct x; simpl in *; auto; contradiction.
Qed.

Fixpoint handed (h : history) : list (nat * Z * Z) :=
  match h with
  | [] => []
  | CRange i p n :: r => (i, p, n) :: handed r
  | _ :: r => handed r
  end.
Lemma alloc_ranges evs h : Forall alloc_event evs -> live_ranges (evs ++ h) = handed evs ++ live_ranges h.
Proof.
  induction 1 as [|x evs Hx F IH]; simpl; auto. destruct x; simpl in *; try contradiction; auto. now rewrite IH.
Qed.

(** * A range that is taken but not handed out yet *)
Section S.
Variable e : env.
Variable A : Z.
Hypothesis HA : block_alignment A.
Hypothesis HG : good_block_alloc A (e_alloc e).

Lemma Inv_range l m i p n : Inv A l m -> reserved l m i p n ->
  Inv A l {| m_nodes := m_nodes m; m_hist := CRange i p n :: m_hist m |}.
Proof.
  intros [H1 H2 H3 H4 H5 H6] (Hn & (a & b & Hi & Hb & Hu) & Hap). constructor; auto; cbn [m_hist m_nodes].
  - destruct H1 as (L & E & P). exists L. split; auto. simpl in *. now rewrite E.
  - unfold live_blocks_list in *. simpl in *. destruct (live_blocks (m_hist m)); auto.
  - intros j c Hj. destruct (H3 j c Hj) as (nss & [P1 P2 P3 P4 P5]). exists nss. constructor; auto.
  - intros j q k [Hq|Hq]; [inv Hq; split; auto; exists a, b; auto|auto].
  - simpl. apply pairwise_cons. split; auto. rewrite Forall_forall. intros x Hx. apply Hap; auto.
Qed.

Lemma run_script_alloc l s : inv A s -> may_use A s l ->
  exists s' evs, run_script e l s = Ok s' /\ inv A s' /\ frame (s_arenas s) (s_arenas s') /\
    m_hist (s_mem s') = evs ++ m_hist (s_mem s) /\ Forall alloc_event evs.
Proof.
  intros HI HM. destruct (run_script_ok e A HA HG l s HI HM) as (s' & evs & E & [N1 N2 N3 N4 N5] & C).
  exists s', evs. split; auto. split; auto. split; auto. split; auto. now apply inner_alloc.
Qed.

Lemma script_reserved l s s' i p n : inv A s -> may_use A s l -> run_script e l s = Ok s' ->
  reserved (s_arenas s) (s_mem s) i p n -> reserved (s_arenas s') (s_mem s') i p n.
Proof.
  intros HI HM E HR. set (h := m_hist (s_mem s)). set (hv := CRange i p n :: h).
  assert (HB : live_blocks h = live_blocks hv) by (unfold hv; simpl; destruct (live_blocks h); auto).
  assert (HH : forall j, held h j = held hv j) by reflexivity.
  set (sv := {| s_arenas := s_arenas s; s_mem := {| m_nodes := m_nodes (s_mem s); m_hist := hv |} |}).
  assert (HIv : inv A sv) by (apply Inv_range; auto).
  set (k := length (s_arenas s)).
  assert (S1 : sr k 0 h hv s sv).
  { split; [split; [reflexivity|]; exists []; simpl; auto|]. intros j. unfold sv, oar. cbn [s_arenas].
    destruct (nth_error (s_arenas s) j) as [[y|]|] eqn:Ej; auto. repeat split; auto.
    intros ->. exfalso. assert (X : nth_error (s_arenas s) k <> None) by congruence. apply nth_error_Some in X. unfold k in X. lia. }
  destruct (run_script_ok (ev e h hv) A HA (ev_good e h hv HB A HG) l sv HIv HM) as (sv2 & evs & Ev & [N1 N2 N3 N4 N5] & C).
  destruct (run_script_sim e k 0 h hv HB HH l s sv sv2 S1 Ev) as (s2 & E2 & S2). rewrite E in E2. inv E2.
  pose proof (inner_alloc _ N5 C) as N6.
  pose proof (proj1 S2) as (M1 & evs' & M2 & M3 & M4). rewrite M3 in N4. cbn [s_mem m_hist sv] in N4. apply app_inv_tail in N4. subst evs'.
  assert (EA : s_arenas s2 = s_arenas sv2).
  { apply nth_ext_list. intros j. destruct (Nat.eq_dec j k) as [->|NE]; [|eapply sr_other; eauto].
    assert (X : forall t, frame (s_arenas s) (s_arenas t) -> nth_error (s_arenas t) k = None).
    { intros t F. specialize (F k). rewrite (proj2 (nth_error_None (s_arenas s) k)) in F by (unfold k; lia).
      unfold cfg_rel in F. destruct (nth_error (s_arenas t) k) as [[|]|]; easy. }
    rewrite (X sv2 N2). destruct (run_script_alloc l s HI HM) as (s3 & ? & E3 & _ & F3 & _). rewrite E in E3. inv E3. now apply X. }
  rewrite EA. destruct HR as (Hn & _ & _).
  assert (Er : live_ranges (m_hist (s_mem sv2)) = handed evs ++ (i, p, n) :: live_ranges h) by (rewrite M3; apply (alloc_ranges evs hv N6)).
  split; auto. split.
  - destruct (I_rng _ _ _ N1 i p n) as (_ & X); auto. rewrite Er. apply in_or_app. right. simpl. auto.
  - intros x Hx. rewrite M2, (alloc_ranges evs h N6) in Hx. pose proof (I_rapart _ _ _ N1) as P. rewrite Er in P.
    apply in_app_or in Hx as [Hx|Hx].
    + pose proof (pairwise_app_inv _ _ _ P x (i, p, n) Hx (or_introl eq_refl)) as Q. unfold rng_apart in Q. simpl in Q. unfold apart in *. lia.
    + apply pairwise_app in P. destruct P as (_ & P & _). apply pairwise_cons in P as [P _]. rewrite Forall_forall in P. apply (P x Hx).
Qed.

(** * Operations that do not concern an arena *)
Definition other (i : nat) (x : option arena) (s : sys) : sys := {| s_arenas := upd i x (s_arenas s); s_mem := s_mem s |}.

Lemma upd_comm {T} (l : list T) : forall i j x y, i <> j -> upd i x (upd j y l) = upd j y (upd i x l).
Proof.
  induction l as [|z l IH]; intros [|i] [|j] x y NE; simpl; auto; try congruence. f_equal. apply IH. congruence.
Qed.
Lemma get_other i x s j : j <> i -> get_arena (other i x s) j = get_arena s j.
Proof. intros NE. unfold get_arena, other. cbn [s_arenas]. now rewrite nth_error_upd_ne by auto. Qed.
Lemma put_other i x s j a m : j <> i -> put (other i x s) j a m = other i x (put s j a m).
Proof. intros NE. unfold put, other. cbn [s_arenas s_mem]. rewrite upd_comm by auto. reflexivity. Qed.
Lemma on_arena_other i x s j f s' r : j <> i -> on_arena s j f = Ok (s', r) ->
  on_arena (other i x s) j f = Ok (other i x s', r) /\ nth_error (s_arenas s') i = nth_error (s_arenas s) i.
Proof.
  intros NE H. unfold on_arena in *. rewrite get_other by auto. bk H. bk H. destruct x1 as [[a' m'] z]. inv H. rewrite H0. cbn [bind]. cbn [s_mem other]. rewrite H1. cbn [bind].
  split; [now rewrite <- put_other by auto|]. unfold put. cbn [s_arenas]. now rewrite nth_error_upd_ne.
Qed.

Lemma exec_other : forall o i x s j s' r, inv A s -> alive s j -> op_ok A o -> (uses_resource o = true -> resource_alive s j) ->
  j <> i -> (uses_resource o = true -> forall a, nth_error (s_arenas s) j = Some (Some a) -> a_resource a <> Some i) ->
  exec e o j s = Ok (s', r) ->
  exec e o j (other i x s) = Ok (other i x s', r) /\ nth_error (s_arenas s') i = nth_error (s_arenas s) i.
Proof.
  fix IH 1. intros o i x s j s' r HI HL HO HU NE HX H. destruct o.
  - now apply on_arena_other.
  - now apply on_arena_other.
  - destruct HO as [Hb Hbody]. cbn [exec] in *. bk H. destruct x0 as [s1 p].
    destruct (on_arena_other i x _ _ _ _ _ NE H0) as (E1 & N1). rewrite E1. cbn [bind]. 
    destruct HL as (a & Hi).
    destruct (allocateAligned_ok e A _ _ j a sz kByteSize HA HG HI Hi Hb (al8 e A HA HG))
      as (a1 & m1 & p' & E & HI1 & Hr & Hp & Hc & HR).
    unfold on_arena in H0. rewrite (get_arena_ok _ _ _ Hi) in H0. cbn [bind] in H0. rewrite E in H0. cbn [bind] in H0. inv H0.
    destruct (Z.eqb_spec p 0) as [->|NZ]; [inv H; auto|].
    destruct HR as [[]|(P0 & P1 & HR)]; [lia|].
    set (s1 := put s j a1 m1) in *. cbn [s_mem other]. bk H. rename x0 into m2. rewrite H0. cbn [bind].
    destruct (hand_out_ok A _ _ j p sz HI1 HR) as (m3 & E3 & HI3 & Hr3 & Hh3).
    assert (m3 = m2) by (cbn [s_mem s1 put] in H0; congruence). subst m3.
    set (s2 := {| s_arenas := s_arenas s1; s_mem := m2 |}) in *.
    change {| s_arenas := s_arenas (other i x s1); s_mem := m2 |} with (other i x s2).
    assert (F2 : frame (s_arenas s) (s_arenas s2)) by (eapply frame_upd; eauto).
    assert (BODY : forall l s2 s3, inv A s2 -> frame (s_arenas s) (s_arenas s2) ->
       (fix all (l : list op) : Prop := match l with [] => True | x :: r => op_ok A x /\ all r end) l ->
       ((fix any (l : list op) : bool := match l with [] => false | x :: r => uses_resource x || any r end) l = true -> uses_resource (OCreate sz ty dtor body) = true) ->
       (fix go (l : list op) (s : sys) : res sys :=
                  match l with [] => Ok s | x :: r => do (s', _) <- exec e x j s; go r s' end) l s2 = Ok s3 ->
       (fix go (l : list op) (s : sys) : res sys :=
                  match l with [] => Ok s | x :: r => do (s', _) <- exec e x j s; go r s' end) l (other i x s2) = Ok (other i x s3) /\
       nth_error (s_arenas s3) i = nth_error (s_arenas s2) i).
    { clear - IH HA HG HU HX NE Hi. induction l as [|y l IHl]; intros s2 s3 HI2 F2 Hok2 Hres2 H.
      - inv H. auto.
      - destruct Hok2 as [Hy Hl]. bk H. destruct x0 as [s' q].
        assert (Ha2 : alive s2 j) by (apply (frame_alive s s2); [auto|exists a; auto]).
        assert (Hr2 : uses_resource y = true -> resource_alive s2 j).
        { intros Hu. apply (frame_resource s s2); auto. apply HU, Hres2. now rewrite Hu. }
        destruct (IH y i x s2 j s' q HI2 Ha2 Hy Hr2 NE) as (X1 & X2); auto.
        { intros Hu b Hb. pose proof (F2 j) as FJ. rewrite Hi, Hb in FJ. destruct FJ as (_ & FR & _). rewrite FR. apply HX; auto.
          apply Hres2. now rewrite Hu. }
        rewrite X1. cbn [bind].
        destruct (exec_ok e A HA HG y j s2 HI2 Ha2 Hy Hr2) as (s'' & q' & EX & (Y1 & Y2 & _) & _). rewrite H0 in EX. inv EX.
        destruct (IHl s'' s3) as (Z1 & Z2); auto.
        + eapply frame_trans; eauto. + intros Hu. apply Hres2. rewrite Hu. apply orb_true_r.
        + split; auto. congruence. }
    bk H. destruct (BODY body s2 x0 HI3 F2 Hbody (fun u => u) H1) as (B1 & B2). rewrite B1. cbn [bind]. clear BODY B1.
    rename x0 into s3. bk H. destruct x0 as [s4 ok].
    assert (D : match dtor with None => Ok (other i x s3, 1) | Some fn => on_arena (other i x s3) j (fun a m => Own e j a m p fn) end = Ok (other i x s4, ok)
                /\ nth_error (s_arenas s4) i = nth_error (s_arenas s3) i).
    { destruct dtor; [now apply on_arena_other|]. inv H2. auto. }
    destruct D as (-> & D). cbn [bind].
    assert (NI : nth_error (s_arenas s4) i = nth_error (s_arenas s) i) by (rewrite D, B2; exact N1).
    destruct (ok =? 0); [inv H; auto|]. bk H. rewrite get_other by auto. rewrite H3. cbn [bind]. inv H. auto.
  - now apply on_arena_other.
  - now apply on_arena_other.
  - cbn [exec] in *. rewrite get_other by auto. bk H. rewrite H0. cbn [bind]. destruct (a_resource x0) as [k|] eqn:Ek; [|discriminate].
    apply on_arena_other; auto. intros ->. unfold get_arena in H0. destruct (nth_error (s_arenas s) j) as [[b|]|] eqn:Ej; try discriminate. inv H0.
    now apply (HX eq_refl x0 eq_refl).
Qed.

Lemma through_uses : forall o, through_resource o = uses_resource o.
Proof.
  intros o. reflexivity.
Qed.

Lemma used_other i s j o : j <> i -> (uses_resource o = true -> forall a, nth_error (s_arenas s) j = Some (Some a) -> a_resource a <> Some i) ->
  ~ In i (used_arenas s j o).
Proof.
  intros NE HX. assert (R : uses_resource o = true -> ~ In i (resource_of s j)).
  { intros Hu. unfold resource_of. destruct (nth_error (s_arenas s) j) as [[a|]|] eqn:E; simpl; auto.
    specialize (HX Hu a eq_refl). destruct (a_resource a); simpl; auto. intros [->|[]]. congruence. }
  destruct o; cbn [used_arenas]; try (simpl; intros [X|[]]; congruence).
  - intros [X|X]; [congruence|]. rewrite through_uses in X. destruct (uses_resource _) eqn:Eu; [now apply R|contradiction].
  - now apply R.
Qed.

Lemma exec_live_other o i x s j s' : inv A s -> alive s j -> op_ok A o -> (uses_resource o = true -> resource_alive s j) ->
  j <> i -> (uses_resource o = true -> forall a, nth_error (s_arenas s) j = Some (Some a) -> a_resource a <> Some i) ->
  exec_live e o j s = Ok s' ->
  exec_live e o j (other i x s) = Ok (other i x s') /\ nth_error (s_arenas s') i = nth_error (s_arenas s) i.
Proof.
  intros HI HL HO HU NE HX H. unfold exec_live in *.
  assert (EU : used_arenas (other i x s) j o = used_arenas s j o).
  { unfold used_arenas, resource_of, other. cbn [s_arenas]. rewrite nth_error_upd_ne by auto. reflexivity. }
  rewrite EU. pose proof (used_other i s j o NE HX) as NU.
  assert (L : forall l, ~ In i l -> forallb (last_live (other i x s)) l = forallb (last_live s) l).
  { induction l as [|y l IH]; simpl; auto. intros N. rewrite IH by tauto. f_equal. unfold last_live, other. cbn [s_arenas s_mem].
    rewrite nth_error_upd_ne by (intro; subst; tauto). reflexivity. }
  rewrite L by auto. destruct (negb _); [discriminate|]. bk H. destruct x0 as [s1 r].
  destruct (exec_other o i x s j s1 r HI HL HO HU NE HX H0) as (X1 & X2). rewrite X1. cbn [bind].
  assert (W : forall l, ~ In i l -> forallb (walk_live (other i x s) (other i x s1)) l = forallb (walk_live s s1) l).
  { induction l as [|y l IH]; simpl; auto. intros N. rewrite IH by tauto. f_equal. unfold walk_live, other. cbn [s_arenas s_mem].
    rewrite !nth_error_upd_ne by (intro; subst; tauto). reflexivity. }
  rewrite W by auto. destruct (forallb _ _); [|discriminate]. inv H. auto.
Qed.

Lemma run_script_other i x l : forall s s', inv A s -> may_use A s l -> keeps_off i s l -> run_script e l s = Ok s' ->
  run_script e l (other i x s) = Ok (other i x s') /\ nth_error (s_arenas s') i = nth_error (s_arenas s) i.
Proof.
  induction l as [|[j o] l IH]; intros s s' HI HM HK H; simpl in *; [inv H; auto|].
  bk H. destruct (HM j o (or_introl eq_refl)) as (M1 & M2 & M3). destruct (HK j o (or_introl eq_refl)) as (K1 & K2).
  destruct (exec_live_other o i x s j x0 HI M1 M2 M3 K1 K2 H0) as (X1 & X2). rewrite X1. cbn [bind].
  destruct (exec_live_ok e A HA HG o j s HI M1 M2 M3) as (s1 & evs & E1 & [N1 N2 N3 N4 N5] & _). rewrite H0 in E1. inv E1.
  destruct (IH s1 s' N1) as (Y1 & Y2); auto.
  - intros k p Hp. destruct (HM k p (or_intror Hp)) as (Q1 & Q2 & Q3). split; [eapply frame_alive; eauto|]. split; auto.
    intros Hu. eapply frame_resource; eauto.
  - intros k p Hp. destruct (HK k p (or_intror Hp)) as (Q1 & Q2). split; auto. intros Hu a Ha.
    pose proof (N2 k) as FK. rewrite Ha in FK. unfold cfg_rel in FK. destruct (nth_error (s_arenas s) k) as [[b|]|] eqn:Eb; try easy.
    destruct FK as (_ & -> & _). eapply Q2; eauto.
  - split; auto. congruence.
Qed.
End S.
