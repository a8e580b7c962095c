Require Import ZArith List Bool Lia Permutation.
From Verif Require Import Base BaseProofs AlignModel BasicSpec BasicProofs ArenaSpec ArenaModel ArenaStatements
  ArenaProofs ArenaProofs2 ArenaProofs3 ArenaProofs4 ArenaProofs5 ArenaProofs6 ArenaProofs7
  ArenaReentModel ArenaReentSpec ArenaReentProofs ArenaReentProofs2 ArenaHookModel ArenaHookSpec
  ArenaHookProofs ArenaHookProofs2 ArenaHookProofs3.
Import ListNotations.
Open Scope Z_scope.

(** The ranges of arena [i] inside block [b]. *)
Definition in_block (i : nat) (b : block) (x : nat * Z * Z) : bool :=
  (fst (fst x) =? i)%nat && ((b_addr b + 32 <=? snd (fst x)) && (snd (fst x) + snd x <=? b_addr b + b_pos b)).

Lemma prefix_split {T} (a b c d : list T) : a ++ b = c ++ d -> (length a <= length c)%nat -> exists r, c = a ++ r.
Proof.
  revert c. induction a as [|x a IH]; intros c E L; [exists c; reflexivity|].
  destruct c as [|y c]; simpl in *; [lia|]. inv E. destruct (IH c) as (r & ->); auto; [lia|]. now exists r.
Qed.

Section S.
Variable e : env.
Variable k : hooks.
Variable A : Z.
Hypothesis HA : block_alignment A.
Hypothesis HG : good_block_alloc A (e_alloc e).

Lemma Reset_h_ok s i a front b : inv A s -> nth_error (s_arenas s) i = Some (Some a) -> a_blocks a = front ++ [b] ->
  (forall h, may_use A s (k_reset k h i)) ->
  exists s' r a' evs p1 p2, Reset_h e k i s = Ok (s', r) /\ m_hist (s_mem s') = evs ++ m_hist (s_mem s) /\
    nth_error (s_arenas s') i = Some (Some a') /\
    held (m_hist (s_mem s')) i = got i evs ++ [bspan b] /\
    map bspan (a_blocks a') = got i evs ++ [bspan b] /\
    r = (sizes (got i evs) + sizes (held (m_hist (s_mem s)) i)) mod M64 /\
    SpaceAllocated a' = match got i evs with [] => b_size b | x :: _ => snd x end /\
    pending (m_hist (s_mem s)) i = p1 ++ p2 /\ 16 * Z.of_nat (length p2) = b_size b - b_limit b /\
    match got i evs with
    | [] => cleanups_run evs = p1 ++ registered i evs ++ p2
    | _ => exists q t, registered i evs = q ++ t /\ cleanups_run evs = p1 ++ q
    end /\
    (exists L, live_blocks (m_hist (s_mem s')) = Some L) /\ others_follow i s s' evs /\
    (got i evs = [] -> inv A s').
Proof.
  intros HI Hi Eb HM. destruct s as [l [f h]]. unfold inv in HI. cbn [s_arenas s_mem m_hist] in *.
  destruct (I_arena _ _ _ HI i a Hi) as (nss & HAi). pose proof HAi as [P1 P2 P3 P4 P5].
  pose proof (total_unused_space A l _ i a HI Hi) as [U1 U2]. cbn [m_nodes m_hist] in *.
  rewrite Eb in P2, U1, P4. apply Forall2_app_inv in P2 as (nsg & ns & -> & F1 & F2).
  unfold Reset_h, get_arena. cbn [s_arenas]. rewrite Hi. cbn [bind s_mem]. rewrite Eb.
  rewrite (free_except_ok e A f front nsg b ns F1 F2 h 0) by (unfold M64; lia). cbn [bind]. simpl Z.add.
  set (evt := HReset i (a_cookie a) (a_space a) (total_unused (front ++ [b]))).
  set (w := k_reset k (m_hist {| m_nodes := f; m_hist := freed front nsg ++ h |}) i).
  rewrite cond_run. unfold put. cbn [s_arenas s_mem m_nodes m_hist].
  set (hk := hook_part (o_on_reset (a_opts a)) evt).
  set (h1 := hk ++ freed front nsg ++ h).
  set (rs := filter (in_block i b) (live_ranges h)).
  set (hv := map (reg i) ns ++ map rng rs ++ CReset i :: h1).
  set (c0 := {| a_opts := a_opts a; a_blocks := [empty_block b]; a_resource := a_resource a; a_cookie := a_cookie a; a_space := b_size b |}).
  set (cv := {| a_opts := a_opts a; a_blocks := [b]; a_resource := a_resource a; a_cookie := a_cookie a; a_space := b_size b |}).
  pose proof (hook_quiet (o_on_reset (a_opts a)) i (a_cookie a) (a_space a) (total_unused (front ++ [b])) HReset (or_introl eq_refl)) as HQ.
  destruct (Inv_shrink A l {| m_nodes := f; m_hist := h |} i a front [b] nsg [ns] (Some c0) hk (CReset i)) as (HI0 & HO0 & PO0 & HE0); auto.
  { simpl. split; [exact P1|]. split; [reflexivity|]. split; [lia|]. constructor; [|constructor]. eapply empty_binv; eauto. }
  cbn [m_nodes m_hist] in HI0, HE0, HO0, PO0. fold h1 in HI0, HE0, HO0, PO0.
  assert (NR : forall j p n, In (j, p, n) (live_ranges (CReset i :: h1)) -> j <> i).
  { intros j p n Hr. simpl in Hr. apply filter_other_arena in Hr. tauto. }
  destruct (refill_facts i ns rs (CReset i :: h1)) as (R1 & R2 & R3 & R4).
  assert (HIv : Inv A (upd i (Some cv) l) {| m_nodes := f; m_hist := hv |}).
  { pose proof (Inv_refill A _ _ i c0 b ns rs HI0) as HF. cbn [m_nodes m_hist] in HF. rewrite upd_upd in HF. apply HF; auto.
    - eapply nth_error_upd_eq; eauto.
    - intros j p n Hr. unfold rs in Hr. apply filter_In in Hr as [Hr Hc]. unfold in_block in Hc. simpl in Hc.
      apply andb_prop in Hc as [C1 C2]. apply andb_prop in C2 as [C2 C3]. apply Nat.eqb_eq in C1.
      destruct (I_rng _ _ _ HI j p n Hr) as (Hn & _). unfold in_used. split; auto. split; auto. lia.
    - apply pairwise_filter. exact (I_rapart _ _ _ HI). }
  assert (EB : live_blocks h1 = live_blocks hv).
  { unfold hv. rewrite R1. simpl. destruct (live_blocks h1); reflexivity. }
  assert (EH : forall j, held h1 j = held hv j) by (intros j; unfold hv; rewrite R4; reflexivity).
  assert (EP : forall j, j <> i -> pending h1 j = pending hv j).
  { intros j NE. unfold hv. rewrite R3. destruct (Nat.eqb_spec i j); [congruence|]. simpl.
    destruct (Nat.eqb_spec i j); [congruence|reflexivity]. }
  assert (EPi : pending hv i = map node_pair ns).
  { unfold hv. rewrite R3, Nat.eqb_refl. simpl. rewrite Nat.eqb_refl. apply app_nil_r. }
  assert (ER : filter (not_of i) (live_ranges h1) = filter (not_of i) (live_ranges hv)).
  { unfold hv. rewrite R2, filter_app. rewrite (filter_nil (not_of i) rs).
    - simpl. fold (not_of i). symmetry. apply filter_id. intros x Hx. apply filter_In in Hx. tauto.
    - intros x Hx. apply filter_In in Hx as [_ Hx]. unfold in_block in Hx. apply andb_prop in Hx as [Hx _].
      unfold not_of. now rewrite Hx. }
  set (sv1 := {| s_arenas := upd i (Some cv) l; s_mem := {| m_nodes := f; m_hist := hv |} |}).
  pose proof (total_unused_bound _ _ _ _ F1) as TU. rewrite total_size_app in P4. simpl in P4. rewrite Z.add_0_r in P4.
  pose proof F2 as [B1 B2 B3 B4 B5 B6 B7 B8 B9].
  destruct (phase e A HA HG i (total_size front) l f h1 hv (set_blocks a [b]) cv (if o_on_reset (a_opts a) then w else []) (Some a) EB EH Hi)
    as (s2 & sv2 & evs & E2 & N & C & S2 & Eh & En & NM).
  { repeat split; simpl; auto; try congruence. intros _. rewrite add64_small by (unfold M64; lia). lia. }
  { exact HIv. }
  { destruct (o_on_reset (a_opts a)); [|apply may_nil].
    apply (may_use_upd A {| s_arenas := l; s_mem := {| m_nodes := f; m_hist := h |} |} i a cv f hv w Hi eq_refl (HM _)). }
  rewrite E2. cbn [bind]. fold sv1 in N.
  assert (Hi1 : nth_error (s_arenas sv1) i = Some (Some cv)) by (simpl; eapply nth_error_upd_eq; eauto).
  pose proof (in_fz _ _ _ _ N) as [HL _]. destruct (HL i cv Hi1) as (cv2 & Hi2 & CL).
  destruct (inner_chain A sv1 sv2 evs i cv b [] HIv N Hi1 eq_refl) as (cv2' & ff & b1 & Hi2' & Ec2 & Eb1 & Eg & Eh2).
  rewrite Hi2 in Hi2'. inv Hi2'. rewrite Ec2 in CL. simpl in CL. destruct CL as (ff' & b1' & Eff & _ & _ & LIM).
  apply app_inj_tail in Eff as [<- <-].
  pose proof (proj2 S2 i) as HOi. unfold oar in HOi. rewrite Hi2 in HOi.
  destruct (nth_error (s_arenas s2) i) as [[a2|]|] eqn:Ea2; try easy.
  destruct HOi as (G1 & G2 & G3 & G4 & _ & G6). specialize (G6 eq_refl).
  cbn [bind]. rewrite G2, Ec2.
  destruct (I_arena _ _ _ (in_inv _ _ _ _ N) i cv2' Hi2) as (nss2 & [Q1 Q2 Q3 Q4 Q5]).
  pose proof (Inv_space_bound _ _ _ _ _ (in_inv _ _ _ _ N) Hi2) as SB.
  rewrite Ec2 in Q2, Q4.
  rewrite (in_hist _ _ _ _ N) in Q3. cbn [s_mem m_hist sv1] in Q3.
  rewrite (inner_pending _ _ _ (in_evs _ _ _ _ N)), EPi in Q3.
  set (p1 := map node_pair (concat nsg)). set (p2 := map node_pair ns).
  (* whichever block is last *)
  assert (LAST : exists b2 rest ns2 nrest, ff ++ [b1] = b2 :: rest /\ nss2 = ns2 :: nrest /\ binv A (m_nodes (s_mem s2)) b2 ns2 /\
            match got i evs with [] => b_size b2 = b_size b /\ map node_pair ns2 = registered i evs ++ p2 /\ rest = []
            | x :: _ => b_size b2 = snd x /\ exists t, registered i evs = map node_pair ns2 ++ t end).
  { rewrite En. destruct ff as [|b2 ff].
    - simpl in *. inversion Q2 as [|? ns2 ? nss' X1 X2]; subst. inversion X2; subst. exists b1, [], ns2, [].
      split; auto. split; auto. split; auto. rewrite <- Eg. simpl. split; [unfold bspan in Eb1; congruence|]. split; auto.
      simpl in Q3. rewrite app_nil_r in Q3. now rewrite <- Q3.
    - simpl in *. inversion Q2 as [|? ns2 ? nss' X1 X2]; subst. exists b2, (ff ++ [b1]), ns2, nss'.
      split; auto. split; auto. split; auto. rewrite <- Eg. simpl. split; auto.
      apply Forall2_app_inv in X2 as (nsf & nb & -> & X3 & X4).
      simpl in Q3. rewrite map_app in Q3. symmetry in Q3. eapply prefix_split; [exact Q3|].
      assert (LN : (length ns <= length nb)%nat).
      { pose proof (bi_len _ _ _ _ X4) as LX. pose proof (bi_len _ _ _ _ F2) as LY. unfold bspan in Eb1. injection Eb1 as _ EZ. simpl in LIM. lia. }
      apply (f_equal (@length _)) in Q3. rewrite concat_app, !app_length, !map_length, !app_length in Q3. simpl in Q3.
      rewrite app_nil_r in Q3. rewrite map_length. lia. }
  destruct LAST as (b2 & rest & ns2 & nrest & EL1 & EL2 & BL & MAT). rewrite EL1.
  unfold block_reset. rewrite (run_cleanups_ok A (s_mem s2) b2 ns2 BL). cbn [bind].
  set (a' := {| a_opts := a_opts a2; a_blocks := {| b_addr := b_addr b2; b_pos := kBlockHeaderSize; b_size := b_size b2; b_limit := b_size b2 |} :: rest;
               a_resource := a_resource a2; a_cookie := a_cookie a2; a_space := b_size b2 |}).
  set (tot := (CReset i :: rev (map node_event ns2)) ++ evs ++ (hk ++ freed front nsg)).
  assert (GH : forall j, got j (hk ++ freed front nsg) = []).
  { intros j. rewrite got_app, got_freed. unfold hk, hook_part. destruct (o_on_reset _); reflexivity. }
  assert (GN : forall j, got j (CReset i :: rev (map node_event ns2)) = []) by (intros j; simpl; apply got_nodes).
  assert (GT : forall j, got j tot = got j evs).
  { intros j. unfold tot. rewrite got_app, (got_app j evs), GN, GH. simpl. now rewrite app_nil_r. }
  assert (RT : registered i tot = registered i evs).
  { unfold tot. simpl. rewrite !registered_app, registered_nodes, registered_freed. unfold hk, hook_part. destruct (o_on_reset _); simpl; now rewrite app_nil_r. }
  assert (Ef : CReset i :: rev (map node_event ns2) ++ m_hist (s_mem s2) = tot ++ h).
  { rewrite Eh. unfold tot, h1. simpl. now rewrite <- !app_assoc. }
  assert (CR : cleanups_run tot = p1 ++ map node_pair ns2).
  { unfold tot. rewrite !cleanups_run_app, C, (cleanups_run_freed A f _ _ F1). simpl. rewrite cleanups_run_nodes.
    unfold hk, hook_part. destruct (o_on_reset _); simpl; rewrite ?app_nil_r; reflexivity. }
  destruct (run_events_quiet ns2 (m_hist (s_mem s2))) as (V1 & V2 & V3 & V4).
  eexists _, _, a', tot, p1, p2. split; [reflexivity|]. cbn [s_mem s_arenas]. unfold emit. cbn [m_hist m_nodes].
  split; [exact Ef|].
  split; [eapply nth_error_upd_eq; eauto|].
  assert (EHD : held (evs ++ h1) i = got i evs ++ [bspan b]).
  { rewrite (inner_held _ _ _ (in_evs _ _ _ _ N)), EH. f_equal. unfold hv. rewrite R4. exact HE0. }
  split. { rewrite GT. simpl. rewrite V4, Eh. exact EHD. }
  split.
  { rewrite GT. assert (EM : map bspan (ff ++ [b1]) = got i evs ++ [bspan b]) by (rewrite map_app; simpl; rewrite Eg, Eb1; reflexivity).
    rewrite <- EM, EL1. reflexivity. }
  split.
  { rewrite GT, G6, Q4. unfold add64. f_equal. rewrite total_size_app. simpl. rewrite P5, Eb, <- total_size_sizes, total_size_app. simpl.
    rewrite <- Eg, <- total_size_sizes. unfold bspan in Eb1. injection Eb1 as _ EZ. rewrite EZ. lia. }
  split. { rewrite GT. unfold SpaceAllocated. simpl. destruct (got i evs); apply MAT. }
  split. { rewrite P3, concat_app, map_app. simpl. now rewrite app_nil_r. }
  split. { unfold p2. rewrite map_length. lia. }
  split.
  { rewrite GT, RT, CR. destruct (got i evs) as [|x g].
    - destruct MAT as (_ & -> & _). reflexivity.
    - destruct MAT as (_ & t & Et). exists (map node_pair ns2), t. auto. }
  destruct (I_live _ _ _ (in_inv _ _ _ _ N)) as (L & EL & _).
  split. { exists L. simpl. rewrite V1, Eh, (live_blocks_swap h1 hv EB). rewrite (in_hist _ _ _ _ N) in EL. cbn [s_mem m_hist sv1] in EL. now rewrite EL. }
  split.
  { eapply (others_lift A _ i s2 sv1 sv2 (total_size front) h1 hv evs _ (CReset i :: rev (map node_event ns2)) h (Some a')); eauto.
    - intros j NE. simpl. rewrite nth_error_upd_ne by auto. reflexivity.
    - intros j x. simpl. destruct (run_events_quiet ns2 x) as (_ & _ & _ & ->). reflexivity.
    - unfold h1. now rewrite <- app_assoc. }
  rewrite GT. intros EG0. rewrite EG0 in *. destruct MAT as (Z1 & Z2 & ->).
  unfold inv. cbn [s_arenas s_mem]. rewrite (sr_upd _ _ _ _ _ _ (Some a') S2).
  rewrite EL1 in Ec2.
  destruct (Inv_shrink A (s_arenas sv2) (s_mem sv2) i cv2' [] [b2] [] [ns2] (Some a') (rev (map node_event ns2)) (CReset i) (in_inv _ _ _ _ N) Hi2)
    as (HIf & _); auto.
  { constructor; [rewrite <- En; exact BL|constructor]. }
  { simpl. split; [rewrite G1; exact Q1|]. split; [reflexivity|]. split; [lia|]. constructor; [|constructor].
    rewrite <- En. apply (empty_binv A _ _ _ BL). }
  { intros x. apply run_events_quiet. }
  simpl in HIf. rewrite (in_hist _ _ _ _ N), <- En in HIf. cbn [s_mem m_hist sv1] in HIf.
  rewrite Eh. apply (hist_switch A _ _ i ns2 evs h1 hv (CReset i)); auto. exact (in_evs _ _ _ _ N).
Qed.
End S.
