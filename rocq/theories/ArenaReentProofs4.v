(** Reset() of several blocks when the cleanups kept in the oldest one use arenas. *)
Require Import ZArith List Bool Lia Permutation.
From Verif Require Import Base BaseProofs AlignModel BasicSpec BasicProofs ArenaSpec ArenaModel ArenaStatements
  ArenaProofs ArenaProofs2 ArenaProofs3 ArenaProofs4 ArenaProofs5 ArenaProofs6 ArenaProofs7
  ArenaReentModel ArenaReentSpec ArenaReentProofs ArenaReentProofs2 ArenaHookModel ArenaHookSpec
  ArenaHookProofs ArenaHookProofs2 ArenaHookProofs3 ArenaHookProofs4.
Import ListNotations.
Open Scope Z_scope.

Section S.
Variable e : env.
Variable A : Z.
Variable w : script.
Hypothesis HA : block_alignment A.
Hypothesis HG : good_block_alloc A (e_alloc e).

Lemma run_nodes_r_sim i D h hv : live_blocks h = live_blocks hv -> (forall j, held h j = held hv j) ->
  forall fuel node last s sv sv', sr i D h hv s sv -> run_nodes_r (ev e h hv) w fuel node last sv = Ok sv' ->
  exists s', run_nodes_r e w fuel node last s = Ok s' /\ sr i D h hv s' sv'.
Proof.
  intros HB HH. induction fuel as [|fuel IH]; intros node last s sv sv' S E; cbn [run_nodes_r] in *;
    destruct (last <=? node); try discriminate; try (inv E; eauto; fail).
  pose proof (proj1 S) as (M1 & _). rewrite M1. destruct (m_nodes (s_mem sv) node) as [x|]; [|discriminate].
  destruct (run_script (ev e h hv) (w (n_elem x) (n_fn x)) (emits sv (ECleanup (n_elem x) (n_fn x)))) as [sv1| |] eqn:E1; try discriminate.
  cbn [bind] in E.
  assert (S0 : sr i D h hv (emits s (ECleanup (n_elem x) (n_fn x))) (emits sv (ECleanup (n_elem x) (n_fn x)))).
  { apply mem_sim; [exact S|]. apply emit_sim; [discriminate|exact (proj1 S)]. }
  destruct (run_script_sim e i D h hv HB HH _ _ _ _ S0 E1) as (s1 & -> & S1). cbn [bind]. eapply IH; eauto.
Qed.

Lemma oldest_quiet h i b ns nss : pending h i = map node_pair (concat (nss ++ [ns])) -> b_size b - b_limit b = 16 * Z.of_nat (length ns) ->
  oldest_only w h i b -> forall x, In x (concat nss) -> w (n_elem x) (n_fn x) = [].
Proof.
  intros P L HO x Hx. apply (HO (map node_pair (concat nss)) (map node_pair ns)).
  - rewrite P, concat_app, map_app. simpl. now rewrite app_nil_r.
  - rewrite map_length. lia.
  - change (n_elem x, n_fn x) with (node_pair x). now apply in_map.
Qed.

Lemma script_ok_upd s i a c f hv : nth_error (s_arenas s) i = Some (Some a) -> a_resource c = a_resource a ->
  script_ok A w s -> script_ok A w {| s_arenas := upd i (Some c) (s_arenas s); s_mem := {| m_nodes := f; m_hist := hv |} |}.
Proof.
  intros Hi Er HS el fn j o Hin. apply (may_use_upd A s i a c f hv (w el fn) Hi Er); auto.
  intros j' o' Hin'. exact (HS el fn j' o' Hin').
Qed.

Lemma Reset_r_oldest s i a front b : inv A s -> script_ok A w s -> nth_error (s_arenas s) i = Some (Some a) ->
  a_blocks a = front ++ [b] -> oldest_only w (m_hist (s_mem s)) i b ->
  exists s' a' evs, Reset_r e w i s = Ok (s', SpaceAllocated a) /\ m_hist (s_mem s') = evs ++ m_hist (s_mem s) /\
    cleanups_run evs = pending (m_hist (s_mem s)) i /\
    nth_error (s_arenas s') i = Some (Some a') /\
    map bspan (a_blocks a') = got i evs ++ [bspan b] /\
    SpaceAllocated a' = sizes (got i evs ++ [bspan b]) /\
    held (m_hist (s_mem s')) i = got i evs ++ [bspan b] /\
    (exists L, live_blocks (m_hist (s_mem s')) = Some L) /\ others_follow i s s' evs.
Proof.
  intros HI HS Hi Eb HO. destruct s as [l [f h]]. unfold inv in HI. cbn [s_arenas s_mem m_hist] in *.
  destruct (I_arena _ _ _ HI i a Hi) as (nss & HAi). pose proof HAi as [P1 P2 P3 P4 P5].
  pose proof (total_unused_space A l _ i a HI Hi) as [U1 U2]. cbn [m_nodes m_hist] in *.
  rewrite Eb in P2, U1, P4. apply Forall2_app_inv in P2 as (nsg & ns & -> & F1 & F2).
  pose proof (oldest_quiet h i b ns nsg P3 (bi_len _ _ _ _ F2) HO) as HQF.
  unfold Reset_r, get_arena at 1. cbn [s_arenas]. rewrite Hi. cbn [bind s_mem]. rewrite Eb.
  rewrite (free_except_r_quiet e A w l f front nsg b ns F1 F2 HQF h 0) by (unfold M64; lia). cbn [bind]. simpl Z.add.
  unfold get_arena at 1. cbn [s_arenas]. rewrite Hi. cbn [bind s_mem].
  set (evt := HReset i (a_cookie a) (a_space a) (total_unused (front ++ [b]))).
  set (hk := hook_part (o_on_reset (a_opts a)) evt).
  set (h1 := hk ++ freed front nsg ++ h).
  match goal with |- context [if o_on_reset (a_opts a) then ?X else ?Y] =>
    assert (EM : (if o_on_reset (a_opts a) then X else Y) = {| m_nodes := f; m_hist := h1 |})
      by (unfold h1, hk, hook_part; destruct (o_on_reset (a_opts a)); reflexivity) end.
  rewrite EM. clear EM. unfold put at 1. cbn [s_arenas s_mem].
  set (rs := filter (in_block i b) (live_ranges h)).
  set (hv := map (reg i) ns ++ map rng rs ++ CReset i :: h1).
  set (c0 := {| a_opts := a_opts a; a_blocks := [empty_block b]; a_resource := a_resource a; a_cookie := a_cookie a; a_space := b_size b |}).
  set (cv := {| a_opts := a_opts a; a_blocks := [b]; a_resource := a_resource a; a_cookie := a_cookie a; a_space := b_size b |}).
  pose proof (hook_quiet (o_on_reset (a_opts a)) i (a_cookie a) (a_space a) (total_unused (front ++ [b])) HReset (or_introl eq_refl)) as HQ.
  destruct (Inv_shrink A l {| m_nodes := f; m_hist := h |} i a front [b] nsg [ns] (Some c0) hk (CReset i)) as (HI0 & HO0 & PO0 & HE0); auto.
  { simpl. split; [exact P1|]. split; [reflexivity|]. split; [lia|]. constructor; [|constructor]. eapply empty_binv; eauto. }
  cbn [m_nodes m_hist] in HI0, HE0, HO0, PO0. fold h1 in HI0, HE0, HO0, PO0.
  assert (NR : forall j p n, In (j, p, n) (live_ranges (CReset i :: h1)) -> j <> i).
  { intros j p n Hr. simpl in Hr. apply filter_other_arena in Hr. tauto. }
  destruct (refill_facts i ns rs (CReset i :: h1)) as (R1 & R2 & R3 & R4).
  assert (HIv : Inv A (upd i (Some cv) l) {| m_nodes := f; m_hist := hv |}).
  { pose proof (Inv_refill A _ _ i c0 b ns rs HI0) as HF. cbn [m_nodes m_hist] in HF. rewrite upd_upd in HF. apply HF; auto.
    - eapply nth_error_upd_eq; eauto.
    - intros j p n Hr. unfold rs in Hr. apply filter_In in Hr as [Hr Hc]. unfold in_block in Hc. simpl in Hc.
      apply andb_prop in Hc as [C1 C2]. apply andb_prop in C2 as [C2 C3]. apply Nat.eqb_eq in C1.
      destruct (I_rng _ _ _ HI j p n Hr) as (Hn & _). unfold in_used. split; auto. split; auto. lia.
    - apply pairwise_filter. exact (I_rapart _ _ _ HI). }
  assert (EB : live_blocks h1 = live_blocks hv).
  { unfold hv. rewrite R1. simpl. destruct (live_blocks h1); reflexivity. }
  assert (EH : forall j, held h1 j = held hv j) by (intros j; unfold hv; rewrite R4; reflexivity).
  set (s1 := {| s_arenas := upd i (Some cv) l; s_mem := {| m_nodes := f; m_hist := h1 |} |}).
  set (sv1 := {| s_arenas := upd i (Some cv) l; s_mem := {| m_nodes := f; m_hist := hv |} |}).
  pose proof F2 as [B1 B2 B3 B4 B5 B6 B7 B8 B9].
  assert (S1 : sr i 0 h1 hv s1 sv1).
  { split; [split; [reflexivity|]; exists []; simpl; auto|]. intros k. unfold s1, sv1, oar. cbn [s_arenas].
    destruct (nth_error (upd i (Some cv) l) k) as [[y|]|] eqn:Ek; auto. repeat split; auto. intros ->.
    rewrite (nth_error_upd_eq _ _ _ _ Hi) in Ek. inv Ek. simpl. rewrite add64_small by (unfold M64; lia). lia. }
  assert (Hi1 : nth_error (s_arenas sv1) i = Some (Some cv)) by (simpl; eapply nth_error_upd_eq; eauto).
  destruct (run_cleanups_r_ok (ev e h1 hv) A w HA (ev_good e h1 hv EB A HG) sv1 i cv b ns HIv) as (sv2 & evs & Ev & N & C); auto.
  { apply (script_ok_upd {| s_arenas := l; s_mem := {| m_nodes := f; m_hist := h |} |} i a cv f hv Hi eq_refl HS). }
  { simpl; auto. }
  destruct (run_nodes_r_sim i 0 h1 hv EB EH _ _ _ _ _ _ S1 Ev) as (s2 & E2 & S2).
  fold (run_cleanups_r e w b s1) in E2. fold cv. fold s1. rewrite E2. cbn [bind].
  destruct (inner_chain A sv1 sv2 evs i cv b [] HIv N Hi1 eq_refl) as (cv2 & ff & b1 & Hi2 & Ec2 & Eb1 & Eg & Eh2).
  pose proof (proj2 S2 i) as HOi. unfold oar in HOi. rewrite Hi2 in HOi.
  destruct (nth_error (s_arenas s2) i) as [[a2|]|] eqn:Ea2; try easy.
  destruct HOi as (G1 & G2 & G3 & G4 & _ & G6). specialize (G6 eq_refl).
  unfold get_arena. rewrite Ea2. cbn [bind]. rewrite G2, Ec2, reset_oldest_snoc.
  destruct (I_arena _ _ _ (in_inv _ _ _ _ N) i cv2 Hi2) as (nss2 & [Q1 Q2 Q3 Q4 Q5]).
  pose proof (Inv_space_bound _ _ _ _ _ (in_inv _ _ _ _ N) Hi2) as SB.
  assert (Eh : m_hist (s_mem s2) = evs ++ h1).
  { pose proof (proj1 S2) as (M1 & evs' & M2 & M3 & M4). pose proof (in_hist _ _ _ _ N) as M5. rewrite M3 in M5.
    cbn [s_mem m_hist sv1] in M5. apply app_inv_tail in M5. now subst evs'. }
  set (tot := [CReset i] ++ evs ++ (hk ++ freed front nsg)).
  assert (GH : forall j, got j (hk ++ freed front nsg) = []).
  { intros j. rewrite got_app, got_freed. unfold hk, hook_part. destruct (o_on_reset _); reflexivity. }
  assert (GT : forall j, got j tot = got j evs).
  { intros j. unfold tot. simpl. rewrite got_app, GH. now rewrite app_nil_r. }
  assert (Ef : CReset i :: m_hist (s_mem s2) = tot ++ h).
  { rewrite Eh. unfold tot, h1. simpl. now rewrite <- !app_assoc. }
  set (a' := set_blocks a2 (ff ++ [empty_block b1])).
  eexists _, a', tot. split; [reflexivity|]. unfold put, emit. cbn [s_mem s_arenas m_hist].
  split; [exact Ef|].
  split.
  { unfold tot. simpl. rewrite !cleanups_run_app, C, (cleanups_run_freed A f _ _ F1), P3, concat_app, map_app. simpl.
    rewrite app_nil_r. unfold hk, hook_part. destruct (o_on_reset _); simpl; rewrite ?app_nil_r; reflexivity. }
  split; [eapply nth_error_upd_eq; eauto|].
  rewrite GT.
  split; [cbn [a' a_blocks set_blocks]; rewrite map_app; simpl; rewrite empty_span, Eb1, Eg; reflexivity|].
  split.
  { unfold SpaceAllocated. cbn [a' a_space set_blocks]. rewrite G6, add64_small by (unfold M64; lia).
    rewrite Z.add_0_r, Q4, Ec2, total_size_sizes, map_app. simpl. rewrite Eg, Eb1. reflexivity. }
  split.
  { simpl. rewrite Eh, (inner_held _ _ _ (in_evs _ _ _ _ N)), EH. f_equal. unfold hv. rewrite R4. exact HE0. }
  destruct (I_live _ _ _ (in_inv _ _ _ _ N)) as (L & EL & _).
  split. { exists L. simpl. rewrite Eh, (live_blocks_swap h1 hv EB). rewrite (in_hist _ _ _ _ N) in EL. cbn [s_mem m_hist sv1] in EL. now rewrite EL. }
  eapply (others_lift A _ i s2 sv1 sv2 0 h1 hv evs _ [CReset i] h (Some a')); eauto.
  - intros j NE. simpl. rewrite nth_error_upd_ne by auto. reflexivity.
  - unfold h1. now rewrite <- app_assoc.
Qed.
End S.
