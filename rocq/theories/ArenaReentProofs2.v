Require Import ZArith List Bool Lia Permutation.
From Verif Require Import Base BaseProofs AlignModel BasicSpec BasicProofs ArenaSpec ArenaModel ArenaStatements
  ArenaProofs ArenaProofs2 ArenaProofs3 ArenaProofs4 ArenaProofs5 ArenaProofs6 ArenaProofs7
  ArenaReentModel ArenaReentSpec ArenaReentProofs.
Import ListNotations.
Open Scope Z_scope.

(** * Cleanups without operations: the model of ArenaModel.v *)
Section Plain.
Variable e : env.
Variable w : script.
Hypothesis HW : forall el fn, w el fn = [].

Definition lift_mem (s : sys) (r : res mem) : res sys :=
  do m <- r; Ok {| s_arenas := s_arenas s; s_mem := m |}.

Lemma sys_eta (s : sys) : {| s_arenas := s_arenas s; s_mem := s_mem s |} = s.
Proof. destruct s; reflexivity. Qed.

Lemma run_nodes_r_plain fuel : forall node last s,
  run_nodes_r e w fuel node last s = lift_mem s (run_nodes fuel node last (s_mem s)).
Proof.
  induction fuel as [|k IH]; intros node last s; simpl; destruct (last <=? node); simpl; try now rewrite sys_eta.
  - reflexivity.
  - destruct (m_nodes (s_mem s) node) as [x|]; [|reflexivity]. rewrite HW. cbn [run_script bind]. rewrite IH. reflexivity.
Qed.
Lemma run_cleanups_r_plain b s : run_cleanups_r e w b s = lift_mem s (run_cleanups b (s_mem s)).
Proof. apply run_nodes_r_plain. Qed.

Lemma free_all_r_plain l : forall s acc,
  free_all_r e w l s acc = do (m, k) <- free_all_blocks e l (s_mem s) acc; Ok ({| s_arenas := s_arenas s; s_mem := m |}, k).
Proof.
  induction l as [|b r IH]; intros s acc; simpl; [now rewrite sys_eta|].
  destruct (remain e b) as [k| |]; simpl; auto. rewrite run_cleanups_r_plain.
  destruct (run_cleanups b (s_mem s)) as [m| |]; simpl; auto. now rewrite IH.
Qed.
Lemma free_except_r_plain l : forall s acc,
  free_except_head_r e w l s acc =
  do (b, m, k) <- free_blocks_except_head e l (s_mem s) acc; Ok (b, {| s_arenas := s_arenas s; s_mem := m |}, k).
Proof.
  induction l as [|b [|c r] IH]; intros s acc.
  - simpl. destruct (e_debug e); reflexivity.
  - simpl. destruct (remain e b) as [k| |]; simpl; auto. now rewrite sys_eta.
  - change (free_except_head_r e w (b :: c :: r) s acc) with
      (do k <- remain e b; do s1 <- run_cleanups_r e w b s;
       free_except_head_r e w (c :: r) (emits s1 (EBlockFree (b_addr b))) (add64 acc k)).
    change (free_blocks_except_head e (b :: c :: r) (s_mem s) acc) with
      (do k <- remain e b; do m1 <- run_cleanups b (s_mem s);
       free_blocks_except_head e (c :: r) (emit m1 (EBlockFree (b_addr b))) (add64 acc k)).
    destruct (remain e b) as [k| |]; cbn [bind]; auto. rewrite run_cleanups_r_plain.
    destruct (run_cleanups b (s_mem s)) as [m| |]; cbn [bind lift_mem]; auto. now rewrite IH.
Qed.

Lemma get_put s i a a' m : get_arena s i = Ok a -> get_arena (put s i a' m) i = Ok a'.
Proof.
  unfold get_arena, put. simpl. destruct (nth_error (s_arenas s) i) as [x|] eqn:E; [|discriminate]. intros _.
  now rewrite (nth_error_upd_eq _ _ _ _ E).
Qed.

Lemma step_r_plain s o : step_r e w s o = step e s o.
Proof.
  destruct o as [op|i o|i|i|i]; simpl; auto.
  - unfold Reset_r, on_arena. destruct (get_arena s i) as [a| |] eqn:Ea; cbn [bind]; auto.
    rewrite free_except_r_plain. unfold Reset.
    destruct (free_blocks_except_head e (a_blocks a) (s_mem s) 0) as [[[b m1] waste]| |]; cbn [bind]; auto.
    unfold get_arena at 1. cbn [s_arenas]. unfold get_arena in Ea.
    destruct (nth_error (s_arenas s) i) as [[c|]|] eqn:En; try discriminate. inv Ea. cbn [bind].
    rewrite run_cleanups_r_plain. unfold put. cbn [s_mem s_arenas]. unfold block_reset, lift_mem. cbn [s_arenas].
    destruct (run_cleanups b _) as [m3| |]; cbn [bind]; auto.
    unfold get_arena. cbn [s_arenas]. rewrite (nth_error_upd_eq _ _ _ _ En). cbn [bind].
    rewrite upd_upd. reflexivity.
  - unfold destroy_r. destruct (get_arena s i) as [a| |] eqn:Ea; cbn [bind]; auto.
    rewrite free_all_r_plain. unfold destroy.
    destruct (free_all_blocks e (a_blocks a) (s_mem s) 0) as [[m1 waste]| |]; cbn [bind]; auto.
    unfold get_arena in *. cbn [s_arenas]. rewrite Ea. reflexivity.
Qed.
End Plain.

(** * Histories *)
Definition inner_event (ev : event) : Prop :=
  alloc_event ev \/ exists x y, ev = ECleanup x y.

Lemma inner_held evs h i : Forall inner_event evs -> held (evs ++ h) i = got i evs ++ held h i.
Proof.
  induction 1 as [|ev evs Hev F IH]; simpl; auto.
  destruct Hev as [Hev|(x & y & ->)]; [|exact IH].
  destruct ev; simpl in Hev; try contradiction; auto.
  destruct r as [a|]; auto. destruct (arena =? i)%nat; simpl; now rewrite IH.
Qed.
Lemma inner_pending evs h i : Forall inner_event evs -> pending (evs ++ h) i = registered i evs ++ pending h i.
Proof.
  induction 1 as [|ev evs Hev F IH]; simpl; auto.
  destruct Hev as [Hev|(x & y & ->)]; [|exact IH].
  destruct ev; simpl in Hev; try contradiction; auto.
  destruct (arena =? i)%nat; simpl; now rewrite IH.
Qed.
Lemma got_app i h1 h2 : got i (h1 ++ h2) = got i h1 ++ got i h2.
Proof.
  induction h1 as [|ev h1 IH]; simpl; auto. destruct ev; auto. destruct r; auto. destruct (arena =? i)%nat; simpl; now rewrite IH.
Qed.
Lemma registered_app i h1 h2 : registered i (h1 ++ h2) = registered i h1 ++ registered i h2.
Proof.
  induction h1 as [|ev h1 IH]; simpl; auto. destruct ev; auto. destruct (arena =? i)%nat; simpl; now rewrite IH.
Qed.
Lemma got_nodes i ns : got i (rev (map node_event ns)) = [].
Proof. induction ns; simpl; auto. now rewrite got_app, IHns. Qed.
Lemma registered_nodes i ns : registered i (rev (map node_event ns)) = [].
Proof. induction ns; simpl; auto. now rewrite registered_app, IHns. Qed.
Lemma got_freed i l nss : got i (freed l nss) = [].
Proof.
  revert nss. induction l; intros [|ns nss]; simpl; auto. rewrite got_app, IHl. simpl. apply got_nodes.
Qed.
Lemma registered_freed i l nss : registered i (freed l nss) = [].
Proof.
  revert nss. induction l; intros [|ns nss]; simpl; auto. rewrite registered_app, IHl. simpl. apply registered_nodes.
Qed.

(** * Cleanups while nothing is freed *)
Section S.
Variable e : env.
Variable A : Z.
Variable w : script.
Hypothesis HA : block_alignment A.
Hypothesis HG : good_block_alloc A (e_alloc e).

Definition inv (s : sys) : Prop := Inv A (s_arenas s) (s_mem s).

Lemma header_live_ok m i a nss b : ainv A m i a nss -> In b (a_blocks a) -> header_live m i b = true.
Proof.
  intros [_ _ _ _ HH] Hb. unfold header_live. rewrite HH. apply existsb_exists. exists (bspan b).
  split; [now apply in_map|]. unfold bspan. simpl. now rewrite !Z.eqb_refl.
Qed.
Lemma last_live_ok s j : inv s -> last_live s j = true.
Proof.
  intros HI. unfold last_live. destruct (nth_error (s_arenas s) j) as [[a|]|] eqn:E; auto.
  destruct (I_arena _ _ _ HI j a E) as (nss & HAj). destruct (a_blocks a) as [|b r] eqn:Eb; auto.
  eapply header_live_ok; eauto. rewrite Eb. simpl; auto.
Qed.
Lemma walk_live_ok s s' j : inv s -> walk_live s s' j = true.
Proof.
  intros HI. unfold walk_live. destruct (nth_error (s_arenas s) j) as [[a|]|] eqn:E; auto.
  destruct (nth_error (s_arenas s') j) as [[a'|]|]; auto. destruct (_ && _); auto.
  destruct (I_arena _ _ _ HI j a E) as (nss & HAj). apply forallb_forall. intros b Hb. eapply header_live_ok; eauto.
Qed.

(** What a piece of execution without frees does. *)
Record inner (s s' : sys) (evs : history) : Prop := {
  in_inv : inv s';
  in_frame : frame (s_arenas s) (s_arenas s');
  in_fz : fzs s s';
  in_hist : m_hist (s_mem s') = evs ++ m_hist (s_mem s);
  in_evs : Forall inner_event evs }.

Lemma inner_trans s1 s2 s3 e1 e2 : inner s1 s2 e1 -> inner s2 s3 e2 -> inner s1 s3 (e2 ++ e1).
Proof.
  intros [A1 A2 A3 A4 A5] [B1 B2 B3 B4 B5]. constructor; auto.
  - eapply frame_trans; eauto.
  - eapply fz_trans; eauto.
  - now rewrite B4, A4, app_assoc.
  - apply Forall_app; auto.
Qed.

Lemma script_ok_frame s s' : frame (s_arenas s) (s_arenas s') -> script_ok A w s -> script_ok A w s'.
Proof.
  intros HF H el fn j o Hin. destruct (H el fn j o Hin) as (H1 & H2 & H3). split; [eapply frame_alive; eauto|].
  split; auto. intros Hu. eapply frame_resource; eauto.
Qed.

Lemma alloc_no_cleanup evs : Forall alloc_event evs -> cleanups_run evs = [].
Proof. induction 1 as [|ev evs Hev F IH]; auto. destruct ev; simpl in *; auto; contradiction. Qed.

Lemma exec_live_ok o i s : inv s -> alive s i -> op_ok A o -> (uses_resource o = true -> resource_alive s i) ->
  exists s' evs, exec_live e o i s = Ok s' /\ inner s s' evs /\ cleanups_run evs = [].
Proof.
  intros HI Ha Ho Hr. unfold exec_live.
  rewrite (proj2 (forallb_forall _ _)) by (intros j _; now apply last_live_ok). simpl negb. cbv iota.
  destruct (exec_ok e A HA HG o i s HI Ha Ho Hr) as (s' & r & E & (P1 & P2 & P3) & _). rewrite E. cbn [bind].
  rewrite (proj2 (forallb_forall _ _)) by (intros j _; now apply walk_live_ok).
  destruct P3 as (evs & Eh & F). exists s', evs. split; auto. split; [|now apply alloc_no_cleanup].
  constructor; auto.
  - eapply exec_fz; eauto.
  - eapply Forall_impl; [|exact F]. intros x Hx. now left.
Qed.

Lemma run_script_ok l : forall s, inv s ->
  (forall j o, In (j, o) l -> alive s j /\ op_ok A o /\ (uses_resource o = true -> resource_alive s j)) ->
  exists s' evs, run_script e l s = Ok s' /\ inner s s' evs /\ cleanups_run evs = [].
Proof.
  induction l as [|[j o] l IH]; intros s HI H; simpl.
  - exists s, []. split; auto. split; auto. constructor; auto; [apply frame_refl|apply fz_refl].
  - destruct (H j o (or_introl eq_refl)) as (H1 & H2 & H3).
    destruct (exec_live_ok o j s HI H1 H2 H3) as (s1 & e1 & E1 & N1 & C1). rewrite E1. cbn [bind].
    destruct (IH s1) as (s2 & e2 & E2 & N2 & C2); [apply N1| |].
    { intros k p Hp. destruct (H k p (or_intror Hp)) as (K1 & K2 & K3).
      pose proof (in_frame _ _ _ N1). split; [eapply frame_alive; eauto|].
      split; auto. intros Hu. eapply frame_resource; eauto. }
    exists s2, (e2 ++ e1). split; auto. split; [eapply inner_trans; eauto|].
    now rewrite cleanups_run_app, C1, C2.
Qed.

Lemma emits_inner s el fn : inv s -> inner s (emits s (ECleanup el fn)) [ECleanup el fn].
Proof.
  intros HI. constructor; simpl; auto.
  - apply Inv_quiet; [exact I|exact HI].
  - apply frame_refl.
  - apply fz_nodes. reflexivity.
  - constructor; [right; eauto|constructor].
Qed.

Lemma run_nodes_r_ok ns : forall fuel base s j a b,
  inv s -> script_ok A w s -> nodes_at (m_nodes (s_mem s)) base ns ->
  nth_error (s_arenas s) j = Some (Some a) -> In b (a_blocks a) ->
  b_addr b + b_limit b <= base -> base + 16 * Z.of_nat (length ns) = b_addr b + b_size b ->
  (length ns < fuel)%nat ->
  exists s' evs, run_nodes_r e w fuel base (base + 16 * Z.of_nat (length ns)) s = Ok s' /\
    inner s s' evs /\ cleanups_run evs = map node_pair ns.
Proof.
  induction ns as [|x ns IH]; intros [|fuel] base s j a b HI HS HN Hj Hb HL HE HF; simpl length in *; try lia.
  - simpl. replace (base + 0) with base by lia. rewrite Z.leb_refl. exists s, []. split; auto. split; auto.
    constructor; auto; [apply frame_refl|apply fz_refl].
  - cbn [run_nodes_r]. destruct (Z.leb_spec (base + 16 * Z.of_nat (S (length ns))) base); [lia|].
    pose proof (HN O x eq_refl) as E0. simpl in E0. rewrite Z.add_0_r in E0. rewrite E0.
    pose proof (emits_inner s (n_elem x) (n_fn x) HI) as N0.
    destruct (run_script_ok (w (n_elem x) (n_fn x)) (emits s (ECleanup (n_elem x) (n_fn x)))) as (s1 & e1 & E1 & N1 & C1).
    { apply N0. }
    { intros k o Ho. exact (HS _ _ _ _ Ho). }
    rewrite E1. cbn [bind]. pose proof (inner_trans _ _ _ _ _ N0 N1) as N01.
    pose proof (in_fz _ _ _ N01) as [HLe HFr].
    destruct (HLe j a Hj) as (a1 & Hj1 & C). destruct (chain_le_in _ _ _ C Hb) as (b1 & Hb1 & B1 & B2 & B3).
    replace (base + 16 * Z.of_nat (S (length ns))) with (base + 16 + 16 * Z.of_nat (length ns)) by lia. rewrite kC16.
    destruct (IH fuel (base + 16) s1 j a1 b1) as (s2 & e2 & E2 & N2 & C2); try lia; auto.
    { apply N01. }
    { eapply script_ok_frame; [apply N01|auto]. }
    { intros k y Hk. rewrite (HFr b); [|eapply in_all_blocks; eauto|lia|].
      - rewrite <- (HN (S k) y Hk). f_equal. lia.
      - assert (k < length ns)%nat by (apply nth_error_Some; congruence). lia. }
    rewrite E2. eexists s2, _. split; [reflexivity|]. split; [eapply inner_trans; eauto|].
    rewrite !cleanups_run_app, C1, C2. reflexivity.
Qed.

Lemma run_cleanups_r_ok s j a b ns : inv s -> script_ok A w s ->
  nth_error (s_arenas s) j = Some (Some a) -> In b (a_blocks a) -> binv A (m_nodes (s_mem s)) b ns ->
  exists s' evs, run_cleanups_r e w b s = Ok s' /\ inner s s' evs /\ cleanups_run evs = map node_pair ns.
Proof.
  intros HI HS Hj Hb [B1 B2 B3 B4 B5 B6 B7 B8 B9]. unfold run_cleanups_r.
  rewrite !add64_small by (unfold M64; lia). rewrite kC16.
  replace (b_addr b + b_size b) with (b_addr b + b_limit b + 16 * Z.of_nat (length ns)) by lia.
  eapply run_nodes_r_ok; eauto; try lia. replace (b_size b - b_limit b) with (Z.of_nat (length ns) * 16) by lia.
  rewrite Z_div_mult by lia. lia.
Qed.

(** Cleanups that use nothing. *)
Lemma run_nodes_r_quiet ns : (forall x, In x ns -> w (n_elem x) (n_fn x) = []) -> forall l f h base fuel,
  nodes_at f base ns -> (length ns < fuel)%nat ->
  run_nodes_r e w fuel base (base + 16 * Z.of_nat (length ns)) {| s_arenas := l; s_mem := {| m_nodes := f; m_hist := h |} |} =
    Ok {| s_arenas := l; s_mem := {| m_nodes := f; m_hist := rev (map node_event ns) ++ h |} |}.
Proof.
  intros HQ l f. induction ns as [|x ns IH]; intros h base [|fuel] N L; simpl length in *; try lia.
  - simpl. replace (base + 0) with base by lia. now rewrite Z.leb_refl.
  - cbn [run_nodes_r]. destruct (Z.leb_spec (base + 16 * Z.of_nat (S (length ns))) base); [lia|].
    pose proof (N O x eq_refl) as E0. simpl in E0. rewrite Z.add_0_r in E0. cbn [s_mem m_nodes]. rewrite E0.
    rewrite HQ by (simpl; auto). cbn [run_script bind]. unfold emits, emit; cbn [s_arenas s_mem m_nodes m_hist].
    replace (base + 16 * Z.of_nat (S (length ns))) with (base + 16 + 16 * Z.of_nat (length ns)) by lia. rewrite kC16.
    rewrite IH; [| |intros k y Hk; rewrite <- (N (S k) y Hk); f_equal; lia|lia].
    + simpl. rewrite <- app_assoc. reflexivity.
    + intros y Hy. apply HQ. simpl; auto.
Qed.
Lemma run_cleanups_r_quiet l f h b ns : binv A f b ns -> (forall x, In x ns -> w (n_elem x) (n_fn x) = []) ->
  run_cleanups_r e w b {| s_arenas := l; s_mem := {| m_nodes := f; m_hist := h |} |} =
    Ok {| s_arenas := l; s_mem := {| m_nodes := f; m_hist := rev (map node_event ns) ++ h |} |}.
Proof.
  intros [B1 B2 B3 B4 B5 B6 B7 B8 B9] HQ. unfold run_cleanups_r.
  rewrite !add64_small by (unfold M64; lia). rewrite kC16.
  replace (b_addr b + b_size b) with (b_addr b + b_limit b + 16 * Z.of_nat (length ns)) by lia.
  apply run_nodes_r_quiet; auto. replace (b_size b - b_limit b) with (Z.of_nat (length ns) * 16) by lia.
  rewrite Z_div_mult by lia. lia.
Qed.

Lemma free_all_r_quiet l f bs nss : Forall2 (binv A f) bs nss -> (forall x, In x (concat nss) -> w (n_elem x) (n_fn x) = []) ->
  forall h acc, 0 <= acc -> acc + total_unused bs < M64 ->
  free_all_r e w bs {| s_arenas := l; s_mem := {| m_nodes := f; m_hist := h |} |} acc =
    Ok ({| s_arenas := l; s_mem := {| m_nodes := f; m_hist := freed bs nss ++ h |} |}, acc + total_unused bs).
Proof.
  induction 1 as [|b ns bs nss HB HF IH]; intros HQ h acc H0 H1; simpl in *.
  - now rewrite Z.add_0_r.
  - rewrite (remain_ok e _ _ _ _ HB). cbn [bind].
    rewrite (run_cleanups_r_quiet l f h b ns HB) by (intros x Hx; apply HQ, in_app_iff; auto). cbn [bind].
    pose proof (total_unused_bound _ _ _ _ HF). unfold unused in *. destruct HB.
    rewrite add64_small by lia. unfold emits, emit; cbn [s_arenas s_mem m_nodes m_hist].
    rewrite IH; [|intros x Hx; apply HQ, in_app_iff; auto|lia|lia].
    rewrite <- app_assoc. simpl. do 2 f_equal. lia.
Qed.

Lemma free_except_r_quiet l f bs nss b ns :
  Forall2 (binv A f) bs nss -> binv A f b ns -> (forall x, In x (concat nss) -> w (n_elem x) (n_fn x) = []) -> forall h acc,
  0 <= acc -> acc + total_unused (bs ++ [b]) < M64 ->
  free_except_head_r e w (bs ++ [b]) {| s_arenas := l; s_mem := {| m_nodes := f; m_hist := h |} |} acc =
    Ok (b, {| s_arenas := l; s_mem := {| m_nodes := f; m_hist := freed bs nss ++ h |} |}, acc + total_unused (bs ++ [b])).
Proof.
  intros HF Hb. induction HF as [|c ns' bs nss HB HF IH]; intros HQ h acc H0 H1; simpl in *.
  - rewrite (remain_ok e _ _ _ _ Hb). cbn [bind]. unfold unused in *. pose proof Hb as [].
    rewrite add64_small by lia. do 2 f_equal. lia.
  - destruct (bs ++ [b]) as [|d rest] eqn:El; [destruct bs; discriminate|].
    rewrite (remain_ok e _ _ _ _ HB). cbn [bind].
    rewrite (run_cleanups_r_quiet l f h c ns' HB) by (intros x Hx; apply HQ, in_app_iff; auto). cbn [bind].
    assert (0 <= total_unused (d :: rest)).
    { rewrite <- El. assert (Forall2 (binv A f) (bs ++ [b]) (nss ++ [ns])) by (apply Forall2_app; auto).
      eapply total_unused_bound; eauto. }
    remember (total_unused (d :: rest)) as T. unfold unused in *. pose proof HB as [].
    rewrite add64_small by lia. unfold emits, emit; cbn [s_arenas s_mem m_nodes m_hist].
    rewrite IH; [|intros x Hx; apply HQ, in_app_iff; auto|lia|lia].
    rewrite <- app_assoc. simpl app. do 2 f_equal. lia.
Qed.

(** Giving back blocks [gone] of arena [i], whatever their cleanups were. *)
Lemma free_part l m i a f gone keep g gone' nsg : Inv A l m -> nth_error l i = Some (Some a) ->
  a_blocks a = f ++ gone ++ keep -> Forall2 (binv A g) gone' nsg -> map bspan gone' = map bspan gone ->
  (exists L, live_blocks (freed gone' nsg ++ m_hist m) = Some L) /\
  held (freed gone' nsg ++ m_hist m) i = map bspan (f ++ keep) /\
  (forall j, j <> i -> held (freed gone' nsg ++ m_hist m) j = held (m_hist m) j).
Proof.
  intros HI Hi Eb HF Eg.
  pose proof (Inv_addr_ne _ _ _ HI) as HD. pose proof HI as [H1 H2 H3 H4 H5 H6]. destruct H1 as (L & E & P).
  destruct (all_blocks_split l i a Hi) as (X & Y & EX & EU & EO).
  rewrite EX, Eb in P, HD.
  assert (PX : Permutation (map bspan (X ++ (f ++ gone ++ keep) ++ Y)) (map bspan gone' ++ map bspan (X ++ (f ++ keep) ++ Y))).
  { rewrite Eg, !map_app, <- !app_assoc. rewrite (app_assoc (map bspan X) (map bspan f)).
    rewrite (app_assoc (map bspan X) (map bspan f) (map bspan keep ++ map bspan Y)).
    apply Permutation_app_swap_app. }
  assert (HD' : pairwise addr_ne (map bspan gone' ++ map bspan (X ++ (f ++ keep) ++ Y))).
  { eapply pairwise_perm; [apply addr_ne_sym|exact PX|auto]. }
  unfold live_blocks_list in H2. rewrite E in H2.
  destruct (freed_facts A g gone' nsg HF (m_hist m) (map bspan (X ++ (f ++ keep) ++ Y)) L E)
    as ((L' & F1 & F2 & F3) & F4 & F5 & F6); auto.
  { rewrite P. exact PX. }
  apply pairwise_app in HD' as (HD1 & HD2 & HD3).
  assert (NG : forall b, In b (X ++ (f ++ keep) ++ Y) -> forallb (fun c => negb (b_addr b =? b_addr c)) gone' = true).
  { intros b Hb. apply forallb_forall. intros c Hc. destruct (Z.eqb_spec (b_addr b) (b_addr c)) as [Eq|]; auto.
    exfalso. apply (HD3 (bspan c) (bspan b)); [now apply in_map|now apply in_map|]. simpl. auto. }
  split; [eauto|]. split.
  - rewrite F6. destruct (H3 i a Hi) as (nss & [_ _ _ _ P5]). rewrite P5, Eb, !map_app, !filter_app, <- Eg.
    rewrite (filter_nil _ (map bspan gone')), !filter_id; auto.
    + intros x Hx. apply in_map_iff in Hx as (b & <- & Hb). simpl. apply NG. rewrite !in_app_iff; auto.
    + intros x Hx. apply in_map_iff in Hx as (b & <- & Hb). simpl. apply NG. rewrite !in_app_iff; auto.
    + intros x Hx. apply in_map_iff in Hx as (b & <- & Hb). simpl.
      destruct (forallb _ gone') eqn:Ef; auto. rewrite forallb_forall in Ef. specialize (Ef b Hb).
      now rewrite Z.eqb_refl in Ef.
  - intros j NE. rewrite F6. apply filter_id. intros x Hx.
    destruct (nth_error l j) as [[c|]|] eqn:Ej.
    + destruct (H3 j c Ej) as (nss & [_ _ _ _ P5]). rewrite P5 in Hx. apply in_map_iff in Hx as (b & <- & Hb).
      simpl. apply NG. pose proof (EO j c b NE Ej Hb) as Ho. rewrite !in_app_iff in *. tauto.
    + destruct (H4 j) as [_ E0]; [congruence|]. rewrite E0 in Hx. destruct Hx.
    + destruct (H4 j) as [_ E0]; [congruence|]. rewrite E0 in Hx. destruct Hx.
Qed.

Lemma newest_quiet s i a b rest ns nss : nth_error (s_arenas s) i = Some (Some a) -> a_blocks a = b :: rest ->
  ainv A (s_mem s) i a (ns :: nss) -> newest_only w (m_hist (s_mem s)) i b ->
  forall x, In x (concat nss) -> w (n_elem x) (n_fn x) = [].
Proof.
  intros Hi Eb HAi HN x Hx. pose proof HAi as [_ F P _ _]. rewrite Eb in F. inv F.
  apply (HN (map node_pair ns) (map node_pair (concat nss))).
  - rewrite P. simpl. apply map_app.
  - rewrite map_length. destruct H2. lia.
  - change (n_elem x, n_fn x) with (node_pair x). now apply in_map.
Qed.

Lemma rest_binv s s1 evs i a b rest nss : inner s s1 evs -> nth_error (s_arenas s) i = Some (Some a) -> a_blocks a = b :: rest ->
  Forall2 (binv A (m_nodes (s_mem s))) rest nss -> Forall2 (binv A (m_nodes (s_mem s1))) rest nss.
Proof.
  intros N Hi Eb HF. pose proof (in_fz _ _ _ N) as [_ HFr].
  assert (Hin : forall c, In c rest -> In c (all_blocks (s_arenas s))).
  { intros c Hc. eapply in_all_blocks; [exact Hi|]. rewrite Eb. simpl; auto. }
  clear - HF HFr Hin. induction HF; constructor.
  - eapply binv_ext; [|eassumption]. intros q Q1 Q2. apply (HFr x); auto. apply Hin; simpl; auto.
  - apply IHHF. intros; apply Hin; simpl; auto.
Qed.

Lemma inner_chain s s1 evs i a b rest : inv s -> inner s s1 evs -> nth_error (s_arenas s) i = Some (Some a) -> a_blocks a = b :: rest ->
  exists a1 f b1, nth_error (s_arenas s1) i = Some (Some a1) /\ a_blocks a1 = f ++ b1 :: rest /\ bspan b1 = bspan b /\ map bspan f = got i evs /\ held (m_hist (s_mem s1)) i = got i evs ++ map bspan (b :: rest).
Proof.
  intros HI N Hi Eb. pose proof (in_fz _ _ _ N) as [HL _]. destruct (HL i a Hi) as (a1 & Hi1 & C).
  rewrite Eb in C. destruct C as (f & b1 & E1 & B1 & B2 & _). exists a1, f, b1. split; auto. split; auto.
  assert (EB : bspan b1 = bspan b) by (unfold bspan; congruence). split; auto.
  destruct (I_arena _ _ _ HI i a Hi) as (nss & [_ _ _ _ P5]).
  destruct (I_arena _ _ _ (in_inv _ _ _ N) i a1 Hi1) as (nss1 & [_ _ _ _ P51]).
  pose proof (inner_held evs (m_hist (s_mem s)) i (in_evs _ _ _ N)) as HH.
  rewrite <- (in_hist _ _ _ N), P5, Eb in HH. split; auto.
  rewrite P51, E1, map_app in HH. simpl in HH. rewrite EB in HH. now apply app_inv_tail in HH.
Qed.

(** The other arenas: each living one has its old blocks and those it obtained. *)
Lemma inner_others s s1 evs : inv s -> inner s s1 evs ->
  forall j aj, nth_error (s_arenas s) j = Some (Some aj) -> exists aj1, nth_error (s_arenas s1) j = Some (Some aj1) /\
    map bspan (a_blocks aj1) = got j evs ++ map bspan (a_blocks aj) /\
    SpaceAllocated aj1 = sizes (map bspan (a_blocks aj1)) /\
    held (m_hist (s_mem s1)) j = map bspan (a_blocks aj1).
Proof.
  intros HI N j aj Hj. pose proof (in_fz _ _ _ N) as [HL _]. destruct (HL j aj Hj) as (a1 & Hj1 & _). exists a1. split; auto.
  destruct (I_arena _ _ _ HI j aj Hj) as (nss & [_ _ _ _ P5]).
  destruct (I_arena _ _ _ (in_inv _ _ _ N) j a1 Hj1) as (nss1 & [_ _ _ P4 P51]).
  pose proof (inner_held evs (m_hist (s_mem s)) j (in_evs _ _ _ N)) as HH.
  rewrite <- (in_hist _ _ _ N), P5, P51 in HH. split; auto. split; auto.
  unfold SpaceAllocated. rewrite P4. clear. induction (a_blocks a1) as [|b l IH]; auto. simpl. rewrite IH. reflexivity.
Qed.

Definition empty_block (b : block) : block :=
  {| b_addr := b_addr b; b_pos := 32; b_size := b_size b; b_limit := b_size b |}.
Lemma empty_binv f b ns : binv A f b ns -> binv A f (empty_block b) [].
Proof.
  intros [B1 B2 B3 B4 B5 B6 B7 B8 B9]. constructor; simpl; auto; try lia.
  - replace (b_size b) with (b_limit b + Z.of_nat (length ns) * 2 * 8) by lia.
    rewrite Z_mod_plus_full. exact B7.
  - intros [|k] x Hk; discriminate.
Qed.

Lemma destroy_r_ok s i a b rest : inv s -> script_ok A w s -> nth_error (s_arenas s) i = Some (Some a) ->
  a_blocks a = b :: rest -> newest_only w (m_hist (s_mem s)) i b ->
  exists s' evs, destroy_r e w i s = Ok (s', 0) /\ m_hist (s_mem s') = evs ++ m_hist (s_mem s) /\ cleanups_run evs = pending (m_hist (s_mem s)) i /\ held (m_hist (s_mem s')) i = got i evs /\ (exists L, live_blocks (m_hist (s_mem s')) = Some L) /\ others_follow i s s' evs.
Proof.
  intros HI HS Hi Eb HN.
  destruct (I_arena _ _ _ HI i a Hi) as (nss0 & HAi). pose proof HAi as [O1 O2 O3 O4 O5].
  rewrite Eb in O2. inversion O2 as [|? ns ? nss HB HR]; subst.
  pose proof (newest_quiet s i a b rest ns nss Hi Eb HAi HN) as HQ.
  pose proof (Inv_space_bound _ _ _ _ _ HI Hi) as SB. rewrite O4, Eb in SB. simpl in SB.
  pose proof (total_unused_bound _ _ _ _ HR) as TU. pose proof HB as [B1 B2 B3 B4 B5 B6 B7 B8 B9].
  destruct (run_cleanups_r_ok s i a b ns HI HS Hi) as (s1 & evs & E1 & N1 & C1); auto.
  { rewrite Eb. simpl; auto. }
  destruct (inner_chain s s1 evs i a b rest HI N1 Hi Eb) as (a1 & f & b1 & Hi1 & Eb1 & EB & EG & EH).
  pose proof (rest_binv s s1 evs i a b rest nss N1 Hi Eb HR) as HR1.
  unfold destroy_r. rewrite (get_arena_ok s i a Hi). cbn [bind]. rewrite Eb. cbn [free_all_r].
  rewrite (remain_ok e _ _ _ _ HB). cbn [bind]. rewrite E1. cbn [bind].
  destruct s1 as [l1 [f1 h1]]. cbn [s_mem m_nodes m_hist s_arenas] in *.
  unfold emits, emit; cbn [s_mem m_nodes m_hist s_arenas].
  rewrite add64_small by (unfold M64; lia). simpl (0 + (b_limit b - b_pos b)).
  rewrite (free_all_r_quiet l1 f1 rest nss HR1 HQ) by (unfold M64; lia). cbn [bind].
  unfold get_arena. cbn [s_arenas]. rewrite Hi1. cbn [bind s_mem m_hist m_nodes].
  set (hk := if o_on_destroy (a_opts a1) then [HDestroy i (a_cookie a1) (a_space a1) (b_limit b - b_pos b + total_unused rest)] else []).
  pose proof (in_hist _ _ _ N1) as EHist. cbn [s_mem m_hist] in EHist.
  eexists _, (CDestroy i :: hk ++ freed rest nss ++ EBlockFree (b_addr b) :: evs).
  split; [reflexivity|]. cbn [s_mem].
  assert (EM : (m_hist (if o_on_destroy (a_opts a1)
      then {| m_nodes := f1; m_hist := HDestroy i (a_cookie a1) (a_space a1) (b_limit b - b_pos b + total_unused rest)
                 :: freed rest nss ++ EBlockFree (b_addr b) :: h1 |}
      else {| m_nodes := f1; m_hist := freed rest nss ++ EBlockFree (b_addr b) :: h1 |})) = hk ++ freed rest nss ++ EBlockFree (b_addr b) :: h1)
    by (unfold hk; destruct (o_on_destroy (a_opts a1)); reflexivity).
  assert (EF : freed rest nss ++ EBlockFree (b_addr b) :: h1 = freed (empty_block b :: rest) ([] :: nss) ++ h1).
  { simpl. rewrite <- app_assoc. reflexivity. }
  assert (HR0 : Forall2 (binv A f1) (empty_block b :: rest) ([] :: nss)).
  { constructor; [|exact HR1].
    destruct (I_arena _ _ _ (in_inv _ _ _ N1) i a1 Hi1) as (nss1 & HA1).
    destruct (binv_of _ _ _ _ _ b1 HA1) as (ns1 & HB1); [rewrite Eb1, in_app_iff; simpl; auto|].
    apply empty_binv in HB1. unfold bspan in EB. injection EB as EB1 EB2. unfold empty_block in *. rewrite EB1, EB2 in HB1. exact HB1. }
  destruct (free_part l1 {| m_nodes := f1; m_hist := h1 |} i a1 f (b1 :: rest) [] f1 (empty_block b :: rest) ([] :: nss)
              (in_inv _ _ _ N1) Hi1) as ((L & FL) & FH & FO); auto.
  { now rewrite app_nil_r. }
  { simpl. f_equal. unfold bspan in *. simpl. congruence. }
  cbn [m_hist] in FL, FH, FO. rewrite <- EF in FL, FH.
  match goal with |- context [m_hist ?X] => match X with {| m_nodes := ?p; m_hist := CDestroy i :: ?q |} => change (m_hist X) with (CDestroy i :: q) end end.
  rewrite EM. split; [|split; [|split; [|split]]].
  - rewrite EHist. simpl. rewrite <- !app_assoc. reflexivity.
  - simpl. rewrite !cleanups_run_app. simpl. rewrite C1, (cleanups_run_freed _ _ _ _ HR1), O3. simpl. rewrite map_app.
    unfold hk. destruct (o_on_destroy (a_opts a1)); simpl; now rewrite app_nil_r.
  - simpl. replace (held (hk ++ freed rest nss ++ EBlockFree (b_addr b) :: h1) i) with
      (held (freed rest nss ++ EBlockFree (b_addr b) :: h1) i) by (unfold hk; destruct (o_on_destroy (a_opts a1)); reflexivity).
    rewrite FH, app_nil_r, EG. rewrite !got_app, got_freed. simpl. unfold hk. destruct (o_on_destroy (a_opts a1)); reflexivity.
  - exists L. simpl. replace (live_blocks (hk ++ freed rest nss ++ EBlockFree (b_addr b) :: h1)) with
      (live_blocks (freed rest nss ++ EBlockFree (b_addr b) :: h1)).
    + rewrite FL. reflexivity.
    + unfold hk; destruct (o_on_destroy (a_opts a1)); simpl; auto. rewrite FL. reflexivity.
  - intros j aj NE Hj. destruct (inner_others _ _ _ HI N1 j aj Hj) as (aj1 & J1 & J2 & J3 & J4).
    exists aj1. cbn [s_arenas s_mem m_hist] in *. split; [rewrite nth_error_upd_ne by auto; exact J1|].
    assert (GJ : got j (CDestroy i :: hk ++ freed rest nss ++ EBlockFree (b_addr b) :: evs) = got j evs).
    { simpl. rewrite !got_app, got_freed. simpl. unfold hk. destruct (o_on_destroy (a_opts a1)); reflexivity. }
    rewrite GJ. cbv zeta. fold bspan. split; [exact J2|]. rewrite <- J2. split; [exact J3|].
    rewrite <- J4, <- (FO j NE), <- EF. simpl.
    unfold hk. destruct (o_on_destroy (a_opts a1)); reflexivity.
Qed.

Lemma total_size_sizes l : total_size l = sizes (map bspan l).
Proof. induction l as [|b l IH]; auto. simpl. rewrite IH. reflexivity. Qed.

Lemma reset_oldest_snoc f b : reset_oldest (f ++ [b]) = f ++ [empty_block b].
Proof.
  induction f as [|c f IH]; auto. simpl. rewrite IH. destruct (f ++ [b]) eqn:E; [destruct f; discriminate|reflexivity].
Qed.
Lemma empty_span b : bspan (empty_block b) = bspan b.
Proof. reflexivity. Qed.

(** An arena with one block. *)
Lemma Reset_r_one s i a b : inv s -> script_ok A w s -> nth_error (s_arenas s) i = Some (Some a) ->
  a_blocks a = [b] ->
  exists s' r a' evs, Reset_r e w i s = Ok (s', r) /\ m_hist (s_mem s') = evs ++ m_hist (s_mem s) /\
    cleanups_run evs = pending (m_hist (s_mem s)) i /\
    nth_error (s_arenas s') i = Some (Some a') /\
    map bspan (a_blocks a') = got i evs ++ [bspan b] /\
    SpaceAllocated a' = sizes (got i evs ++ [bspan b]) /\
    held (m_hist (s_mem s')) i = got i evs ++ [bspan b] /\
    (exists L, live_blocks (m_hist (s_mem s')) = Some L) /\ others_follow i s s' evs.
Proof.
  intros HI HS Hi Eb.
  destruct (I_arena _ _ _ HI i a Hi) as (nss0 & HAi). pose proof HAi as [O1 O2 O3 O4 O5].
  rewrite Eb in O2. inversion O2 as [|? ns ? nss HB HR]; subst. inversion HR; subst. clear HR O2.
  simpl in O3. rewrite app_nil_r in O3. rewrite Eb in O4. simpl in O4. rewrite Z.add_0_r in O4.
  pose proof HB as [B1 B2 B3 B4 B5 B6 B7 B8 B9].
  unfold Reset_r. rewrite (get_arena_ok s i a Hi). cbn [bind]. rewrite Eb. cbn [free_except_head_r].
  rewrite (remain_ok e _ _ _ _ HB). cbn [bind]. rewrite (get_arena_ok s i a Hi). cbn [bind].
  rewrite add64_small by (unfold M64; lia). simpl (0 + (b_limit b - b_pos b)).
  set (ev := HReset i (a_cookie a) (a_space a) (b_limit b - b_pos b)).
  set (m2 := if o_on_reset (a_opts a) then emit (s_mem s) ev else s_mem s).
  set (hk := if o_on_reset (a_opts a) then [ev] else []).
  assert (EA : {| a_opts := a_opts a; a_blocks := [b]; a_resource := a_resource a; a_cookie := a_cookie a; a_space := b_size b |} = a).
  { rewrite <- Eb, <- O4. destruct a; reflexivity. }
  rewrite EA. unfold put. rewrite upd_same by auto.
  set (s2 := {| s_arenas := s_arenas s; s_mem := m2 |}).
  assert (HI2 : inv s2).
  { unfold inv, s2, m2. cbn [s_arenas s_mem]. destruct (o_on_reset (a_opts a)); [apply Inv_quiet; [exact I|]|]; exact HI. }
  assert (EN2 : m_nodes (s_mem s2) = m_nodes (s_mem s)) by (unfold s2, m2; simpl; destruct (o_on_reset (a_opts a)); reflexivity).
  assert (EH2 : m_hist (s_mem s2) = hk ++ m_hist (s_mem s)) by (unfold s2, m2, hk; simpl; destruct (o_on_reset (a_opts a)); reflexivity).
  destruct (run_cleanups_r_ok s2 i a b ns HI2) as (s3 & evs & E3 & N3 & C3); auto.
  { rewrite Eb. simpl; auto. }
  { rewrite EN2. exact HB. }
  destruct (inner_chain s2 s3 evs i a b [] HI2 N3 Hi Eb) as (a3 & f & b1 & Hi3 & Eb3 & EB & EG & EH).
  rewrite E3. cbn [bind]. rewrite (get_arena_ok s3 i a3 Hi3). cbn [bind].
  destruct (I_arena _ _ _ (in_inv _ _ _ N3) i a3 Hi3) as (nss3 & [Q1 Q2 Q3 Q4 Q5]).
  pose proof (in_hist _ _ _ N3) as EHist. rewrite EH2 in EHist.
  destruct (I_live _ _ _ (in_inv _ _ _ N3)) as (L & EL & _).
  eexists _, (a_space a), (set_blocks a3 (f ++ [empty_block b1])), (CReset i :: evs ++ hk).
  split; [unfold put; rewrite Eb3, reset_oldest_snoc; reflexivity|].
  assert (GK : forall x, got i (x ++ hk) = got i x) by (intros x; rewrite got_app; unfold hk; destruct (o_on_reset _); simpl; now rewrite app_nil_r).
  split; [simpl; rewrite EHist, <- app_assoc; reflexivity|].
  split; [simpl; rewrite cleanups_run_app, C3, O3; unfold hk; destruct (o_on_reset _); reflexivity|].
  split; [simpl; eapply nth_error_upd_eq; exact Hi3|].
  split; [cbn [a_blocks set_blocks]; rewrite map_app; simpl; rewrite empty_span, EB, EG, GK; reflexivity|].
  split.
  { unfold SpaceAllocated. cbn [a_space set_blocks]. rewrite Q4, Eb3, total_size_sizes, map_app. simpl. rewrite EG, EB, GK. reflexivity. }
  split; [simpl; rewrite EH, GK; reflexivity|].
  split; [exists L; simpl; rewrite EL; reflexivity|].
  intros j aj NE Hj. destruct (inner_others _ _ _ HI2 N3 j aj Hj) as (aj1 & J1 & J2 & J3 & J4).
  exists aj1. cbn [s_arenas s_mem m_hist] in *. split; [rewrite nth_error_upd_ne by auto; exact J1|].
  assert (GJ : got j (CReset i :: evs ++ hk) = got j evs).
  { simpl. rewrite got_app. unfold hk. destruct (o_on_reset _); simpl; now rewrite app_nil_r. }
  rewrite GJ. cbv zeta. fold bspan. split; [exact J2|]. rewrite <- J2. split; [exact J3|]. exact J4.
Qed.

(** More than one block: the oldest [o] stays. *)
Lemma Reset_r_more s i a b mid o : inv s -> script_ok A w s -> nth_error (s_arenas s) i = Some (Some a) ->
  a_blocks a = b :: mid ++ [o] -> newest_only w (m_hist (s_mem s)) i b ->
  exists s' r a' evs, Reset_r e w i s = Ok (s', r) /\ m_hist (s_mem s') = evs ++ m_hist (s_mem s) /\
    cleanups_run evs = pending (m_hist (s_mem s)) i /\
    nth_error (s_arenas s') i = Some (Some a') /\
    map bspan (a_blocks a') = [bspan o] /\
    SpaceAllocated a' = sizes [bspan o] /\
    held (m_hist (s_mem s')) i = got i evs ++ [bspan o] /\
    (exists L, live_blocks (m_hist (s_mem s')) = Some L) /\ others_follow i s s' evs.
Proof.
  intros HI HS Hi Eb HN.
  destruct (I_arena _ _ _ HI i a Hi) as (nss0 & HAi). pose proof HAi as [O1 O2 O3 O4 O5].
  rewrite Eb in O2. inversion O2 as [|? ns ? nss HB HR]; subst.
  pose proof (newest_quiet s i a b _ ns nss Hi Eb HAi HN) as HQ.
  pose proof (Inv_space_bound _ _ _ _ _ HI Hi) as SB. rewrite O4, Eb in SB. simpl in SB.
  pose proof (total_unused_bound _ _ _ _ HR) as TU. pose proof HB as [B1 B2 B3 B4 B5 B6 B7 B8 B9].
  destruct (run_cleanups_r_ok s i a b ns HI HS Hi) as (s1 & evs & E1 & N1 & C1); auto.
  { rewrite Eb. simpl; auto. }
  destruct (inner_chain s s1 evs i a b _ HI N1 Hi Eb) as (a1 & f & b1 & Hi1 & Eb1 & EB & EG & EH).
  pose proof (rest_binv s s1 evs i a b _ nss N1 Hi Eb HR) as HR1.
  apply Forall2_app_inv in HR1 as (nsm & no & -> & HM & HO).
  assert (HQM : forall x, In x (concat nsm) -> w (n_elem x) (n_fn x) = []).
  { intros x Hx. apply HQ. rewrite concat_app, in_app_iff. auto. }
  assert (HQO : forall x, In x no -> w (n_elem x) (n_fn x) = []).
  { intros x Hx. apply HQ. rewrite concat_app, in_app_iff. right. simpl. rewrite app_nil_r. auto. }
  unfold Reset_r. rewrite (get_arena_ok s i a Hi). cbn [bind]. rewrite Eb.
  assert (E0 : free_except_head_r e w (b :: mid ++ [o]) s 0 =
    do k <- remain e b; do s1 <- run_cleanups_r e w b s;
       free_except_head_r e w (mid ++ [o]) (emits s1 (EBlockFree (b_addr b))) (add64 0 k)).
  { destruct mid; reflexivity. }
  rewrite E0. clear E0. rewrite (remain_ok e _ _ _ _ HB). cbn [bind]. rewrite E1. cbn [bind].
  destruct s1 as [l1 [f1 h1]]. cbn [s_mem m_nodes m_hist s_arenas] in *.
  unfold emits, emit; cbn [s_mem m_nodes m_hist s_arenas].
  rewrite add64_small by (unfold M64; lia). simpl (0 + (b_limit b - b_pos b)).
  rewrite (free_except_r_quiet l1 f1 mid nsm o no HM HO HQM) by (unfold M64; lia). cbn [bind].
  unfold get_arena at 1. cbn [s_arenas]. rewrite Hi1. cbn [bind s_mem m_hist m_nodes].
  set (ev := HReset i (a_cookie a1) (a_space a1) (b_limit b - b_pos b + total_unused (mid ++ [o]))).
  set (hk := if o_on_reset (a_opts a1) then [ev] else []).
  set (hf := freed mid nsm ++ EBlockFree (b_addr b) :: h1).
  pose proof (in_hist _ _ _ N1) as EHist. cbn [s_mem m_hist] in EHist.
  match goal with |- context [if o_on_reset (a_opts a1) then ?X else ?Y] => set (m2 := if o_on_reset (a_opts a1) then X else Y) end.
  assert (EM : m2 = {| m_nodes := f1; m_hist := hk ++ hf |}) by (unfold m2, hk; destruct (o_on_reset (a_opts a1)); reflexivity).
  rewrite EM. clear EM m2. unfold put. cbn [s_arenas s_mem].
  rewrite (run_cleanups_r_quiet _ f1 (hk ++ hf) o no HO HQO). cbn [bind s_arenas s_mem].
  unfold get_arena. cbn [s_arenas]. rewrite (nth_error_upd_eq _ _ _ _ Hi1). cbn [bind a_blocks reset_oldest].
  rewrite upd_upd. cbn [s_arenas s_mem m_hist m_nodes].
  assert (EF : hf = freed (empty_block b :: mid) ([] :: nsm) ++ h1).
  { unfold hf. simpl. rewrite <- app_assoc. reflexivity. }
  assert (HR0 : Forall2 (binv A f1) (empty_block b :: mid) ([] :: nsm)).
  { constructor; [|exact HM].
    destruct (I_arena _ _ _ (in_inv _ _ _ N1) i a1 Hi1) as (nss1 & HA1).
    destruct (binv_of _ _ _ _ _ b1 HA1) as (ns1 & HB1); [rewrite Eb1, in_app_iff; simpl; auto|].
    apply empty_binv in HB1. unfold bspan in EB. injection EB as EB1 EB2. unfold empty_block in *. rewrite EB1, EB2 in HB1. exact HB1. }
  destruct (free_part l1 {| m_nodes := f1; m_hist := h1 |} i a1 f (b1 :: mid) [o] f1 (empty_block b :: mid) ([] :: nsm)
              (in_inv _ _ _ N1) Hi1) as ((L & FL) & FH & FO); auto.
  { simpl. f_equal. unfold bspan in *. simpl. congruence. }
  cbn [m_hist] in FL, FH, FO. rewrite <- EF in FL, FH.
  destruct (run_events_quiet no (hk ++ hf)) as (V1 & V2 & V3 & V4).
  assert (K1 : live_blocks (hk ++ hf) = live_blocks hf) by (unfold hk; destruct (o_on_reset _); simpl; [rewrite FL|]; reflexivity).
  assert (K2 : held (hk ++ hf) i = held hf i) by (unfold hk; destruct (o_on_reset _); reflexivity).
  assert (K3 : cleanups_run hk = []) by (unfold hk; destruct (o_on_reset _); reflexivity).
  assert (K4 : got i hk = []) by (unfold hk; destruct (o_on_reset _); reflexivity).
  eexists _, _, _, (CReset i :: rev (map node_event no) ++ hk ++ freed mid nsm ++ EBlockFree (b_addr b) :: evs).
  split; [reflexivity|]. cbn [s_mem s_arenas].
  split; [simpl; unfold hf; rewrite EHist; rewrite <- !app_assoc; reflexivity|].
  split.
  { simpl. rewrite !cleanups_run_app. simpl. rewrite C1, K3, cleanups_run_nodes, (cleanups_run_freed _ _ _ _ HM), O3.
    simpl. rewrite concat_app. simpl. rewrite !app_nil_r, !map_app, <- !app_assoc. reflexivity. }
  split; [eapply nth_error_upd_eq; exact Hi1|].
  split; [reflexivity|]. split; [unfold SpaceAllocated; simpl; lia|].
  split.
  { simpl. rewrite V4, K2, FH, map_app, EG. rewrite !got_app, got_nodes, K4, got_freed. reflexivity. }
  split; [exists L; simpl; rewrite V1, K1, FL; reflexivity|].
  intros j aj NE Hj. destruct (inner_others _ _ _ HI N1 j aj Hj) as (aj1 & J1 & J2 & J3 & J4).
  exists aj1. cbn [s_arenas s_mem m_hist] in *. split; [rewrite nth_error_upd_ne by auto; exact J1|].
  assert (GJ : got j (CReset i :: rev (map node_event no) ++ hk ++ freed mid nsm ++ EBlockFree (b_addr b) :: evs) = got j evs).
  { simpl. rewrite !got_app, got_nodes, got_freed. simpl. unfold hk. destruct (o_on_reset _); reflexivity. }
  rewrite GJ. cbv zeta. fold bspan. split; [exact J2|]. rewrite <- J2. split; [exact J3|].
  rewrite <- J4, <- (FO j NE), <- EF. simpl. rewrite V4.
  unfold hk. destruct (o_on_reset _); reflexivity.
Qed.
End S.
