Require Import ZArith List Bool Lia Permutation.
From Verif Require Import Base BaseProofs AlignModel BasicSpec BasicProofs ArenaSpec ArenaModel ArenaStatements ArenaProofs ArenaProofs2.
Import ListNotations.
Open Scope Z_scope.

(** * Running cleanups and freeing blocks *)
Definition node_event (x : node) : event := ECleanup (n_elem x) (n_fn x).

Lemma run_nodes_ok m ns : forall base fuel,
  nodes_at (m_nodes m) base ns -> (length ns < fuel)%nat ->
  run_nodes fuel base (base + 16 * Z.of_nat (length ns)) m =
    Ok {| m_nodes := m_nodes m; m_hist := rev (map node_event ns) ++ m_hist m |}.
Proof.
  destruct m as [f h]. revert h. simpl. induction ns as [|x ns IH]; intros h base [|fuel] N L; simpl in *; try lia.
  - replace (base + 0) with base by lia. now rewrite Z.leb_refl.
  - destruct (Z.leb_spec (base + Z.pos (match Pos.of_succ_nat (length ns) with p => p~0~0~0~0 end)) base); [lia|].
    pose proof (N O x eq_refl) as E0. simpl in E0. rewrite Z.add_0_r in E0. rewrite E0.
    unfold emit; simpl.
    replace (base + Z.pos _) with (base + 16 + 16 * Z.of_nat (length ns)) by lia.
    rewrite kC16. rewrite (IH (node_event x :: h)); [| |lia].
    + now rewrite <- app_assoc.
    + intros k y Hk. rewrite <- (N (S k) y Hk). f_equal. lia.
Qed.

Lemma run_cleanups_ok A m b ns : binv A (m_nodes m) b ns ->
  run_cleanups b m = Ok {| m_nodes := m_nodes m; m_hist := rev (map node_event ns) ++ m_hist m |}.
Proof.
  intros [B1 B2 B3 B4 B5 B6 B7 B8 B9]. unfold run_cleanups.
  rewrite !add64_small by (unfold M64; lia). rewrite kC16.
  replace (b_addr b + b_size b) with (b_addr b + b_limit b + 16 * Z.of_nat (length ns)) by lia.
  apply run_nodes_ok; auto. replace (b_size b - b_limit b) with (Z.of_nat (length ns) * 16) by lia.
  rewrite Z_div_mult by lia. lia.
Qed.

Lemma remain_ok e A f b ns : binv A f b ns -> remain e b = Ok (b_limit b - b_pos b).
Proof.
  intros [B1 B2 B3 B4 B5 B6 B7 B8 B9]. unfold remain, check_assert.
  rewrite (proj2 (Z.leb_le _ _)) by lia. simpl negb. rewrite andb_false_r. cbn [bind].
  rewrite sub64_small by (unfold M64; lia). reflexivity.
Qed.

(** Events of freeing a chain. *)
Fixpoint freed (l : list block) (nss : list (list node)) : history :=
  match l, nss with
  | b :: r, ns :: ss => freed r ss ++ EBlockFree (b_addr b) :: rev (map node_event ns)
  | _, _ => []
  end.

Lemma freed_events l nss ev : In ev (freed l nss) ->
  (exists x y, ev = ECleanup x y) \/ (exists c, In c l /\ ev = EBlockFree (b_addr c)).
Proof.
  revert nss. induction l as [|b l IH]; intros [|ns nss]; simpl; try easy.
  rewrite in_app_iff. simpl. intros [Hev|[<-|Hev]].
  - destruct (IH _ Hev) as [?|(c & ? & ->)]; auto. right. exists c. auto.
  - right. exists b. auto.
  - apply in_rev in Hev. apply in_map_iff in Hev as (z & <- & _). left. eexists _, _. reflexivity.
Qed.


Lemma freed_frees A f l nss x : Forall2 (binv A f) l nss -> (In (EBlockFree x) (freed l nss) <-> exists c, b_addr c = x /\ In c l).
Proof.
  induction 1 as [|b ns l nss HB HF IH]; simpl; [split; [easy|intros (c & _ & [])]|].
  rewrite in_app_iff, IH. simpl. split.
  - intros [(c & ? & ?)|[E|Hev]]; [exists c; auto|inv E; exists b; auto|].
    apply in_rev in Hev. apply in_map_iff in Hev as (z & ? & _). discriminate.
  - intros (c & E & [->|Hc]); [right; left; congruence|left; exists c; auto].
Qed.

Lemma reports_app' h1 h2 : reports (h1 ++ h2) = reports h2 ++ reports h1.
Proof. unfold reports. now rewrite rev_app_distr, filter_app. Qed.
Lemma reports_nodes ns : reports (rev (map node_event ns)) = [].
Proof. unfold reports. rewrite rev_involutive. induction ns; auto. Qed.
Lemma reports_freed l nss : reports (freed l nss) = [].
Proof.
  revert nss. induction l; intros [|ns nss]; simpl; auto. rewrite reports_app', IHl, app_nil_r.
  change (EBlockFree (b_addr a) :: ?x) with ([EBlockFree (b_addr a)] ++ x). rewrite reports_app', reports_nodes. reflexivity.
Qed.

Lemma total_unused_bound A f l nss : Forall2 (binv A f) l nss -> 0 <= total_unused l <= total_size l.
Proof.
  induction 1; simpl; [lia|]. destruct H. unfold unused. lia.
Qed.

Lemma free_all_blocks_ok e A f l nss : Forall2 (binv A f) l nss -> forall h acc,
  0 <= acc -> acc + total_unused l < M64 ->
  free_all_blocks e l {| m_nodes := f; m_hist := h |} acc =
    Ok ({| m_nodes := f; m_hist := freed l nss ++ h |}, acc + total_unused l).
Proof.
  induction 1 as [|b ns l nss HB HF IH]; intros h acc H0 H1; simpl in *.
  - now rewrite Z.add_0_r.
  - rewrite (remain_ok e _ _ _ _ HB). cbn [bind].
    rewrite (run_cleanups_ok A {| m_nodes := f; m_hist := h |} b ns HB). cbn [bind]. simpl.
    pose proof (total_unused_bound _ _ _ _ HF). unfold unused in *. destruct HB.
    rewrite add64_small by lia. unfold emit; simpl. rewrite IH by lia.
    rewrite <- app_assoc. simpl. do 2 f_equal. lia.
Qed.

Lemma free_except_ok e A f l nss b ns :
  Forall2 (binv A f) l nss -> binv A f b ns -> forall h acc,
  0 <= acc -> acc + total_unused (l ++ [b]) < M64 ->
  free_blocks_except_head e (l ++ [b]) {| m_nodes := f; m_hist := h |} acc =
    Ok (b, {| m_nodes := f; m_hist := freed l nss ++ h |}, acc + total_unused (l ++ [b])).
Proof.
  intros HF Hb. induction HF as [|c ns' l nss HB HF IH]; intros h acc H0 H1; simpl in *.
  - rewrite (remain_ok e _ _ _ _ Hb). cbn [bind]. unfold unused in *. pose proof Hb as [].
    rewrite add64_small by lia. do 2 f_equal. lia.
  - destruct (l ++ [b]) as [|d rest] eqn:El; [destruct l; discriminate|].
    rewrite (remain_ok e _ _ _ _ HB). cbn [bind].
    rewrite (run_cleanups_ok A {| m_nodes := f; m_hist := h |} c ns' HB). cbn [bind].
    assert (0 <= total_unused (d :: rest)).
    { rewrite <- El. assert (Forall2 (binv A f) (l ++ [b]) (nss ++ [ns])) by (apply Forall2_app; auto).
      eapply total_unused_bound; eauto. }
    remember (total_unused (d :: rest)) as T. unfold unused in *. pose proof HB as [].
    rewrite add64_small by lia. unfold emit; cbn [m_nodes m_hist]. rewrite IH by lia.
    rewrite <- app_assoc. simpl app. do 2 f_equal. lia.
Qed.

(** * What freeing does to the history functions *)
Lemma run_events_quiet ns h :
  live_blocks (rev (map node_event ns) ++ h) = live_blocks h /\
  live_ranges (rev (map node_event ns) ++ h) = live_ranges h /\
  (forall i, pending (rev (map node_event ns) ++ h) i = pending h i) /\
  (forall i, held (rev (map node_event ns) ++ h) i = held h i).
Proof.
  revert h. induction ns as [|x ns IH]; intros h; simpl; auto.
  rewrite <- app_assoc. destruct (IH (node_event x :: h)) as (E1 & E2 & E3 & E4).
  simpl app in *. rewrite E1, E2. simpl. destruct (live_blocks h) eqn:El.
  - repeat split; intros; rewrite ?E3, ?E4; reflexivity.
  - repeat split; intros; rewrite ?E3, ?E4; reflexivity.
Qed.

Lemma remove_block_ok a n L L0 :
  Permutation L ((a, n) :: L0) -> (forall x, In x L0 -> fst x <> a) ->
  exists L', remove_block a L = Some L' /\ Permutation L' L0.
Proof.
  revert L0. induction L as [|[b k] L IH]; intros L0 P H.
  - apply Permutation_nil in P. discriminate.
  - simpl. destruct (Z.eqb_spec b a) as [->|NE].
    + exists L. split; auto.
      assert (In (a, k) ((a, n) :: L0)) by (eapply Permutation_in; [exact P|simpl; auto]).
      destruct H0 as [E|Hin]; [|exfalso; eapply H; eauto; reflexivity].
      inv E. eapply Permutation_cons_inv; eauto.
    + assert (Hin : In (b, k) L0).
      { assert (In (b, k) ((a, n) :: L0)) by (eapply Permutation_in; [exact P|simpl; auto]).
        destruct H0 as [E|]; auto. inv E. congruence. }
      apply in_split in Hin as (l1 & l2 & ->).
      destruct (IH (l1 ++ l2)) as (L' & E & P').
      { apply (Permutation_cons_inv (a := (b, k))). rewrite P.
        change ((a, n) :: l1 ++ (b, k) :: l2) with (((a, n) :: l1) ++ (b, k) :: l2).
        rewrite <- Permutation_middle. reflexivity. }
      { intros x Hx. apply H. rewrite in_app_iff in *. simpl. tauto. }
      rewrite E. simpl. exists ((b, k) :: L'). split; auto. rewrite P'. apply Permutation_middle.
Qed.

Lemma remove_block_pairwise a L L' : remove_block a L = Some L' -> pairwise blk_apart L -> pairwise blk_apart L'.
Proof.
  revert L'. induction L as [|[b k] L IH]; simpl; intros L' E P; [discriminate|].
  apply pairwise_cons in P as [F P]. destruct (b =? a); [inv E; auto|].
  destruct (remove_block a L) as [L1|] eqn:E1; [|discriminate]. inv E.
  apply pairwise_cons. split; auto. clear - E1 F.
  rewrite Forall_forall in *. intros x Hx. apply F. clear F. revert L1 E1 Hx.
  induction L as [|[c n] L IH]; simpl; intros L1 E1 Hx; [discriminate|].
  destruct (c =? a); [inv E1; auto|]. destruct (remove_block a L); [|discriminate]. inv E1.
  destruct Hx as [|Hx]; auto. right. eapply IH; eauto.
Qed.

Definition addr_ne (x y : Z * Z) : Prop := fst x <> fst y.

Lemma freed_facts A f l nss : Forall2 (binv A f) l nss -> forall h rest L,
  live_blocks h = Some L -> Permutation L (map bspan l ++ rest) ->
  pairwise addr_ne (map bspan l ++ rest) -> pairwise blk_apart L ->
  (exists L', live_blocks (freed l nss ++ h) = Some L' /\ Permutation L' rest /\ pairwise blk_apart L') /\
  live_ranges (freed l nss ++ h) = live_ranges h /\
  (forall j, pending (freed l nss ++ h) j = pending h j) /\
  (forall j, held (freed l nss ++ h) j = filter (fun x => forallb (fun b => negb (fst x =? b_addr b)) l) (held h j)).
Proof.
  induction 1 as [|b ns l nss HB HF IH]; intros h rest L E P D Q; simpl in *.
  - split; [exists L; auto|]. split; auto. split; auto.
    intros j. induction (held h j); simpl; auto. now rewrite <- IHl.
  - rewrite <- app_assoc. simpl.
    destruct (run_events_quiet ns h) as (E1 & E2 & E3 & E4).
    apply pairwise_cons in D as [D1 D2]. rewrite Forall_forall in D1.
    destruct (remove_block_ok (b_addr b) (b_size b) L (map bspan l ++ rest) P) as (L1 & R1 & P1).
    { intros x Hx HE. apply (D1 x Hx). simpl. auto. }
    destruct (IH (EBlockFree (b_addr b) :: rev (map node_event ns) ++ h) rest L1) as (X1 & X2 & X3 & X4); auto.
    { simpl. rewrite E1, E. exact R1. }
    { eapply remove_block_pairwise; eauto. }
    split; auto. split; [rewrite X2; simpl; auto|]. split; [intros; rewrite X3; simpl; auto|].
    intros j. rewrite X4. simpl. rewrite E4. clear. induction (held h j) as [|x r IH]; simpl; auto.
    destruct (fst x =? b_addr b); simpl; auto. destruct (forallb _ l); simpl; now rewrite IH.
Qed.

Lemma cleanups_run_app h1 h2 : cleanups_run (h1 ++ h2) = cleanups_run h2 ++ cleanups_run h1.
Proof.
  induction h1 as [|ev h1 IH]; simpl; [now rewrite app_nil_r|].
  destruct ev; auto. now rewrite IH, app_assoc.
Qed.

Lemma cleanups_run_nodes ns : cleanups_run (rev (map node_event ns)) = map node_pair ns.
Proof.
  induction ns as [|x ns IH]; simpl; auto. rewrite cleanups_run_app, IH. reflexivity.
Qed.

Lemma cleanups_run_freed A f l nss : Forall2 (binv A f) l nss ->
  cleanups_run (freed l nss) = map node_pair (concat nss).
Proof.
  induction 1; simpl; auto. rewrite cleanups_run_app. simpl.
  rewrite cleanups_run_nodes, map_app, IHForall2. reflexivity.
Qed.

(** Addresses of held blocks are distinct. *)
Lemma Inv_addr_ne A l m : Inv A l m -> pairwise addr_ne (map bspan (all_blocks l)).
Proof.
  intros HI. pose proof (Inv_blocks_apart _ _ _ HI) as P.
  assert (F : forall b, In b (all_blocks l) -> 32 <= b_size b).
  { intros b Hb. destruct (Inv_binv _ _ _ b HI Hb) as (ns & []). lia. }
  clear HI. induction (all_blocks l) as [|b r IH]; simpl; [constructor|].
  apply pairwise_cons in P as [F1 P]. apply pairwise_cons. split.
  - rewrite Forall_forall in *. intros x Hx. apply in_map_iff in Hx as (c & <- & Hc).
    specialize (F1 c Hc). unfold blk_apart, apart, addr_ne, bspan in *. simpl in *.
    pose proof (F b (or_introl eq_refl)). pose proof (F c (or_intror Hc)). lia.
  - apply IH; auto. intros c Hc. apply F; simpl; auto.
Qed.

Lemma addr_ne_sym x y : addr_ne x y -> addr_ne y x.
Proof. unfold addr_ne; congruence. Qed.

Lemma all_blocks_split l i a : nth_error l i = Some (Some a) ->
  exists X Y, all_blocks l = X ++ a_blocks a ++ Y /\
    (forall o, all_blocks (upd i o l) = X ++ blocks_of o ++ Y) /\
    (forall j c b, j <> i -> nth_error l j = Some (Some c) -> In b (a_blocks c) -> In b (X ++ Y)).
Proof.
  intros Hi. destruct (upd_split l i _ Hi) as (l1 & l2 & El & Eu).
  exists (all_blocks l1), (all_blocks l2). subst l. split; [|split].
  - unfold all_blocks. rewrite flat_map_app. reflexivity.
  - intros o. rewrite Eu. unfold all_blocks. rewrite flat_map_app. reflexivity.
  - intros j c b NE Hj Hb.
    assert (Hj2 : nth_error (l1 ++ None :: l2) j = Some (Some c)).
    { rewrite <- (Eu None). rewrite nth_error_upd_ne by auto. auto. }
    assert (In (Some c) (l1 ++ None :: l2)) by (eapply nth_error_In; eauto).
    rewrite in_app_iff in *. simpl in H. destruct H as [H|[H|H]]; [left|discriminate|right];
      apply in_flat_map; exists (Some c); auto.
Qed.

Lemma Forall2_app_inv {T U} (R : T -> U -> Prop) l1 x nss :
  Forall2 R (l1 ++ [x]) nss -> exists s y, nss = s ++ [y] /\ Forall2 R l1 s /\ R x y.
Proof.
  intros H. apply Forall2_app_inv_l in H as (s & t & H1 & H2 & ->). inv H2. inv H5.
  exists s, y. auto.
Qed.

Lemma list_snoc {T} (l : list T) : l <> [] -> exists r x, l = r ++ [x].
Proof. intros. destruct (exists_last H) as (r & x & ->). eauto. Qed.

Lemma total_size_app l1 l2 : total_size (l1 ++ l2) = total_size l1 + total_size l2.
Proof. induction l1; simpl; auto. rewrite IHl1. lia. Qed.

Lemma filter_id {T} (f : T -> bool) l : (forall x, In x l -> f x = true) -> filter f l = l.
Proof.
  induction l; simpl; auto. intros H. rewrite H by auto. now rewrite IHl by auto.
Qed.
Lemma filter_nil {T} (f : T -> bool) l : (forall x, In x l -> f x = false) -> filter f l = [].
Proof.
  induction l; simpl; auto. intros H. rewrite H by auto. now rewrite IHl by auto.
Qed.

Lemma filter_other_arena i j (l : list (nat * Z * Z)) p n : In (j, p, n) (filter (fun x => negb (fst (fst x) =? i)%nat) l) <-> In (j, p, n) l /\ j <> i.
Proof.
  rewrite filter_In. simpl. destruct (Nat.eqb_spec j i); simpl; intuition congruence.
Qed.

Section Steps.
Variable e : env.
Variable A : Z.
Hypothesis HA : block_alignment A.

(** Removing blocks [gone] of arena i (the rest [keep], possibly emptied). *)
Lemma Inv_shrink l m i a gone keep nsg nsk (a' : option arena) evs1 evs2 :
  Inv A l m -> nth_error l i = Some (Some a) -> a_blocks a = gone ++ keep ->
  Forall2 (binv A (m_nodes m)) gone nsg -> Forall2 (binv A (m_nodes m)) keep nsk ->
  match a' with
  | Some c => good_options (a_opts c) /\ map bspan (a_blocks c) = map bspan keep /\
              a_space c = total_size keep /\ Forall2 (binv A (m_nodes m)) (a_blocks c) (map (fun _ => []) keep)
  | None => keep = []
  end ->
  (forall h, live_blocks (evs1 ++ h) = live_blocks h /\ live_ranges (evs1 ++ h) = live_ranges h /\
     (forall j, pending (evs1 ++ h) j = pending h j) /\ (forall j, held (evs1 ++ h) j = held h j)) ->
  (evs2 = CReset i \/ evs2 = CDestroy i) ->
  let m' := {| m_nodes := m_nodes m; m_hist := evs2 :: evs1 ++ freed gone nsg ++ m_hist m |} in
  Inv A (upd i a' l) m' /\
  (forall j, j <> i -> held (m_hist m') j = held (m_hist m) j) /\
  (forall j, j <> i -> pending (m_hist m') j = pending (m_hist m) j) /\
  held (m_hist m') i = map bspan keep.
Proof.
  intros HI Hi Eb HG HK Ha' Hev H2 m'.
  pose proof (Inv_addr_ne _ _ _ HI) as HD.
  pose proof HI as [H1 H2' H3 H4 H5 H6]. destruct H1 as (L & E & P).
  destruct (all_blocks_split l i a Hi) as (X & Y & EX & EU & EO).
  rewrite EX, Eb in P, HD.
  assert (PX : Permutation (map bspan (X ++ (gone ++ keep) ++ Y)) (map bspan gone ++ map bspan (X ++ keep ++ Y))).
  { rewrite !map_app, <- !app_assoc. apply Permutation_app_swap_app. }
  assert (HD' : pairwise addr_ne (map bspan gone ++ map bspan (X ++ keep ++ Y))).
  { eapply pairwise_perm; [apply addr_ne_sym|exact PX|auto]. }
  unfold live_blocks_list in H2'. rewrite E in H2'.
  destruct (freed_facts A (m_nodes m) gone nsg HG (m_hist m) (map bspan (X ++ keep ++ Y)) L E)
    as ((L' & F1 & F2 & F3) & F4 & F5 & F6); auto.
  { rewrite P. exact PX. }
  destruct (Hev (freed gone nsg ++ m_hist m)) as (V1 & V2 & V3 & V4).
  assert (LB : live_blocks (m_hist m') = Some L').
  { unfold m'. destruct H2 as [->| ->]; simpl; rewrite V1, F1; reflexivity. }
  assert (LR : live_ranges (m_hist m') = filter (fun x => negb (fst (fst x) =? i)%nat) (live_ranges (m_hist m))).
  { unfold m'. destruct H2 as [->| ->]; simpl; rewrite V2, F4; reflexivity. }
  assert (PO : forall j, j <> i -> pending (m_hist m') j = pending (m_hist m) j).
  { intros j NE. unfold m'. destruct H2 as [->| ->]; simpl; (destruct (Nat.eqb_spec i j); [congruence|]);
      rewrite V3, F5; reflexivity. }
  assert (PI : pending (m_hist m') i = []).
  { unfold m'. destruct H2 as [->| ->]; simpl; rewrite Nat.eqb_refl; reflexivity. }
  assert (HH : forall j, held (m_hist m') j = filter (fun x => forallb (fun b => negb (fst x =? b_addr b)) gone) (held (m_hist m) j)).
  { intros j. unfold m'. destruct H2 as [->| ->]; simpl; rewrite V4, F6; reflexivity. }
  apply pairwise_app in HD' as (HD1 & HD2 & HD3).
  assert (NG : forall b, In b (X ++ keep ++ Y) -> forallb (fun c => negb (b_addr b =? b_addr c)) gone = true).
  { intros b Hb. apply forallb_forall. intros c Hc. destruct (Z.eqb_spec (b_addr b) (b_addr c)) as [Eq|]; auto.
    exfalso. apply (HD3 (bspan c) (bspan b)); [now apply in_map|now apply in_map|]. simpl. auto. }
  assert (HI1 : held (m_hist m') i = map bspan keep).
  { rewrite HH. destruct (H3 i a Hi) as (nss & [_ _ _ _ P5]). rewrite P5, Eb, map_app, filter_app.
    rewrite filter_nil, filter_id; auto.
    - intros x Hx. apply in_map_iff in Hx as (b & <- & Hb). simpl. apply NG. rewrite !in_app_iff; auto.
    - intros x Hx. apply in_map_iff in Hx as (b & <- & Hb). simpl.
      destruct (forallb _ gone) eqn:Ef; auto. rewrite forallb_forall in Ef. specialize (Ef b Hb).
      now rewrite Z.eqb_refl in Ef. }
  assert (HO : forall j, j <> i -> held (m_hist m') j = held (m_hist m) j).
  { intros j NE. rewrite HH. destruct (nth_error l j) as [[c|]|] eqn:Ej.
    - destruct (H3 j c Ej) as (nss & [_ _ _ _ P5]). rewrite P5. apply filter_id.
      intros x Hx. apply in_map_iff in Hx as (b & <- & Hb). simpl. apply NG.
      pose proof (EO j c b NE Ej Hb) as HXY. rewrite !in_app_iff in *. tauto.
    - destruct (H4 j) as [_ ->]; [congruence|reflexivity].
    - destruct (H4 j) as [_ ->]; [congruence|reflexivity]. }
  split; [|auto].
  assert (BK : map bspan (blocks_of a') = map bspan keep).
  { destruct a'; [apply Ha'|]. now subst keep. }
  constructor.
  - exists L'. split; auto. rewrite EU, F2, !map_app, BK. reflexivity.
  - unfold live_blocks_list. rewrite LB. auto.
  - intros j c Hj. destruct (Nat.eq_dec j i) as [->|NE].
    + erewrite nth_error_upd_eq in Hj by eauto. inv Hj. destruct Ha' as (G1 & G2 & G3 & G4).
      exists (map (fun _ => []) keep). constructor; auto.
      * rewrite PI. clear. induction keep; simpl; auto.
      * rewrite G3. clear - G2. rewrite !total_size_sum. now rewrite G2.
      * rewrite HI1. auto.
    + rewrite nth_error_upd_ne in Hj by auto. destruct (H3 j c Hj) as (nss & [P1 P2 P3 P4 P5]).
      exists nss. constructor; auto. * now rewrite PO. * now rewrite HO.
  - intros j Hj. destruct (Nat.eq_dec j i) as [->|NE].
    + split; auto. rewrite HI1. destruct a' as [c|]; [|now rewrite Ha'].
      exfalso. eapply Hj. eapply nth_error_upd_eq; eauto.
    + rewrite PO, HO by auto. apply H4. intros c Hc. eapply Hj. rewrite nth_error_upd_ne by auto. eauto.
  - intros j p n Hr. rewrite LR in Hr. apply filter_other_arena in Hr as [Hr NE].
    destruct (H5 j p n Hr) as (? & c & b & Hc & Hb & Hu). split; auto.
    exists c, b. rewrite nth_error_upd_ne by auto. auto.
  - rewrite LR. apply pairwise_filter; auto.
Qed.


Lemma total_unused_space l m i a : Inv A l m -> nth_error l i = Some (Some a) ->
  0 <= total_unused (a_blocks a) <= a_space a /\ a_space a <= 2 ^ 63.
Proof.
  intros HI Hi. destruct (I_arena _ _ _ HI i a Hi) as (nss & HAi).
  pose proof (total_unused_bound _ _ _ _ (ai_blocks _ _ _ _ _ HAi)).
  rewrite <- (ai_space _ _ _ _ _ HAi) in H. pose proof (Inv_space_bound _ _ _ _ _ HI Hi). lia.
Qed.

Lemma destroy_ok l m i a :
  Inv A l m -> nth_error l i = Some (Some a) ->
  exists m' evs, destroy e i a m = Ok m' /\ Inv A (upd i None l) m' /\ m_nodes m' = m_nodes m /\
    m_hist m' = CDestroy i :: hook_part (o_on_destroy (a_opts a)) (HDestroy i (a_cookie a) (a_space a) (total_unused (a_blocks a)))
                 ++ evs ++ m_hist m /\
    cleanups_run evs = pending (m_hist m) i /\
    (forall ev, In ev evs -> (exists x y, ev = ECleanup x y) \/ (exists b, In b (a_blocks a) /\ ev = EBlockFree (b_addr b))) /\
    (forall j, j <> i -> held (m_hist m') j = held (m_hist m) j) /\
    (forall j, j <> i -> pending (m_hist m') j = pending (m_hist m) j) /\
    held (m_hist m') i = [] /\
    (forall x, In (EBlockFree x) evs <-> exists c, b_addr c = x /\ In c (a_blocks a)) /\ reports evs = [].
Proof.
  intros HI Hi. destruct (I_arena _ _ _ HI i a Hi) as (nss & HAi).
  pose proof HAi as [P1 P2 P3 P4 P5]. pose proof (total_unused_space l m i a HI Hi) as [U1 U2].
  unfold destroy. destruct m as [f h]. cbn [m_nodes m_hist] in *.
  rewrite (free_all_blocks_ok e A f _ nss P2 h 0) by (unfold M64; lia). cbn [bind]. simpl Z.add.
  destruct (Inv_shrink l {| m_nodes := f; m_hist := h |} i a (a_blocks a) [] nss [] None
     (hook_part (o_on_destroy (a_opts a)) (HDestroy i (a_cookie a) (a_space a) (total_unused (a_blocks a)))) (CDestroy i))
   as (HI' & HO & PO & HE); auto.
  { now rewrite app_nil_r. }
  { intros h0. unfold hook_part. destruct (o_on_destroy _); simpl; auto. destruct (live_blocks h0); auto. }
  eexists _, (freed (a_blocks a) nss). split; [reflexivity|].
  assert (EM : emit (if o_on_destroy (a_opts a) then
        emit {| m_nodes := f; m_hist := freed (a_blocks a) nss ++ h |} (HDestroy i (a_cookie a) (a_space a) (total_unused (a_blocks a)))
        else {| m_nodes := f; m_hist := freed (a_blocks a) nss ++ h |}) (CDestroy i) =
      {| m_nodes := f; m_hist := CDestroy i :: hook_part (o_on_destroy (a_opts a)) (HDestroy i (a_cookie a) (a_space a) (total_unused (a_blocks a))) ++ freed (a_blocks a) nss ++ h |}).
  { unfold hook_part. destruct (o_on_destroy _); reflexivity. }
  rewrite EM. split; auto. split; auto. split; [reflexivity|].
  split. { rewrite (cleanups_run_freed A f _ _ P2). auto. }
  split. { intros ev Hev. apply (freed_events _ _ _ Hev). }
  split; [auto|]. split; [auto|]. split; [auto|]. split; [|apply reports_freed].
  intros x. apply (freed_frees A f _ _ x P2).
Qed.

Lemma Reset_ok l m i a front b :
  Inv A l m -> nth_error l i = Some (Some a) -> a_blocks a = front ++ [b] ->
  exists a' m' evs, Reset e i a m = Ok (a', m', a_space a) /\ Inv A (upd i (Some a') l) m' /\ m_nodes m' = m_nodes m /\
    (m_hist m' = CReset i :: evs ++ m_hist m /\ cleanups_run evs = pending (m_hist m) i /\
      forall ev, In ev evs -> (exists x y, ev = ECleanup x y) \/ (exists c, In c front /\ ev = EBlockFree (b_addr c)) \/
         (o_on_reset (a_opts a) = true /\ ev = HReset i (a_cookie a) (a_space a) (total_unused (a_blocks a)))) /\
    (o_on_reset (a_opts a) = true -> In (HReset i (a_cookie a) (a_space a) (total_unused (a_blocks a))) evs) /\
    (forall j, j <> i -> held (m_hist m') j = held (m_hist m) j) /\
    (forall j, j <> i -> pending (m_hist m') j = pending (m_hist m) j) /\
    held (m_hist m') i = [bspan b] /\ same_cfg a a' /\
    a_blocks a' = [{| b_addr := b_addr b; b_pos := 32; b_size := b_size b; b_limit := b_size b |}] /\
    a_space a' = b_size b /\
    (forall x, In (EBlockFree x) evs <-> exists c, b_addr c = x /\ In c front) /\
    reports evs = hook_part (o_on_reset (a_opts a)) (HReset i (a_cookie a) (a_space a) (total_unused (a_blocks a))).
Proof.
  intros HI Hi Eb. destruct (I_arena _ _ _ HI i a Hi) as (nss & HAi).
  pose proof HAi as [P1 P2 P3 P4 P5]. pose proof (total_unused_space l m i a HI Hi) as [U1 U2].
  unfold Reset. destruct m as [f h]. cbn [m_nodes m_hist] in *. rewrite Eb in P2, U1 |- *.
  apply Forall2_app_inv in P2 as (nsg & ns & -> & F1 & F2).
  rewrite (free_except_ok e A f front nsg b ns F1 F2 h 0) by (unfold M64; lia). cbn [bind]. simpl Z.add.
  set (w := total_unused (front ++ [b])) in *.
  set (hk := hook_part (o_on_reset (a_opts a)) (HReset i (a_cookie a) (a_space a) w)).
  assert (E2 : (if o_on_reset (a_opts a) then emit {| m_nodes := f; m_hist := freed front nsg ++ h |} (HReset i (a_cookie a) (a_space a) w)
        else {| m_nodes := f; m_hist := freed front nsg ++ h |}) =
       {| m_nodes := f; m_hist := hk ++ freed front nsg ++ h |}).
  { unfold hk, hook_part. destruct (o_on_reset _); reflexivity. }
  cbv zeta. rewrite E2. unfold block_reset.
  rewrite (run_cleanups_ok A _ b ns) by exact F2. cbn [bind m_nodes m_hist].
  set (b' := {| b_addr := b_addr b; b_pos := kBlockHeaderSize; b_size := b_size b; b_limit := b_size b |}).
  set (a' := {| a_opts := a_opts a; a_blocks := [b']; a_resource := a_resource a; a_cookie := a_cookie a; a_space := b_size b |}).
  destruct (Inv_shrink l {| m_nodes := f; m_hist := h |} i a front [b] nsg [ns] (Some a')
     (rev (map node_event ns) ++ hk) (CReset i))
   as (HI' & HO & PO & HE); auto.
  { simpl. split; auto. split; [reflexivity|]. split; [lia|]. constructor; [|constructor].
    pose proof F2 as [B1 B2 B3 B4 B5 B6 B7 B8 B9]. constructor; simpl; auto; try (rewrite kH32; lia); try lia.
    - replace (b_size b) with (b_limit b + 2 * Z.of_nat (length ns) * 8) by lia.
      now rewrite Z_mod_plus_full.
    - intros k x Hk. destruct k; discriminate. }
  { intros h0. rewrite <- app_assoc.
    destruct (run_events_quiet ns (hk ++ h0)) as (V1 & V2 & V3 & V4). rewrite V1, V2.
    unfold hk, hook_part in *. destruct (o_on_reset _); simpl in *.
    - destruct (live_blocks h0); repeat split; intros; rewrite ?V3, ?V4; reflexivity.
    - repeat split; intros; rewrite ?V3, ?V4; reflexivity. }
  eexists a', _, (rev (map node_event ns) ++ hk ++ freed front nsg). split; [reflexivity|].
  unfold emit; cbn [m_nodes m_hist] in *.
  rewrite <- app_assoc in *. split; auto. split; auto. split.
  { split; [now rewrite <- !app_assoc|]. split.
    - rewrite !cleanups_run_app, cleanups_run_nodes, (cleanups_run_freed A f _ _ F1), P3.
      rewrite concat_app, map_app. simpl. rewrite app_nil_r. rewrite <- app_assoc. f_equal.
      unfold hk, hook_part. destruct (o_on_reset _); reflexivity.
    - intros ev. rewrite !in_app_iff. intros [Hev|[Hev|Hev]].
      + apply in_rev in Hev. apply in_map_iff in Hev as (z & <- & _). left. eexists _, _. reflexivity.
      + unfold hk, hook_part in Hev. destruct (o_on_reset _); [|easy]. destruct Hev as [<-|[]].
        right. right. auto.
      + destruct (freed_events _ _ _ Hev) as [?|?]; auto. }
  split. { intros HR. rewrite !in_app_iff. right. left. unfold hk, hook_part. rewrite HR. simpl; auto. }
  split; [auto|]. split; [auto|]. split; [auto|]. split; [repeat split|]. split; [reflexivity|]. split; [reflexivity|].
  split.
  - intros x. rewrite !in_app_iff, (freed_frees A f _ _ x F1).
    split; [|intros (c & ? & ?); right; right; exists c; auto]. intros [Hev|[Hev|(c & ? & ?)]]; [| |exists c; auto].
    + apply in_rev in Hev. apply in_map_iff in Hev as (z & ? & _). discriminate.
    + unfold hk, hook_part in Hev. destruct (o_on_reset _); [|easy]. destruct Hev as [|[]]; discriminate.
  - rewrite !reports_app', reports_nodes, reports_freed. unfold hk, hook_part. destruct (o_on_reset _); reflexivity.
Qed.
End Steps.
