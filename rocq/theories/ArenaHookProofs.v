(** Two runs of the same operations from states that differ in the past only:
    in the history before, in the SpaceAllocated() of one arena. *)
Require Import ZArith List Bool Lia Permutation.
From Verif Require Import Base BaseProofs AlignModel BasicSpec BasicProofs ArenaSpec ArenaModel ArenaStatements
  ArenaProofs ArenaProofs2 ArenaProofs3 ArenaProofs4 ArenaProofs5 ArenaProofs6 ArenaProofs7
  ArenaReentModel ArenaReentSpec ArenaReentProofs ArenaReentProofs2.
Import ListNotations.
Open Scope Z_scope.

Lemma event_dec (x y : event) : {x = y} + {x <> y}.
Proof. decide equality; try apply Z.eq_dec; try apply Nat.eq_dec; decide equality; apply Z.eq_dec. Defined.

Section Sim.
Variable e : env.
Variable i : nat.
Variable D : Z.
Variables h hv : history.
Hypothesis HB : live_blocks h = live_blocks hv.
Hypothesis HH : forall j, held h j = held hv j.

Definition swap (x : history) : history :=
  let n := (length x - length hv)%nat in
  if list_eq_dec event_dec (skipn n x) hv then firstn n x ++ h else x.
Lemma swap_app evs : swap (evs ++ hv) = evs ++ h.
Proof.
  unfold swap. rewrite app_length, Nat.add_sub, skipn_app, skipn_all, Nat.sub_diag. simpl.
  destruct (list_eq_dec event_dec hv hv); [|congruence].
  now rewrite firstn_app, Nat.sub_diag, firstn_all, app_nil_r.
Qed.
Lemma live_blocks_swap evs : live_blocks (evs ++ h) = live_blocks (evs ++ hv).
Proof. induction evs as [|ev evs IH]; simpl; auto. rewrite IH. reflexivity. Qed.
Lemma held_swap evs j : (forall a b, ~ In (CMove a b) evs) -> held (evs ++ h) j = held (evs ++ hv) j.
Proof.
  induction evs as [|ev evs IH]; simpl; auto. intros N.
  assert (IH' : held (evs ++ h) j = held (evs ++ hv) j) by (apply IH; intros a b H; apply (N a b); auto).
  destruct ev; rewrite ?IH'; auto. exfalso. apply (N src dst). auto.
Qed.
Lemma live_blocks_swap_list x : live_blocks_list (swap x) = live_blocks_list x.
Proof.
  unfold swap. destruct (list_eq_dec event_dec _ hv) as [E|]; auto.
  unfold live_blocks_list. rewrite live_blocks_swap. rewrite <- (firstn_skipn (length x - length hv) x) at 3. now rewrite E.
Qed.

Definition ev : env :=
  {| e_debug := e_debug e; e_alloc := fun x n => e_alloc e (swap x) n; e_cookie := e_cookie e |}.
Lemma ev_good A : good_block_alloc A (e_alloc e) -> good_block_alloc A (e_alloc ev).
Proof. intros H x n a Ha. simpl in Ha. apply H in Ha. now rewrite live_blocks_swap_list in Ha. Qed.

Definition mr (m mv : mem) : Prop :=
  m_nodes m = m_nodes mv /\ exists evs, m_hist m = evs ++ h /\ m_hist mv = evs ++ hv /\ (forall a b, ~ In (CMove a b) evs).
Definition ar (k : nat) (a av : arena) : Prop :=
  a_opts a = a_opts av /\ a_blocks a = a_blocks av /\ a_resource a = a_resource av /\ a_cookie a = a_cookie av /\
  (k <> i -> a_space a = a_space av) /\ (k = i -> a_space a = add64 (a_space av) D).

Definition sim {T} (k : nat) (f fv : res (arena * mem * T)) : Prop :=
  forall av' mv' r, fv = Ok (av', mv', r) -> exists a' m', f = Ok (a', m', r) /\ ar k a' av' /\ mr m' mv'.
Definition simm (f fv : res mem) : Prop := forall mv', fv = Ok mv' -> exists m', f = Ok m' /\ mr m' mv'.

Lemma emit_sim m mv x : (forall a b, x <> CMove a b) -> mr m mv -> mr (emit m x) (emit mv x).
Proof.
  intros N (E & evs & E1 & E2 & E3). split; auto. exists (x :: evs). simpl. rewrite E1, E2. split; auto. split; auto.
  intros a b [H|H]; [now apply N in H|now apply E3 in H].
Qed.
Lemma scribble_sim m mv p n : mr m mv -> mr (scribble m p n) (scribble mv p n).
Proof. intros (E & X). split; auto. unfold scribble; simpl. now rewrite E. Qed.
Lemma set_node_sim m mv p x : mr m mv -> mr (set_node m p x) (set_node mv p x).
Proof. intros (E & X). split; auto. unfold set_node; simpl. now rewrite E. Qed.
Lemma touch_sim m mv p n : mr m mv -> simm (touch m p n) (touch mv p n).
Proof.
  intros M mv' H. pose proof M as (E & evs & E1 & E2 & _). unfold touch, accessible in *.
  replace (live_blocks_list (m_hist m)) with (live_blocks_list (m_hist mv)).
  - destruct (_ || _); [|discriminate]. inv H. eexists. split; [reflexivity|]. now apply scribble_sim.
  - unfold live_blocks_list. rewrite E1, E2, live_blocks_swap. reflexivity.
Qed.
Lemma hand_out_sim k m mv p n : mr m mv -> simm (hand_out k m p n) (hand_out k mv p n).
Proof.
  intros M mv' H. unfold hand_out in *. bk H. inv H. destruct (touch_sim _ _ p n M _ H0) as (m' & -> & M').
  eexists. split; [reflexivity|]. apply emit_sim; auto. discriminate.
Qed.
Lemma hook_alloc_sim k a av m mv ty n : ar k a av -> mr m mv -> mr (hook_alloc k a m ty n) (hook_alloc k av mv ty n).
Proof.
  intros (A1 & _ & _ & A4 & _) M. unfold hook_alloc. rewrite A1, A4. destruct (o_on_alloc _); auto.
  apply emit_sim; auto. discriminate.
Qed.
Lemma set_blocks_sim k a av l : ar k a av -> ar k (set_blocks a l) (set_blocks av l).
Proof. intros (A1 & A2 & A3 & A4 & A5 & A6). repeat split; auto. Qed.
Lemma add64_swap x y z : add64 (add64 x y) z = add64 (add64 x z) y.
Proof. unfold add64. rewrite !Z.add_mod_idemp_l by (unfold M64; lia). f_equal. lia. Qed.

Lemma newBlock_sim k a av m mv n : ar k a av -> mr m mv -> sim k (newBlock e k a m n) (newBlock ev k av mv n).
Proof.
  intros HA M av' mv' r H. pose proof HA as (A1 & A2 & A3 & A4 & A5 & A6). unfold newBlock in *.
  set (m0 := if M64 - 1 - kBlockHeaderSize <? n then emit m ELog else m).
  set (mv0 := if M64 - 1 - kBlockHeaderSize <? n then emit mv ELog else mv) in *.
  assert (M0 : mr m0 mv0) by (unfold m0, mv0; destruct (_ <? _); auto; apply emit_sim; auto; discriminate).
  bk H. rewrite A1, A2. rewrite H0. cbn [bind].
  assert (EA : e_alloc ev (m_hist mv0) x = e_alloc e (m_hist m0) x).
  { simpl. destruct M0 as (_ & evs & E1 & E2 & _). rewrite E1, E2, swap_app. reflexivity. }
  rewrite EA in H. destruct (e_alloc e (m_hist m0) x) as [addr|].
  - inv H. eexists _, _. split; [reflexivity|]. split.
    + repeat split; simpl; auto.
      * intros NE. now rewrite A5. * intros E. rewrite A6 by auto. apply add64_swap.
    + rewrite A4. assert (X : mr (scribble (emit m0 (EBlockAlloc k x (Some addr))) addr x) (scribble (emit mv0 (EBlockAlloc k x (Some addr))) addr x)).
      { apply scribble_sim, emit_sim; auto. discriminate. }
      destruct (o_on_newblock _); auto. apply emit_sim; auto. discriminate.
  - inv H. eexists _, _. split; [reflexivity|]. split; auto. apply emit_sim; auto. discriminate.
Qed.

Lemma ensure_sim k a av m mv n al : ar k a av -> mr m mv -> sim k (ensure_block e k a m n al) (ensure_block ev k av mv n al).
Proof.
  intros HA M av' mv' r H. unfold ensure_block in *. bk H.
  assert (E : need_create_new_block e a n al = Ok x).
  { rewrite <- H0. unfold need_create_new_block. destruct HA as (_ & -> & _). reflexivity. }
  rewrite E. cbn [bind]. destruct x.
  - bk H. destruct x as [[a1 m1] ob]. destruct (newBlock_sim k a av m mv n HA M _ _ _ H1) as (a' & m' & -> & HA' & M'). cbn [bind].
    destruct ob as [b|]; inv H; eexists _, _; (split; [reflexivity|]); split; auto.
    destruct HA' as (X1 & X2 & X). rewrite X2. apply set_blocks_sim. repeat split; tauto.
  - inv H. eexists _, _. split; [reflexivity|]. auto.
Qed.

Lemma allocate_sim k a av m mv n al : ar k a av -> mr m mv -> sim k (allocateAligned e k a m n al) (allocateAligned ev k av mv n al).
Proof.
  intros HA M av' mv' r H. unfold allocateAligned in *. bk H. destruct x as [[a1 m1] ok].
  destruct (ensure_sim k a av m mv _ _ HA M _ _ _ H0) as (a' & m' & -> & HA' & M'). cbn [bind]. destruct ok.
  - pose proof HA' as (_ & X2 & _). rewrite X2. destruct (a_blocks a1) as [|b rest]; [discriminate|]. bk H. destruct x as [b' p]. bk H.
    change (block_take e b (align_size n) al) with (block_take ev b (align_size n) al). rewrite H1. cbn [bind].
    change (check_assert e (Z.land p 7 =? 0)) with (check_assert ev (Z.land p 7 =? 0)). rewrite H2. cbn [bind].
    inv H. eexists _, _. split; [reflexivity|]. split; auto. now apply set_blocks_sim.
  - inv H. eexists _, _. split; [reflexivity|]. auto.
Qed.

Lemma addCleanup_sim k a av m mv o f : ar k a av -> mr m mv -> sim k (addCleanup e k a m o f) (addCleanup ev k av mv o f).
Proof.
  intros HA M av' mv' r H. unfold addCleanup in *. bk H. destruct x as [[a1 m1] ok].
  destruct (ensure_sim k a av m mv _ _ HA M _ _ _ H0) as (a' & m' & -> & HA' & M'). cbn [bind]. destruct ok.
  - pose proof HA' as (_ & X2 & _). rewrite X2. destruct (a_blocks a1) as [|b rest]; [discriminate|]. bk H. destruct x as [b' m2].
    unfold register_cleanup in *. bk H1. destruct x as [b2 p].
    change (alloc_cleanup e b) with (alloc_cleanup ev b). rewrite H2. cbn [bind].
    destruct (negb _); [discriminate|]. bk H1. inv H1. destruct (touch_sim _ _ _ _ M' _ H3) as (m3 & -> & M3). cbn [bind].
    inv H. eexists _, _. split; [reflexivity|]. split; [now apply set_blocks_sim|]. now apply set_node_sim.
  - inv H. eexists _, _. split; [reflexivity|]. auto.
Qed.

Lemma AllocateAligned_sim k a av m mv n al : ar k a av -> mr m mv -> sim k (AllocateAligned e k a m n al) (AllocateAligned ev k av mv n al).
Proof.
  intros HA M av' mv' r H. unfold AllocateAligned in *. bk H. destruct x as [[a1 m1] p].
  destruct (allocate_sim k a av m mv _ _ HA M _ _ _ H0) as (a' & m' & -> & HA' & M'). cbn [bind].
  destruct (p =? 0). { inv H. eexists _, _. split; [reflexivity|]. auto. }
  bk H. destruct (hand_out_sim k _ _ p n (hook_alloc_sim _ _ _ _ _ 0 n HA' M') _ H1) as (m3 & -> & M3). cbn [bind].
  inv H. eexists _, _. split; [reflexivity|]. auto.
Qed.
Lemma AllocateCleanup_sim k a av m mv n f el : ar k a av -> mr m mv ->
  sim k (AllocateAlignedAndAddCleanup e k a m n f el) (AllocateAlignedAndAddCleanup ev k av mv n f el).
Proof.
  intros HA M av' mv' r H. unfold AllocateAlignedAndAddCleanup in *. bk H. destruct x as [[a1 m1] p].
  destruct (allocate_sim k a av m mv _ _ HA M _ _ _ H0) as (a' & m' & -> & HA' & M'). cbn [bind].
  destruct (p =? 0). { inv H. eexists _, _. split; [reflexivity|]. auto. }
  bk H. destruct x as [[a2 m2] ok]. destruct (addCleanup_sim k _ _ _ _ _ f HA' M' _ _ _ H1) as (a3 & m3 & -> & HA3 & M3). cbn [bind].
  destruct ok. 2: { inv H. eexists _, _. split; [reflexivity|]. auto. }
  bk H. assert (M4 : mr (emit (hook_alloc k a3 m3 0 n) (CRegister k (if el =? 0 then p else el) f)) (emit (hook_alloc k a2 m2 0 n) (CRegister k (if el =? 0 then p else el) f))).
  { apply emit_sim; [discriminate|]. now apply hook_alloc_sim. }
  destruct (hand_out_sim k _ _ p n M4 _ H2) as (m5 & -> & M5). cbn [bind]. inv H. eexists _, _. split; [reflexivity|]. auto.
Qed.
Lemma CreateArray_sim k a av m mv sz num ty : ar k a av -> mr m mv -> sim k (CreateArray e k a m sz num ty) (CreateArray ev k av mv sz num ty).
Proof.
  intros HA M av' mv' r H. unfold CreateArray in *. destruct (sz =? 0); [discriminate|]. bk H. destruct x as [[a1 m1] p].
  assert (M0 : mr (if (M64 - 1) / sz <? num then emit m ELog else m) (if (M64 - 1) / sz <? num then emit mv ELog else mv)).
  { destruct (_ <? _); auto. apply emit_sim; auto. discriminate. }
  destruct (allocate_sim k a av _ _ _ _ HA M0 _ _ _ H0) as (a' & m' & -> & HA' & M'). cbn [bind].
  destruct (p =? 0). { inv H. eexists _, _. split; [reflexivity|]. auto. }
  bk H. destruct (hand_out_sim k _ _ p (num * sz) M' _ H1) as (m3 & -> & M3). cbn [bind].
  inv H. eexists _, _. split; [reflexivity|]. split; auto. now apply hook_alloc_sim.
Qed.
Lemma Own_sim k a av m mv o f : ar k a av -> mr m mv -> sim k (Own e k a m o f) (Own ev k av mv o f).
Proof.
  intros HA M av' mv' r H. unfold Own in *. bk H. destruct x as [[a1 m1] ok].
  destruct (addCleanup_sim k a av m mv _ _ HA M _ _ _ H0) as (a' & m' & -> & HA' & M'). cbn [bind].
  destruct ok; inv H; eexists _, _; (split; [reflexivity|]); split; auto. apply emit_sim; auto. discriminate.
Qed.
Lemma resource_sim k a av m mv n al : ar k a av -> mr m mv -> sim k (resource_allocate e k a m n al) (resource_allocate ev k av mv n al).
Proof.
  intros HA M av' mv' r H. unfold resource_allocate in *. bk H. destruct x as [[a1 m1] p].
  destruct (allocate_sim k a av m mv _ _ HA M _ _ _ H0) as (a' & m' & -> & HA' & M'). cbn [bind].
  destruct (p =? 0). { inv H. eexists _, _. split; [reflexivity|]. auto. }
  bk H. destruct (hand_out_sim k _ _ p n M' _ H1) as (m3 & -> & M3). cbn [bind].
  inv H. eexists _, _. split; [reflexivity|]. auto.
Qed.

(** Program states. *)
Definition oar (k : nat) (x y : option (option arena)) : Prop :=
  match x, y with
  | Some (Some a), Some (Some av) => ar k a av
  | Some None, Some None | None, None => True
  | _, _ => False
  end.
Definition sr (s sv : sys) : Prop :=
  mr (s_mem s) (s_mem sv) /\ forall k, oar k (nth_error (s_arenas s) k) (nth_error (s_arenas sv) k).

Lemma get_sim s sv k av : sr s sv -> get_arena sv k = Ok av -> exists a, get_arena s k = Ok a /\ ar k a av.
Proof.
  intros [_ HS] H. specialize (HS k). unfold get_arena, oar in *.
  destruct (nth_error (s_arenas sv) k) as [[x|]|]; try discriminate. inv H.
  destruct (nth_error (s_arenas s) k) as [[y|]|]; try easy. eauto.
Qed.
Lemma put_sim s sv k a av m mv : sr s sv -> ar k a av -> mr m mv -> sr (put s k a m) (put sv k av mv).
Proof.
  intros [_ HS] HA M. split; auto. intros j. specialize (HS j). unfold put; simpl.
  destruct (Nat.eq_dec k j) as [<-|NE]; [|now rewrite !nth_error_upd_ne].
  unfold oar in *. destruct (nth_error (s_arenas s) k) as [x|] eqn:E1, (nth_error (s_arenas sv) k) as [y|] eqn:E2.
  - rewrite (nth_error_upd_eq _ _ _ _ E1), (nth_error_upd_eq _ _ _ _ E2). exact HA.
  - destruct x; easy.
  - destruct y; easy.
  - rewrite (proj2 (nth_error_None (upd k (Some a) (s_arenas s)) k)), (proj2 (nth_error_None (upd k (Some av) (s_arenas sv)) k)); auto;
      rewrite length_upd; now apply nth_error_None.
Qed.
Lemma mem_sim s sv m mv : sr s sv -> mr m mv -> sr {| s_arenas := s_arenas s; s_mem := m |} {| s_arenas := s_arenas sv; s_mem := mv |}.
Proof. intros [_ HS] M. split; auto. Qed.

Definition sims {T} (f fv : res (sys * T)) : Prop :=
  forall sv' r, fv = Ok (sv', r) -> exists s', f = Ok (s', r) /\ sr s' sv'.

Lemma on_arena_sim s sv k f fv : sr s sv -> (forall a av m mv, ar k a av -> mr m mv -> sim k (f a m) (fv av mv)) ->
  sims (on_arena s k f) (on_arena sv k fv).
Proof.
  intros HS HF sv' r H. unfold on_arena in *. bk H. bk H. destruct x0 as [[a' m'] z]. inv H.
  destruct (get_sim _ _ _ _ HS H0) as (a & -> & HA). cbn [bind].
  destruct (HF _ _ _ _ HA (proj1 HS) _ _ _ H1) as (a2 & m2 & -> & HA2 & M2). cbn [bind].
  eexists. split; [reflexivity|]. now apply put_sim.
Qed.

Lemma exec_sim : forall o k s sv, sr s sv -> sims (exec e o k s) (exec ev o k sv).
Proof.
  fix IH 1. intros o k s sv HS. destruct o.
  - apply on_arena_sim; auto. intros. now apply AllocateAligned_sim.
  - apply on_arena_sim; auto. intros. now apply AllocateCleanup_sim.
  - intros sv' r H. cbn [exec] in *. bk H. destruct x as [s1 p].
    destruct (on_arena_sim s sv k (fun a m => allocateAligned e k a m sz kByteSize) (fun a m => allocateAligned ev k a m sz kByteSize) HS) with (2 := H0)
      as (s1r & E1 & S1).
    { intros. now apply allocate_sim. }
    rewrite E1. cbn [bind]. clear E1 H0. destruct (p =? 0). { inv H. eexists. split; [reflexivity|auto]. }
    bk H. destruct (hand_out_sim k _ _ p sz (proj1 S1) _ H0) as (m2 & -> & M2). cbn [bind].
    pose proof (mem_sim _ _ _ _ S1 M2) as S2. bk H.
    assert (BODY : forall l a b sv3, sr a b ->
       (fix go (l : list op) (s : sys) : res sys :=
                  match l with
                  | [] => Ok s
                  | x :: r => do (s', _) <- exec ev x k s; go r s'
                  end) l b = Ok sv3 ->
       exists s3, (fix go (l : list op) (s : sys) : res sys :=
                  match l with
                  | [] => Ok s
                  | x :: r => do (s', _) <- exec e x k s; go r s'
                  end) l a = Ok s3 /\ sr s3 sv3).
    { clear - IH. induction l as [|y l IHl]; intros a b sv3 S0 H.
      - inv H. eexists. split; [reflexivity|auto].
      - bk H. destruct x as [s' q]. destruct (IH y k a b S0 _ _ H0) as (a' & E & S'). rewrite E. cbn [bind]. eapply IHl; eauto. }
    destruct (BODY _ _ _ _ S2 H1) as (s3 & E3 & S3). rewrite E3. cbn [bind]. clear BODY E3 H1.
    bk H. destruct x1 as [s4 ok].
    assert (X : exists s4r, match dtor with None => Ok (s3, 1) | Some fn => on_arena s3 k (fun a m => Own e k a m p fn) end = Ok (s4r, ok) /\ sr s4r s4).
    { destruct dtor as [fn|]; [|inv H1; eexists; split; [reflexivity|auto]].
      eapply on_arena_sim; [exact S3| |exact H1]. intros. now apply Own_sim. }
    destruct X as (s4r & -> & S4). cbn [bind]. destruct (ok =? 0). { inv H. eexists. split; [reflexivity|auto]. }
    bk H. destruct (get_sim _ _ _ _ S4 H2) as (a4 & -> & A4). cbn [bind]. inv H.
    eexists. split; [reflexivity|]. apply mem_sim; auto. apply hook_alloc_sim; auto. apply S4.
  - apply on_arena_sim; auto. intros. now apply CreateArray_sim.
  - apply on_arena_sim; auto. intros. now apply Own_sim.
  - intros sv' r H. cbn [exec] in *. bk H. destruct (get_sim _ _ _ _ HS H0) as (a & -> & HA). cbn [bind].
    destruct HA as (_ & _ & -> & _). destruct (a_resource x) as [j|]; [|discriminate].
    eapply on_arena_sim; [exact HS| |exact H]. intros. now apply resource_sim.
Qed.

Lemma used_sim s sv k o : sr s sv -> used_arenas s k o = used_arenas sv k o.
Proof.
  intros [_ HS]. assert (E : resource_of s k = resource_of sv k).
  { unfold resource_of. specialize (HS k). unfold oar in HS.
    destruct (nth_error (s_arenas s) k) as [[x|]|], (nth_error (s_arenas sv) k) as [[y|]|]; try easy.
    destruct HS as (_ & _ & -> & _). reflexivity. }
  destruct o; simpl; rewrite ?E; auto.
Qed.
Lemma header_sim m mv k b : mr m mv -> header_live m k b = header_live mv k b.
Proof. intros (_ & evs & E1 & E2 & N). unfold header_live. rewrite E1, E2, (held_swap _ _ N). reflexivity. Qed.
Lemma last_sim s sv k : sr s sv -> last_live s k = last_live sv k.
Proof.
  intros [M HS]. unfold last_live. specialize (HS k). unfold oar in HS.
  destruct (nth_error (s_arenas s) k) as [[x|]|], (nth_error (s_arenas sv) k) as [[y|]|]; try easy.
  destruct HS as (_ & -> & _). destruct (a_blocks y); auto. now apply header_sim.
Qed.
Lemma walk_sim s sv s' sv' k : sr s sv -> sr s' sv' -> walk_live s s' k = walk_live sv sv' k.
Proof.
  intros [M HS] [M' HS']. unfold walk_live. specialize (HS k). specialize (HS' k). unfold oar in *.
  destruct (nth_error (s_arenas s) k) as [[x|]|], (nth_error (s_arenas sv) k) as [[y|]|]; try easy.
  destruct (nth_error (s_arenas s') k) as [[x'|]|], (nth_error (s_arenas sv') k) as [[y'|]|]; try easy.
  destruct HS as (-> & -> & _), HS' as (_ & -> & _). destruct (_ && _); auto.
  induction (a_blocks y) as [|b l IH]; simpl; auto. now rewrite IH, (header_sim _ _ _ _ M).
Qed.
Lemma exec_live_sim o k s sv sv' : sr s sv -> exec_live ev o k sv = Ok sv' -> exists s', exec_live e o k s = Ok s' /\ sr s' sv'.
Proof.
  intros HS H. unfold exec_live in *. rewrite (used_sim _ _ _ _ HS).
  assert (EL : forall l, forallb (last_live s) l = forallb (last_live sv) l).
  { induction l as [|x l IH]; simpl; auto. now rewrite IH, (last_sim _ _ _ HS). }
  rewrite EL. destruct (negb _); [discriminate|]. bk H. destruct x as [s1 r].
  destruct (exec_sim o k s sv HS _ _ H0) as (s2 & -> & S2). cbn [bind].
  assert (EW : forall l, forallb (walk_live s s2) l = forallb (walk_live sv s1) l).
  { induction l as [|x l IH]; simpl; auto. now rewrite IH, (walk_sim _ _ _ _ _ HS S2). }
  rewrite EW. destruct (forallb _ _); [|discriminate]. inv H. eauto.
Qed.
Lemma run_script_sim l : forall s sv sv', sr s sv -> run_script ev l sv = Ok sv' -> exists s', run_script e l s = Ok s' /\ sr s' sv'.
Proof.
  induction l as [|[j o] l IH]; intros s sv sv' HS H; simpl in *; [inv H; eauto|]. bk H.
  destruct (exec_live_sim o j s sv x HS H0) as (s1 & -> & S1). cbn [bind]. eauto.
Qed.
End Sim.
