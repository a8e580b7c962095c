(** Proofs about the thread checks of strings. *)
Require Import List Bool Arith Lia Permutation.
From Verif Require Import StrCheckModel StrCheckSpec.
Import ListNotations.

Definition cnt (b : nat) (l : list (option str)) : nat := length (filter (refers_to b) l).
Definition one (b : bool) : nat := if b then 1 else 0.
Lemma cnt_cons b o l : cnt b (o :: l) = one (refers_to b o) + cnt b l.
Proof. unfold cnt. cbn [filter]. destruct (refers_to b o); reflexivity. Qed.
Lemma cnt_perm b l l' : Permutation l l' -> cnt b l = cnt b l'.
Proof. induction 1 as [|x l l' _ IH|x y l|l m k _ IH1 _ IH2]; rewrite ?cnt_cons in *; lia. Qed.
Lemma cnt_in b l o : In o l -> refers_to b o = true -> 1 <= cnt b l.
Proof.
  induction l as [|y l IH]; intros I R; [destruct I|]. rewrite cnt_cons. destruct I as [->|I]; [rewrite R; cbn; lia|]. specialize (IH I R). lia.
Qed.
Lemma cnt_none b l : (forall o, In o l -> refers_to b o = false) -> cnt b l = 0.
Proof. induction l as [|y l IH]; intros H; [reflexivity|]. rewrite cnt_cons, IH, (H y); [reflexivity|left; reflexivity|]. intros o I. apply H. right. exact I. Qed.
Lemma refers_some b x : s_buf x = Some b -> refers_to b (Some x) = true.
Proof. destruct x as [c u]. cbn. intros ->. apply Nat.eqb_refl. Qed.
Lemma take_out {A} (l : list A) i o : nth_error l i = Some o -> exists r, Permutation l (o :: r) /\ forall y, Permutation (put l i y) (y :: r).
Proof.
  revert i. induction l as [|y l IH]; intros [|i] E; try discriminate.
  - injection E as ->. exists l. split; [|intros y]; apply Permutation_refl.
  - destruct (IH _ E) as (r & P & Q). exists (y :: r). split; [eapply Permutation_trans; [apply perm_skip, P|apply perm_swap]|].
    intros z. cbn [put]. eapply Permutation_trans; [apply perm_skip, Q|apply perm_swap].
Qed.
Lemma nth_put_other {A} (l : list A) i j x : i <> j -> nth_error (put l i x) j = nth_error l j.
Proof. revert i j. induction l as [|y l IH]; intros [|i] [|j] N; cbn; try congruence; auto. Qed.
Lemma put_same {A} (l : list A) i x : nth_error l i = Some x -> put l i x = l.
Proof. revert i. induction l as [|y l IH]; intros [|i] E; try discriminate; cbn in *; [congruence|rewrite IH; auto]. Qed.
Lemma nth_put_here {A} (l : list A) i x y : nth_error l i = Some y -> nth_error (put l i x) i = Some x.
Proof. revert i. induction l as [|z l IH]; intros [|i] E; try discriminate; cbn in *; [reflexivity|auto]. Qed.
Lemma str_nth s i x : str_at s i = Some x -> nth_error (c_objs s) i = Some (Some x).
Proof. unfold str_at. destruct (nth_error (c_objs s) i) as [o|]; [intros ->; reflexivity|discriminate]. Qed.

(** Who began to share each buffer, after a log. *)
Definition began (cur : nat -> option tid) (b : nat) (t : tid) : nat -> option tid := fun c => if c =? b then Some t else cur c.
Fixpoint cur_after (cur : nat -> option tid) (log : list access) : nat -> option tid :=
  match log with
  | [] => cur
  | Inc b t n :: r => cur_after (if n <=? 1 then began cur b t else cur) r
  | _ :: r => cur_after cur r
  end.
Lemma orderly_app log l : forall cur, orderly cur (log ++ l) <-> orderly cur log /\ orderly (cur_after cur log) l.
Proof.
  induction log as [|e log IH]; intros cur; [cbn; tauto|]. destruct e as [b t n|b t n|b t n]; cbn [app orderly cur_after].
  - destruct (n <=? 1); rewrite IH; unfold began; tauto.
  - rewrite IH; tauto.
  - rewrite IH; tauto.
Qed.
Lemma cur_after_app log l : forall cur, cur_after cur (log ++ l) = cur_after (cur_after cur log) l.
Proof. induction log as [|e log IH]; intros cur; [reflexivity|]. destruct e; cbn [app cur_after]; apply IH. Qed.

(** Strings that share a buffer carry the tag of the thread that began it. *)
Definition TL (l : list (option str)) (n : nat) (cur : nat -> option tid) : Prop :=
  (forall x b, In (Some x) l -> s_buf x = Some b -> b < n) /\
  (forall x b, In (Some x) l -> s_buf x = Some b -> 1 < cnt b l -> exists u, cur b = Some u /\ s_cpu x = Some u).
Lemma tl_perm l l' n cur : Permutation l l' -> TL l n cur -> TL l' n cur.
Proof.
  intros P (B & C). pose proof (Permutation_sym P) as Q. split; intros x b I.
  - apply B. eapply Permutation_in; eassumption.
  - intros X R. rewrite <- (cnt_perm b _ _ P) in R. apply (C x b); auto. eapply Permutation_in; eassumption.
Qed.
Lemma tl_tail o r n cur : TL (o :: r) n cur -> TL r n cur.
Proof. intros (B & C). split; intros x b I; [apply B; right; exact I|]. intros X R. apply (C x b); [right; exact I|exact X|]. rewrite cnt_cons. lia. Qed.
Lemma tl_quiet o r n cur : (forall b, refers_to b o = false) -> TL r n cur -> TL (o :: r) n cur.
Proof.
  intros N (B & C). split; intros x b [E|I] X.
  - subst o. pose proof (refers_some _ _ X) as Y. rewrite N in Y. discriminate.
  - eauto.
  - subst o. pose proof (refers_some _ _ X) as Y. rewrite N in Y. discriminate.
  - rewrite cnt_cons, N. cbn [one plus]. eauto.
Qed.
Lemma tl_grow r n cur : TL r n cur -> TL r (S n) cur.
Proof. intros (B & C). split; [|exact C]. intros x b I X. specialize (B _ _ I X). lia. Qed.
Lemma tl_unused r n cur : TL r n cur -> cnt n r = 0.
Proof.
  intros (B & _). apply cnt_none. intros [[[c|] u]|] I; cbn; auto. apply Nat.eqb_neq. specialize (B _ c I eq_refl). lia.
Qed.
Lemma tl_alone b c r n cur : TL r n cur -> cnt b r = 0 -> b < n -> TL (Some (Str (Some b) c) :: r) n cur.
Proof.
  intros (B & C) Z L. split; intros x d [E|I] X.
  - injection E as <-. cbn in X. injection X as <-. exact L.
  - eauto.
  - injection E as <-. cbn in X. injection X as <-. rewrite cnt_cons, Z. cbn [refers_to]. rewrite Nat.eqb_refl. cbn [one]. lia.
  - rewrite cnt_cons. cbn [refers_to]. destruct (Nat.eqb_spec b d) as [->|N]; cbn [one]; [|eauto].
    pose proof (cnt_in d _ _ I (refers_some _ _ X)). lia.
Qed.
Lemma tl_fresh c r n cur : TL r n cur -> TL (Some (Str (Some n) c) :: r) (S n) cur.
Proof. intros H. apply tl_alone; [apply tl_grow, H|eapply tl_unused, H|lia]. Qed.
Lemma tl_share b u r n cur : TL r n cur -> cur b = Some u -> (forall x, In (Some x) r -> s_buf x = Some b -> s_cpu x = Some u) -> b < n ->
  TL (Some (Str (Some b) (Some u)) :: r) n cur.
Proof.
  intros (B & C) K A L. split; intros x d [E|I] X.
  - injection E as <-. cbn in X. injection X as <-. exact L.
  - eauto.
  - injection E as <-. cbn in X. injection X as <-. cbn. eauto.
  - rewrite cnt_cons. cbn [refers_to]. destruct (Nat.eqb_spec b d) as [->|N]; cbn [one]; [eauto|eauto].
Qed.
Lemma tl_began b t r n cur : TL r n cur -> cnt b r <= 1 -> TL r n (began cur b t).
Proof.
  intros (B & C) Z. split; [exact B|]. intros x d I X R. unfold began. destruct (Nat.eqb_spec d b) as [->|N]; [lia|eauto].
Qed.
Lemma tl_head x b r n cur : TL (Some x :: r) n cur -> s_buf x = Some b -> b < n /\ (1 < cnt b (Some x :: r) -> exists u, cur b = Some u /\ s_cpu x = Some u).
Proof. intros (B & C) X. split; [apply (B x b); cbn; auto|apply (C x b); cbn; auto]. Qed.
Lemma cnt_head x b r : s_buf x = Some b -> cnt b (Some x :: r) = S (cnt b r).
Proof. intros X. rewrite cnt_cons, (refers_some _ _ X). reflexivity. Qed.
Lemma tl_all b n cur l : TL l n cur -> 1 < cnt b l -> forall x, In (Some x) l -> s_buf x = Some b -> s_cpu x = cur b.
Proof. intros (_ & C) R x I X. destruct (C x b I X R) as (u & -> & ->). reflexivity. Qed.
Lemma none_left b r x : cnt b r = 0 -> In (Some x) r -> s_buf x = Some b -> False.
Proof. intros Z I X. pose proof (cnt_in b _ _ I (refers_some _ _ X)). lia. Qed.

Lemma app_perm {A} (l : list A) y : Permutation (l ++ [y]) (y :: l).
Proof. apply Permutation_sym, Permutation_cons_append. Qed.

Definition Tagged (s : cst) (cur : nat -> option tid) : Prop := TL (c_objs s) (c_bufs s) cur.
Lemma step_new arena s t large s' l cur : Tagged s cur -> cstep arena s t (New large) = Went s' l -> orderly cur l /\ Tagged s' (cur_after cur l).
Proof.
  intros T E. injection E as <- <-. split; [exact I|]. unfold Tagged. cbn [c_objs c_bufs cur_after]. eapply tl_perm; [apply Permutation_sym, app_perm|].
  destruct large; [apply tl_fresh, T|]. apply tl_quiet; [reflexivity|exact T].
Qed.
Lemma step_unshare arena s t i s' l cur : Tagged s cur -> (forall x b, str_at s i = Some x -> s_buf x = Some b -> 1 < refs s b -> s_cpu x = Some t) ->
  cstep arena s t (Unshare i) = Went s' l -> orderly cur l /\ Tagged s' (cur_after cur l).
Proof.
  intros T O E. cbn [cstep] in E. destruct (str_at s i) as [x|] eqn:X; [|discriminate]. destruct (s_buf x) as [b|] eqn:B; [|injection E as <- <-; split; [exact I|exact T]].
  pose proof (str_nth _ _ _ X) as N. destruct (take_out _ _ _ N) as (r & P & Q). pose proof (tl_perm _ _ _ _ P T) as T1. destruct (tl_head _ _ _ _ _ T1 B) as (L & C).
  change (refs s b) with (cnt b (c_objs s)) in *. rewrite <- (cnt_perm b _ _ P) in C.
  destruct (Nat.ltb_spec 1 (cnt b (c_objs s))) as [G|G]; injection E as <- <-; cbn [orderly cur_after].
  - destruct (C G) as (u & K & CU). rewrite (O x b eq_refl B G) in CU. injection CU as <-. split; [auto|]. unfold Tagged. cbn [c_objs c_bufs].
    eapply tl_perm; [apply Permutation_sym, Q|]. apply tl_fresh. eapply tl_tail, T1.
  - split; [split; [lia|exact I]|exact T].
Qed.
Lemma step_swap arena s t i j s' l cur : Tagged s cur -> cstep arena s t (Swap i j) = Went s' l -> orderly cur l /\ Tagged s' (cur_after cur l).
Proof.
  intros T E. cbn [cstep] in E. destruct (str_at s i) as [x|] eqn:X; [|discriminate]. destruct (str_at s j) as [y|] eqn:Y; [|discriminate]. injection E as <- <-. split; [exact I|].
  unfold Tagged. cbn [c_objs c_bufs cur_after]. apply str_nth in X, Y. destruct (Nat.eq_dec i j) as [->|N].
  - rewrite X in Y. injection Y as <-. rewrite !put_same; [exact T|exact X|]. rewrite put_same; exact X.
  - pose proof Y as Y2. rewrite <- (nth_put_other _ i j (Some y) N) in Y2. destruct (take_out _ _ _ X) as (r & P & Q). destruct (take_out _ _ _ Y2) as (r2 & P2 & Q2).
    eapply tl_perm; [apply Permutation_sym, Q2|]. 
    assert (PR : Permutation r r2). { eapply (Permutation_cons_inv (a := Some y)). eapply Permutation_trans; [apply Permutation_sym, Q|exact P2]. }
    eapply tl_perm; [apply perm_skip, PR|]. eapply tl_perm; [exact P|exact T].
Qed.
Lemma step_destroy arena s t i s' l cur : Tagged s cur -> cstep arena s t (Destroy i) = Went s' l -> orderly cur l /\ Tagged s' (cur_after cur l).
Proof.
  intros T E. cbn [cstep] in E. destruct (str_at s i) as [x|] eqn:X; [|discriminate]. destruct (if arena then is_mine (s_cpu x) t else passes (s_cpu x) t) eqn:K; [|discriminate]. injection E as <- <-.
  apply str_nth in X. destruct (take_out _ _ _ X) as (r & P & Q). pose proof (tl_perm _ _ _ _ P T) as T1. split.
  - destruct (s_buf x) as [b|] eqn:B; [|exact I]. cbn [orderly]. split; [|exact I]. change (refs s b) with (cnt b (c_objs s)). intros G. destruct (tl_head _ _ _ _ _ T1 B) as (_ & C).
    rewrite <- (cnt_perm b _ _ P) in C. destruct (C G) as (u & CU & SU). rewrite SU in K. assert (u = t) as -> by (destruct arena; apply Nat.eqb_eq; exact K). exact CU.
  - assert (cur_after cur (match s_buf x with Some b => [Dec b t (refs s b)] | None => [] end) = cur) as -> by (destruct (s_buf x); reflexivity).
    unfold Tagged. cbn [c_objs c_bufs]. eapply tl_perm; [apply Permutation_sym, Q|]. apply tl_quiet; [reflexivity|]. eapply tl_tail, T1.
Qed.
Lemma step_clone arena s t i s' l cur : Tagged s cur -> cstep arena s t (Clone i) = Went s' l -> orderly cur l /\ Tagged s' (cur_after cur l).
Proof.
  intros T E. cbn [cstep] in E. destruct (str_at s i) as [x|] eqn:X; [|discriminate]. destruct arena; [discriminate|]. destruct (passes (s_cpu x) t) eqn:K; [|discriminate].
  apply str_nth in X. destruct (take_out _ _ _ X) as (r & P & Q). pose proof (tl_perm _ _ _ _ P T) as T1.
  destruct (s_buf x) as [b|] eqn:B; injection E as <- <-; unfold Tagged; cbn [c_objs c_bufs orderly cur_after].
  2:{ split; [exact I|]. eapply tl_perm; [apply Permutation_sym, app_perm|]. apply tl_quiet; [reflexivity|exact T]. }
  change (refs s b) with (cnt b (c_objs s)). destruct (tl_head _ _ _ _ _ T1 B) as (_ & C). rewrite <- (cnt_perm b _ _ P) in C.
  destruct (Nat.leb_spec (cnt b (c_objs s)) 1) as [G|G].
  - split; [|eapply tl_perm; [apply Permutation_sym, app_perm|]; apply tl_fresh, tl_began; [exact T|exact G]]. rewrite Nat.eqb_refl. auto.
  - destruct (C G) as (u & CU & SU). rewrite SU in K. apply Nat.eqb_eq in K. subst u. split; [auto|]. eapply tl_perm; [apply Permutation_sym, app_perm|]. apply tl_fresh. exact T.
Qed.
Lemma step_move arena s t i s' l cur : Tagged s cur -> cstep arena s t (Move i) = Went s' l -> orderly cur l /\ Tagged s' (cur_after cur l).
Proof.
  intros T E. cbn [cstep] in E. destruct (str_at s i) as [x|] eqn:X; [|discriminate]. apply str_nth in X. destruct (take_out _ _ _ X) as (r & P & Q). pose proof (tl_perm _ _ _ _ P T) as T1.
  assert (KEEP : forall y, s_buf y = s_buf x -> s_cpu y = s_cpu x -> TL (put (c_objs s) i (Some (Str None (s_cpu x))) ++ [Some y]) (c_bufs s) cur).
  { intros y E1 E2. assert (y = x) as -> by (destruct x, y; cbn in *; congruence). eapply tl_perm; [apply Permutation_sym, app_perm|]. eapply tl_perm; [apply perm_skip, Permutation_sym, Q|].
    eapply tl_perm; [apply perm_swap|]. apply tl_quiet; [reflexivity|exact T1]. }
  destruct arena.
  - destruct (is_mine (s_cpu x) t) eqn:M.
    + injection E as <- <-. split; [exact I|]. apply KEEP; [reflexivity|]. cbn. unfold is_mine in M. destruct (s_cpu x) as [u|]; [|discriminate]. apply Nat.eqb_eq in M. congruence.
    + destruct (s_buf x) as [b|] eqn:B.
      * change (refs s b) with (cnt b (c_objs s)) in E. destruct (Nat.ltb_spec 1 (cnt b (c_objs s))) as [G|G]; [discriminate|]. injection E as <- <-. cbn [orderly cur_after]. split; [split; [lia|exact I]|].
        unfold Tagged. cbn [c_objs c_bufs]. eapply tl_perm; [apply Permutation_sym, app_perm|]. eapply tl_perm; [apply perm_skip, Permutation_sym, Q|].
        rewrite (cnt_perm b _ _ P), (cnt_head _ _ _ B) in G. apply tl_alone; [apply tl_quiet; [reflexivity|eapply tl_tail, T1]| |eapply tl_head; eassumption].
        rewrite cnt_cons. cbn [refers_to one]. lia.
      * injection E as <- <-. split; [exact I|]. unfold Tagged. cbn [c_objs c_bufs cur_after]. eapply tl_perm; [apply Permutation_sym, app_perm|]. apply tl_quiet; [reflexivity|].
        eapply tl_perm; [apply Permutation_sym, Q|]. apply tl_quiet; [reflexivity|eapply tl_tail, T1].
  - injection E as <- <-. split; [exact I|]. apply KEEP; reflexivity.
Qed.
Lemma step_copy arena s t i s' l cur : Tagged s cur -> (arena = false -> forall x, str_at s i = Some x -> s_buf x <> None -> s_cpu x = None) ->
  cstep arena s t (Copy i) = Went s' l -> orderly cur l /\ Tagged s' (cur_after cur l).
Proof.
  intros T O E. cbn [cstep] in E. destruct (str_at s i) as [x|] eqn:X; [|discriminate]. specialize (fun A => O A x eq_refl).
  apply str_nth in X. destruct (take_out _ _ _ X) as (r & P & Q). pose proof (tl_perm _ _ _ _ P T) as T1. pose proof (tl_tail _ _ _ _ T1) as T2.
  destruct (copy_tags arena (s_cpu x) t) as [(old, new)|] eqn:CT; [|discriminate]. injection E as <- <-.
  destruct (s_buf x) as [b|] eqn:B.
  2:{ split; [exact I|]. unfold Tagged. cbn [c_objs c_bufs cur_after]. eapply tl_perm; [apply Permutation_sym, app_perm|]. apply tl_quiet; [reflexivity|].
      eapply tl_perm; [apply Permutation_sym, Q|]. apply tl_quiet; [reflexivity|exact T2]. }
  change (refs s b) with (cnt b (c_objs s)). destruct (tl_head _ _ _ _ _ T1 B) as (L & C).
  (* both strings are then tagged with the thread *)
  assert (ON : old = Some t /\ new = Some t).
  { unfold copy_tags in CT. destruct arena.
    - destruct (is_mine (s_cpu x) t) eqn:M; [|discriminate]. injection CT as <- <-. unfold is_mine in M. destruct (s_cpu x) as [u|]; [|discriminate]. apply Nat.eqb_eq in M. split; congruence.
    - rewrite O in CT by congruence. cbn in CT. injection CT as <- <-. auto. }
  destruct ON as (-> & ->). cbn [orderly cur_after]. rewrite (cnt_perm b _ _ P). destruct (Nat.leb_spec (cnt b (Some x :: r)) 1) as [G|G].
  - split; [exact I|]. unfold Tagged. cbn [c_objs c_bufs]. eapply tl_perm; [apply Permutation_sym, app_perm|]. eapply tl_perm; [apply perm_skip, Permutation_sym, Q|].
    rewrite (cnt_head _ _ _ B) in G. assert (Z : cnt b r = 0) by lia. apply tl_share; [| | |exact L].
    + apply tl_alone; [apply tl_began; [exact T2|lia]|exact Z|exact L].
    + unfold began. rewrite Nat.eqb_refl. reflexivity.
    + intros y [EY|IY] BY; [injection EY as <-; reflexivity|]. exfalso. eapply none_left; eassumption.
  - destruct (C G) as (u & CU & SU). destruct arena; [|rewrite O in SU by congruence; discriminate].
    assert (u = t) as ->. { unfold copy_tags in CT. rewrite SU in CT. cbn in CT. destruct (Nat.eqb_spec u t); [assumption|discriminate]. }
    split; [auto|]. unfold Tagged. cbn [c_objs c_bufs]. eapply tl_perm; [apply Permutation_sym, app_perm|]. eapply tl_perm; [apply perm_skip, Permutation_sym, Q|].
    assert (SX : Str (Some b) (Some t) = x) by (destruct x; cbn in *; congruence). rewrite SX at 2.
    apply tl_share; [exact T1|exact CU| |exact L]. intros y IY BY. rewrite (tl_all _ _ _ _ T1 G y IY BY). exact CU.
Qed.

Lemma reach_tagged (arena : bool) (own : cst -> tid -> cop -> Prop) s log : (forall s t o, own s t o -> (if arena then changes_own else copies_once) s t o) -> creach arena own s log ->
  orderly (fun _ : nat => @None tid) log /\ Tagged s (cur_after (fun _ : nat => @None tid) log).
Proof.
  intros OW. induction 1 as [|s log t o s' l _ (IO & IT) HO E].
  - split; [exact I|]. split; intros x b [].
  - rewrite orderly_app, cur_after_app. apply OW in HO.
    assert (S : orderly (cur_after (fun _ : nat => @None tid) log) l /\ Tagged s' (cur_after (cur_after (fun _ : nat => @None tid) log) l)); [|tauto].
    destruct o as [large|i|i|i|i|i|i j].
    + eapply step_new; eassumption.
    + eapply step_copy; [exact IT| |exact E]. intros ->. exact HO.
    + eapply step_move; eassumption.
    + eapply step_destroy; eassumption.
    + eapply step_clone; eassumption.
    + eapply step_unshare; [exact IT| |exact E]. intros x b X B G. destruct arena; cbn in HO; [auto|]. destruct (HO x X) as [K|K]; [exact K|].
      apply str_nth in X. apply nth_error_In in X. destruct (proj2 IT x b X B G) as (u & _ & U). congruence.
    + eapply step_swap; eassumption.
Qed.

(** A copy made of a string that is tagged already is not tagged. *)
Lemma second_copy s t i b : str_at s i = Some (Str (Some b) (Some t)) ->
  exists s', cstep false s t (Copy i) = Went s' [Inc b t (refs s b)] /\ str_at s' (length (c_objs s)) = Some (Str (Some b) None) /\ 2 <= refs s' b /\
  forall u, exists s2, cstep false s' u (Destroy (length (c_objs s))) = Went s2 [Dec b u (refs s' b)].
Proof.
  intros X. cbn [cstep]. rewrite X. cbn [s_cpu s_buf copy_tags passes]. rewrite Nat.eqb_refl. eexists. split; [reflexivity|].
  pose proof (str_nth _ _ _ X) as N. destruct (take_out _ _ _ N) as (r & P & Q).
  assert (LE : length (put (c_objs s) i (Some (Str (Some b) (Some t)))) = length (c_objs s)). { rewrite (Permutation_length (Q _)), (Permutation_length P). reflexivity. }
  assert (Y : str_at (Cst (put (c_objs s) i (Some (Str (Some b) (Some t))) ++ [Some (Str (Some b) None)]) (c_bufs s)) (length (c_objs s)) = Some (Str (Some b) None)).
  { unfold str_at. cbn [c_objs]. rewrite nth_error_app2 by lia. rewrite LE, Nat.sub_diag. reflexivity. }
  split; [exact Y|]. split.
  - change (2 <= cnt b (put (c_objs s) i (Some (Str (Some b) (Some t))) ++ [Some (Str (Some b) None)])). rewrite (cnt_perm b _ _ (app_perm _ _)), cnt_cons, (cnt_perm b _ _ (Q _)), cnt_cons.
    cbn [refers_to]. rewrite Nat.eqb_refl. cbn [one]. lia.
  - intros u. cbn [cstep]. rewrite Y. cbn [s_cpu s_buf passes]. eauto.
Qed.

(** One thread alone is never refused. *)
Definition all_tags (p : option tid -> Prop) (s : cst) : Prop := forall x, In (Some x) (c_objs s) -> p (s_cpu x).
Lemma in_put {A} (l : list A) i x y : In y (put l i x) -> y = x \/ In y l.
Proof. revert i. induction l as [|z l IH]; intros [|i] H; cbn in *; auto; destruct H as [H|H]; auto. destruct (IH _ H); auto. Qed.
Lemma tags_step (arena : bool) t s o s' l : all_tags (fun c => c = Some t \/ arena = false /\ c = None) s -> cstep arena s t o = Went s' l ->
  all_tags (fun c => c = Some t \/ arena = false /\ c = None) s'.
Proof.
  intros A E. assert (W : forall i x, str_at s i = Some x -> s_cpu x = Some t \/ arena = false /\ s_cpu x = None).
  { intros i x X. apply A. eapply nth_error_In, str_nth, X. }
  intros z IZ. destruct o as [large|i|i|i|i|i|i j]; cbn [cstep] in E;
    try (destruct (str_at s i) as [x|] eqn:X; [|discriminate]; specialize (W i x X) as Wx).
  - injection E as <- <-. cbn [c_objs] in IZ. apply in_app_or in IZ. destruct IZ as [IZ|[IZ|[]]]; [apply A, IZ|]. injection IZ as <-. cbn. destruct arena; auto.
  - destruct (copy_tags arena (s_cpu x) t) as [(old, new)|] eqn:CT; [|discriminate]. injection E as <- <-. cbn [c_objs] in IZ.
    assert (ON : (old = Some t \/ arena = false /\ old = None) /\ (new = Some t \/ arena = false /\ new = None)).
    { unfold copy_tags in CT. destruct arena.
      - destruct Wx as [Wx|(F & _)]; [|discriminate]. rewrite Wx in CT. cbn in CT. rewrite Nat.eqb_refl in CT. injection CT as <- <-. auto.
      - destruct Wx as [Wx|(_ & Wx)]; rewrite Wx in CT; cbn in CT; rewrite ?Nat.eqb_refl in CT; injection CT as <- <-; auto. }
    destruct ON as (HO & HN). apply in_app_or in IZ. destruct IZ as [IZ|[IZ|[]]]; [|injection IZ as <-; exact HN]. apply in_put in IZ. destruct IZ as [IZ|IZ]; [injection IZ as ->; exact HO|apply A, IZ].
  - destruct arena.
    + assert (IN : forall b, In (Some z) (put (c_objs s) i (Some (Str None (s_cpu x))) ++ [Some (Str b (Some t))]) -> s_cpu z = Some t \/ true = false /\ s_cpu z = None).
      { intros b H. apply in_app_or in H. destruct H as [H|[H|[]]]; [|injection H as <-; auto]. apply in_put in H. destruct H as [H|H]; [injection H as ->; exact Wx|apply A, H]. }
      destruct (is_mine (s_cpu x) t); [|destruct (s_buf x) as [b|]; [destruct (1 <? refs s b); [discriminate|]|]]; injection E as <- <-; cbn [c_objs] in IZ; eapply IN, IZ.
    + injection E as <- <-. cbn [c_objs] in IZ. apply in_app_or in IZ. destruct IZ as [IZ|[IZ|[]]]; [|injection IZ as <-; exact Wx]. apply in_put in IZ. destruct IZ as [IZ|IZ]; [injection IZ as ->; exact Wx|apply A, IZ].
  - destruct (if arena then is_mine (s_cpu x) t else passes (s_cpu x) t); [|discriminate]. injection E as <- <-. cbn [c_objs] in IZ. apply in_put in IZ. destruct IZ as [IZ|IZ]; [discriminate|apply A, IZ].
  - destruct arena; [discriminate|]. destruct (passes (s_cpu x) t); [|discriminate].
    destruct (s_buf x) as [b|]; injection E as <- <-; cbn [c_objs] in IZ; apply in_app_or in IZ; (destruct IZ as [IZ|[IZ|[]]]; [apply A, IZ|injection IZ as <-; cbn; auto]).
  - destruct (s_buf x) as [b|]; [destruct (1 <? refs s b)|]; injection E as <- <-; try (apply A, IZ). cbn [c_objs] in IZ. apply in_put in IZ. destruct IZ as [IZ|IZ]; [injection IZ as ->; exact Wx|apply A, IZ].
  - destruct (str_at s j) as [y|] eqn:Y; [|discriminate]. injection E as <- <-. cbn [c_objs] in IZ. apply in_put in IZ. destruct IZ as [IZ|IZ]; [injection IZ as ->; exact Wx|].
    apply in_put in IZ. destruct IZ as [IZ|IZ]; [injection IZ as ->; exact (W j y Y)|apply A, IZ].
Qed.
Lemma one_thread_passes (arena : bool) t s log o : creach arena (fun _ u _ => u = t) s log -> (arena = true -> forall i, o <> Clone i) -> cstep arena s t o <> Refused.
Proof.
  intros R NC. assert (A : all_tags (fun c => c = Some t \/ arena = false /\ c = None) s).
  { induction R as [|s log u p s' l _ IH -> E]; [intros x []|]. eapply tags_step; eassumption. }
  assert (W : forall i x, str_at s i = Some x -> s_cpu x = Some t \/ arena = false /\ s_cpu x = None).
  { intros i x X. apply A. eapply nth_error_In, str_nth, X. }
  destruct o as [large|i|i|i|i|i|i j]; cbn [cstep]; try discriminate;
    (destruct (str_at s i) as [x|] eqn:X; [|discriminate]; specialize (W i x X)).
  - unfold copy_tags. destruct arena, W as [W|(F & W)]; try discriminate F; rewrite W; cbn; rewrite ?Nat.eqb_refl; discriminate.
  - destruct arena; [|discriminate]. destruct W as [W|(F & _)]; [|discriminate]. rewrite W. cbn. rewrite Nat.eqb_refl. discriminate.
  - destruct arena, W as [W|(F & W)]; try discriminate F; rewrite W; cbn; rewrite ?Nat.eqb_refl; discriminate.
  - destruct arena; [exfalso; apply (NC eq_refl i); reflexivity|]. destruct W as [W|(_ & W)]; rewrite W; cbn; rewrite ?Nat.eqb_refl; destruct (s_buf x); discriminate.
  - destruct (s_buf x) as [b|]; [destruct (1 <? refs s b)|]; discriminate.
  - destruct (str_at s j); discriminate.
Qed.
