(** How strings grow when something is appended: requests and capacities. *)
Require Import ZArith List Bool Lia Permutation.
From Verif Require Import Base BaseProofs StrSpec StrModel StrStatements StrProofs StrProofs2 StrProofs3 StrProofs4 StrProofs5 StrProofs6 StrProofs7 StrQuiet StrProofs8 StrProofs9 StrProofs12 StrProofs13 StrStreamProofs StrCases StrGrowStatements.
Import ListNotations.
Open Scope Z_scope.


Ltac inv1 H := let a := fresh "a" in let h1 := fresh "h1" in let o1 := fresh "o1" in let X := fresh "X" in
  apply bnd_inv in H; destruct H as (a & h1 & o1 & X & H).

(** ** Counting requests *)
Definition counts {A} (k : nat) (m : M A) : Prop := forall h o a h' o', m h o = Ret a h' o' -> h_calls h' = (k + h_calls h)%nat.

Section Wide.
Context {ChT : CharType}.

Lemma counts_bnd {A B} j k (m : M A) (f : A -> M B) : counts j m -> (forall a, counts k (f a)) -> counts (j + k) (bnd m f).
Proof. intros H1 H2 h o b h' o' E. apply bnd_inv in E. destruct E as (a & h1 & o1 & E1 & E2). rewrite (H2 a _ _ _ _ _ E2), (H1 _ _ _ _ _ E1). lia. Qed.
Lemma counts_bnd0 {A B} k (m : M A) (f : A -> M B) : counts 0 m -> (forall a, counts k (f a)) -> counts k (bnd m f).
Proof. exact (counts_bnd 0 k m f). Qed.
Lemma counts_bnd1 {A B} (m : M A) (f : A -> M B) : counts 1 m -> (forall a, counts 0 (f a)) -> counts 1 (bnd m f).
Proof. exact (counts_bnd 1 0 m f). Qed.
Lemma counts_pure {A} (m : M A) : pure m -> counts 0 m.
Proof. intros P h o a h' o' E. pose proof (P h o) as X. rewrite E in X. destruct X as (-> & _). reflexivity. Qed.
Lemma counts_ret {A} (a : A) : counts 0 (ret a). Proof. apply counts_pure, pure_ret. Qed.
Lemma counts_fail {A} k (m : M A) : (forall h o a h' o', m h o <> Ret a h' o') -> counts k m.
Proof. intros H h o a h' o' E. destruct (H _ _ _ _ _ E). Qed.
Lemma counts_undef {A} k : counts k (@undef A). Proof. apply counts_fail. discriminate. Qed.
Lemma counts_throw {A} k e : counts k (@throw A e). Proof. apply counts_fail. discriminate. Qed.
Lemma counts_put o : counts 0 (put o). Proof. intros h x a h' o' E. injection E as _ <- _. reflexivity. Qed.
Lemma counts_this : counts 0 this. Proof. apply counts_pure, pure_this. Qed.
Lemma counts_write p l : counts 0 (write p l).
Proof.
  intros h o a h' o' E. destruct p; cbn [write] in E; [|destruct (blk h b) as [k|]; [|discriminate]|discriminate];
    (match type of E with context [if ?b then _ else _] => destruct b; [|discriminate] end); injection E as _ <- _; reflexivity.
Qed.
Lemma counts_fill p n c : counts 0 (fill p n c).
Proof. intros h o a h' o' E. unfold fill in E. match type of E with context [if ?b then _ else _] => destruct b; [|discriminate] end. eapply counts_write; exact E. Qed.
Lemma counts_set_refs b r : counts 0 (set_refs b r).
Proof. intros h o a h' o' E. unfold set_refs in E. destruct (blk h b) as [k|]; [|discriminate]. destruct (bk_live k), (bk_kind k); try discriminate. injection E as _ <- _. reflexivity. Qed.
Lemma counts_pod_move p q n : counts 0 (pod_move p q n).
Proof. apply counts_bnd0; [apply counts_pure, pure_read|intros; apply counts_write]. Qed.
Lemma counts_noexc {A} k (m : M A) : counts k m -> counts k (noexc m).
Proof. intros H h o a h' o' E. unfold noexc in E. destruct (m h o) eqn:X; try discriminate. injection E as <- <- <-. eapply H; exact X. Qed.

Section C.
Variables (dbg arena : bool) (mal : nat -> Z -> bool).
Lemma counts_assert c : counts 0 (assertM dbg c). Proof. apply counts_pure, pure_assert. Qed.
Lemma counts_capacity : counts 0 capacity. Proof. apply counts_pure, pure_capacity. Qed.
Lemma counts_pod_copy p q n : counts 0 (pod_copy dbg p q n).
Proof. apply counts_bnd0; [apply counts_assert|]. intros _. destruct (overlaps p q n); [apply counts_undef|]. apply counts_pod_move. Qed.
Lemma counts_alloc k b : counts 1 (alloc dbg arena mal k b).
Proof.
  intros h o a h' o' E. unfold alloc in E. destruct (arena && dbg && (c_al o =? 0)); [discriminate|]. destruct (mal (h_calls h) b); [|discriminate].
  injection E as _ <- _. reflexivity.
Qed.
Lemma counts_free c b n : counts 0 (free_block arena c b n).
Proof. intros h o a h' o' E. unfold free_block in E. destruct (blk h b) as [k|]; [|discriminate]. match type of E with context [if ?b then _ else _] => destruct b; [|discriminate] end. injection E as _ <- _. reflexivity. Qed.
Lemma counts_create n : counts 1 (create dbg arena mal n).
Proof.
  apply counts_bnd0; [apply counts_this|]. intros o. destruct (_ && _); [apply counts_throw|]. destruct (M64 <=? n + 1); [apply counts_throw|]. cbv zeta. destruct (M64 <=? (n + 1) * csize + 8); [apply counts_throw|].
  apply counts_bnd1; [apply counts_alloc|intros; apply counts_ret].
Qed.
Lemma counts_decrement al b n : counts 0 (decrement_refs dbg arena al b n).
Proof.
  apply counts_bnd0; [apply counts_pure, pure_refs|]. intros r. apply counts_bnd0; [apply counts_set_refs|]. intros _. apply counts_bnd0; [apply counts_assert|]. intros _.
  destruct (r =? 1); [|apply counts_ret]. destruct (al =? 0); [apply counts_free|apply counts_ret].
Qed.
Lemma counts_move b cur n : counts 1 (move_block dbg arena mal b cur n).
Proof.
  intros h o a h' o' E. unfold move_block, heap_of in E. apply bnd_inv in E. destruct E as (h0 & h1 & o1 & E1 & E). injection E1 as <- <- <-.
  destruct (blk h b) as [k|]; [|discriminate]. destruct (in_blk k 0 cur); [|discriminate]. revert h o a h' o' E.
  change (counts 1 (let* nb := alloc dbg arena mal (bk_kind k) n in let* l := read (PHeap b 0) cur in let* _ := write (PHeap nb 0) l in ret nb)).
  apply counts_bnd1; [apply counts_alloc|]. intros nb. apply counts_bnd0; [apply counts_pure, pure_read|]. intros l. apply counts_bnd0; [apply counts_write|]. intros; apply counts_ret.
Qed.
Lemma counts_smart hdr b cs cc nc : counts 1 (smart_realloc dbg arena mal hdr b cs cc nc).
Proof.
  apply counts_bnd0; [apply counts_this|]. intros o. apply counts_bnd0; [apply counts_assert|]. intros _. destruct arena eqn:EA.
  - destruct (_ && _); [apply counts_throw|]. rewrite <- EA. apply counts_bnd1; [apply counts_move|]. intros nb. apply counts_bnd0; [|intros; apply counts_ret].
    destruct (c_al o =? 0); [apply counts_free|apply counts_ret].
  - cbv zeta. rewrite <- EA. destruct (_ <? _).
    + apply counts_bnd1; [apply counts_move|]. intros nb. apply counts_bnd0; [apply counts_free|intros; apply counts_ret].
    + intros h o1 a h' o' E. destruct (mal (h_calls h) nc).
      * revert E. match goal with |- ?m h o1 = _ -> _ => cut (counts 1 m); [intros X; apply X|] end.
        apply counts_bnd1; [apply counts_move|]. intros nb. apply counts_bnd0; [apply counts_free|intros; apply counts_ret].
      * exfalso. inv1 E. inv1 E. inv1 E. discriminate E.
Qed.
Lemma counts_reallocate b cur cap n : counts 1 (reallocate dbg arena mal b cur cap n).
Proof.
  apply counts_bnd0; [apply counts_assert|]. intros _. destruct (M64 <=? n + 1); [apply counts_throw|]. cbv zeta. destruct (M64 <=? (n + 1) * csize + 8); [apply counts_throw|].
  apply counts_bnd0; [apply counts_pure, pure_refs|]. intros r. apply counts_bnd0; [apply counts_assert|]. intros _.
  apply counts_bnd1; [apply counts_smart|]. intros nb. apply counts_bnd0; [apply counts_pure, pure_refs|]. intros r1. apply counts_bnd0; [apply counts_assert|]. intros; apply counts_ret.
Qed.
Lemma counts_set_small n : counts 0 (set_small_size dbg n).
Proof.
  apply counts_bnd0; [apply counts_assert|]. intros _. destruct (_ || _); [apply counts_undef|]. apply counts_bnd0; [apply counts_this|]. intros o.
  apply counts_bnd0; [apply counts_put|]. intros _. apply counts_bnd0; [apply counts_this|]. intros o1. apply counts_assert.
Qed.
Lemma counts_destroy c : counts 0 (destroy dbg arena c).
Proof.
  unfold destroy. destruct (category c =? is_small); [apply counts_ret|]. destruct (_ && _); [apply counts_ret|]. destruct (category c =? is_medium); [apply counts_free|apply counts_decrement].
Qed.
Lemma counts_on {A} k t (m : M A) : counts k m -> counts k (on dbg arena t m).
Proof.
  intros H h o a h' o' E. unfold on in E. destruct (m h t) as [x h1 t1|e h1 t1|h1| |h1] eqn:X; try discriminate.
  - injection E as _ <- _. eapply H; exact X.
  - destruct (destroy dbg arena t1 h1 o); discriminate.
Qed.
Lemma counts_build {A} k al (m : M A) : counts k m -> counts k (build al m).
Proof. intros H h o a h' o' E. unfold build in E. destruct (m h (blank al)) as [x h1 t1|e h1 t1|h1| |h1] eqn:X; try discriminate. injection E as _ <- _. eapply H; exact X. Qed.
Lemma counts_unshare n : counts 1 (unshare dbg arena mal n).
Proof.
  apply counts_bnd0; [apply counts_this|]. intros o. apply counts_bnd0; [apply counts_assert|]. intros _. apply counts_bnd1; [apply counts_create|]. intros (b, c).
  apply counts_bnd0; [apply counts_assert|]. intros _. apply counts_bnd0; [apply counts_pod_copy|]. intros _. apply counts_bnd0; [apply counts_decrement|]. intros _.
  apply counts_bnd0; [apply counts_this|]. intros o1. apply counts_put.
Qed.
Lemma counts_small_size : counts 0 (small_size dbg). Proof. apply counts_pure, pure_small_size. Qed.
(** With more asked for than there is, one request. *)
Lemma counts_reserve_small n : sso_off dbg arena = true \/ max_small < n -> counts 1 (reserve_small dbg arena mal n).
Proof.
  intros H. apply counts_bnd0; [apply counts_this|]. intros o. apply counts_bnd0; [apply counts_assert|]. intros _.
  assert (E : negb (sso_off dbg arena) && (n <=? max_small) = false).
  { destruct H as [-> | H]; [reflexivity|]. destruct (Z.leb_spec n max_small); [lia|]. apply andb_false_r. }
  rewrite E. destruct (n <=? max_medium).
  - apply counts_bnd1; [apply counts_alloc|]. intros b. apply counts_bnd0; [apply counts_small_size|]. intros sz. apply counts_bnd0; [apply counts_pod_copy|]. intros _.
    apply counts_bnd0; [apply counts_this|]. intros; apply counts_put.
  - apply counts_bnd1; [apply counts_create|]. intros (b, c). apply counts_bnd0; [apply counts_small_size|]. intros sz. apply counts_bnd0; [apply counts_pod_copy|]. intros _.
    apply counts_bnd0; [apply counts_this|]. intros o1. apply counts_bnd0; [apply counts_put|]. intros _. apply counts_bnd0; [apply counts_capacity|]. intros; apply counts_assert.
Qed.
Lemma counts_init_default : counts 0 (init_default dbg arena).
Proof. apply counts_bnd0; [apply counts_this|]. intros o. destruct (_ && _); [apply counts_throw|apply counts_set_small]. Qed.
Lemma reserve_counts h o n c h' o' : capacity h o = Ret c h o -> c < n -> heapy o = true -> reserve dbg arena mal n h o = Ret tt h' o' -> h_calls h' = S (h_calls h).
Proof.
  intros C Hn HY E. unfold reserve in E. inv1 E. apply this_inv in X. destruct X as (-> & -> & ->). inv1 E. inv1 E. apply assertM_inv in E. destruct E as (-> & ->).
  destruct (capacity_inv _ _ _ _ _ X0) as (-> & ->). clear X0. unfold heapy in HY. unfold capacity, bnd, this in C.
  destruct (category o =? is_small); [discriminate|]. destruct (category o =? is_medium) eqn:CM.
  - assert (CL : (category o =? is_large) = false) by (apply Z.eqb_eq in CM; rewrite CM; reflexivity). rewrite CL in C. injection C as EC.
    unfold reserve_medium in X. inv1 X. apply this_inv in X0. destruct X0 as (-> & -> & ->). inv1 X. apply assertM_inv in X0. destruct X0 as (-> & ->).
    destruct (Z.leb_spec n (ml_capacity o)); [lia|]. revert X. match goal with |- ?m h o = _ -> _ => cut (counts 1 m); [intros XX XE; exact (XX _ _ _ _ _ XE)|] end.
    destruct (Z.leb_spec n max_medium).
    + apply counts_bnd1; [apply counts_smart|]. intros nb. apply counts_bnd0; [apply counts_this|]. intros; apply counts_put.
    + apply counts_bnd0; [apply counts_build, counts_init_default|]. intros t. apply counts_bnd1.
      * apply counts_on. apply counts_bnd1; [apply counts_reserve_small; right; lia|]. intros _. apply counts_bnd0; [apply counts_capacity|]. intros c0.
        apply counts_bnd0; [apply counts_assert|]. intros _. apply counts_bnd0; [apply counts_this|]. intros t0. apply counts_bnd0; [apply counts_put|]. intros _. apply counts_pod_copy.
      * intros (u, t1). apply counts_bnd0; [apply counts_put|]. intros _. apply counts_bnd0; [apply counts_capacity|]. intros c0. apply counts_bnd0; [apply counts_assert|]. intros _. apply counts_destroy.
  - destruct (category o =? is_large) eqn:CL; [|discriminate].
    unfold reserve_large in X. inv1 X. apply this_inv in X0. destruct X0 as (-> & -> & ->). inv1 X. apply assertM_inv in X0. destruct X0 as (-> & ->). inv1 X.
    rewrite X0 in C. pose proof (pure_refs (c_data o) h o) as PR. rewrite X0 in PR. destruct PR as (-> & ->). injection C as EC. match type of EC with (if ?b then _ else _) = _ => destruct b end.
    + exact (counts_unshare n _ _ _ _ _ X).
    + destruct (Z.ltb_spec (ml_capacity o) n); [|lia]. revert X. match goal with |- ?m h o = _ -> _ => cut (counts 1 m); [intros XX XE; exact (XX _ _ _ _ _ XE)|] end.
      apply counts_bnd1; [|intros _; apply counts_bnd0; [apply counts_capacity|intros; apply counts_assert]].
      apply counts_bnd1; [apply counts_reallocate|]. intros (nb, c1). apply counts_bnd0; [apply counts_this|]. intros; apply counts_put.
Qed.
Lemma counts_guarded {A} k (m : M A) : counts k m -> counts k (guarded dbg m).
Proof.
  intros H. apply counts_bnd0; [apply counts_pure, pure_check|]. intros _ h o a h' o' E. destruct (m h o) as [x h1 o1|e h1 o1|h1| |h1] eqn:X; try discriminate.
  - inv1 E. injection E as <- <- <-. rewrite (counts_pure _ (pure_check dbg) _ _ _ _ _ X0). exact (H _ _ _ _ _ X).
  - inv1 E. discriminate E.
Qed.
End C.

(** ** Capacities *)
Section G.
Variables (dbg arena : bool) (mal : nat -> Z -> bool) (ar N : Z).
Notation Inv := (StrProofs2.Inv dbg arena mal ar N).
Notation Keep := (StrProofs3.Keep dbg arena mal ar N).
Notation expanded := (StrProofs5.expanded dbg arena mal ar N).

Definition grew (h : heap) (o : core) (c need : Z) (h' : heap) (o' : core) : Prop :=
  exists c', capacity h' o' = Ret c' h' o' /\
    (h_calls h' = h_calls h /\ c' = c /\ heapy o' = heapy o \/
     h_calls h' = S (h_calls h) /\ 1 + 3 * c / 2 <= c' /\ need <= c' /\ heapy o' = true /\ (sso_off dbg arena = false \/ heapy o = true -> c < need)).
Lemma grew_write h o c n h1 o1 p x h2 o2 : grew h o c n h1 o1 -> write p x h1 o1 = Ret tt h2 o2 -> heapy o2 = heapy o1 -> (forall i, p = PSelf i -> heapy o1 = false) ->
  grew h o c n h2 o2.
Proof.
  intros (c' & C & H) W HY NP. exists c'. split; [eapply write_capacity; eassumption|]. rewrite (counts_write _ _ _ _ _ _ _ W), HY. exact H.
Qed.
Lemma capacity_size h o c n : capacity h o = Ret c h o -> heapy o = true -> unique h o \/ n = c_size o -> capacity h (set_size o n) = Ret c h (set_size o n).
Proof.
  intros C H U. unfold capacity, bnd, this in *. change (category (set_size o n)) with (category o). change (ml_capacity (set_size o n)) with (ml_capacity o). change (c_data (set_size o n)) with (c_data o). change (c_size (set_size o n)) with n.
  unfold heapy in H. destruct (category o =? is_small) eqn:HS; [discriminate|].
  destruct (category o =? is_large); [|destruct (category o =? is_medium); [injection C as <-; reflexivity|discriminate]].
  unfold refs in *. destruct (blk h (c_data o)) as [k|] eqn:B; [|discriminate]. destruct (bk_live k); [|discriminate]. destruct (bk_kind k) as [|r] eqn:K; [discriminate|].
  injection C as E. unfold ret. f_equal. destruct (Z.ltb_spec 1 r); [|exact E]. destruct U as [[U|(k' & B' & [K'|K'])]|U].
  - unfold heapy in U. rewrite HS in U. discriminate.
  - congruence.
  - assert (r = 1) by congruence. lia.
  - congruence.
Qed.
Lemma finish_grew h0 o0 c need h o n old p h' o' : heapy o = true -> unique h o \/ n = c_size o -> grew h0 o0 c need h o ->
  (let* c1 := capacity in
   let* _ := assertM dbg (n <=? c1) in
   let* o1 := this in
   let* _ := assertM dbg ((category o1 =? is_medium) || (category o1 =? is_large)) in
   let* _ := put (set_size o1 n) in
   let* _ := write (PHeap (c_data o1) n) [Some 0] in
   let* o2 := this in
   let* _ := assertM dbg (size o2 =? n) in
   ret (PHeap (c_data o1) old)) h o = Ret p h' o' -> grew h0 o0 c need h' o'.
Proof.
  intros HY U G H. inv1 H. destruct (capacity_inv _ _ _ _ _ X) as (-> & ->). inv1 H. apply assertM_inv in X0. destruct X0 as (-> & ->).
  inv1 H. apply this_inv in X0. destruct X0 as (-> & -> & ->). inv1 H. apply assertM_inv in X0. destruct X0 as (-> & ->).
  inv1 H. apply put_inv in X0. destruct X0 as (-> & ->). inv1 H. pose proof (write_heap_inv _ _ _ _ _ _ _ _ X0) as E. subst o1.
  match type of X0 with _ = Ret ?u _ _ => destruct u end.
  inv1 H. apply this_inv in X1. destruct X1 as (-> & -> & ->). inv1 H. apply assertM_inv in X1. destruct X1 as (-> & ->). injection H as _ <- <-.
  eapply grew_write; [|exact X0|reflexivity|intros i E; discriminate].
  destruct G as (c' & C & G). exists c'. split; [apply capacity_size; assumption|exact G].
Qed.
Lemma grown_grew l R n h0 o0 c need h o : StrProofs4.grown dbg arena mal ar N l R n h o -> h_calls h = S (h_calls h0) -> 1 + 3 * c / 2 <= n -> need <= n ->
  (sso_off dbg arena = false \/ heapy o0 = true -> c < need) -> grew h0 o0 c need h o /\ heapy o = true /\ unique h o.
Proof.
  intros G E L1 L2 L3. destruct (grown_capacity _ _ _ _ _ _ _ _ _ _ G) as (c' & C & L). destruct G as (_ & k & cap & HR & S & _).
  pose proof (heap_heapy _ _ _ _ _ HR) as HY. split; [|split; [exact HY|eapply sole_unique; eassumption]].
  exists c'. split; [exact C|]. right. repeat split; auto; lia.
Qed.
Lemma expand_grew h o l R c delta p h' o' : Inv h ((o, l) :: R) -> capacity h o = Ret c h o -> 0 <= delta < limit ->
  expand_noinit dbg arena mal delta true h o = Ret p h' o' -> grew h o c (slen l + delta) h' o'.
Proof.
  intros I C Hd E. destruct (Inv_head _ _ _ _ _ _ _ _ _ I) as (RP & A). pose proof (slen_nonneg l) as L0. pose proof (capacity_small_bound _ _ _ _ RP C) as CB.
  destruct (capacity_ok _ _ _ RP) as (c0 & C0 & HC0). rewrite C in C0. injection C0 as <-.
  unfold expand_noinit in E. inv1 E. rewrite C in X. injection X as <- <- <-. inv1 E. apply this_inv in X. destruct X as (-> & -> & ->). inv1 E. apply assertM_inv in X. destruct X as (-> & ->).
  cbv zeta in E. destruct RP as [S|(k & cap & HR)].
  - pose proof (small_heapy _ _ S) as H. rewrite (small_cat _ H) in E. cbn [is_small Z.eqb] in E.
    rewrite capacity_small in C by exact H. injection C as <-.
    inv1 E. rewrite (small_size_ok _ _ _ _ S) in X. injection X as <- <- <-. rewrite add_small in E by lia.
    destruct (negb (sso_off dbg arena) && (slen l + delta <=? max_small)) eqn:EO.
    + inv1 E. pose proof (counts_set_small dbg _ _ _ _ _ _ X) as K. apply set_small_inv in X. injection E as _ <- <-.
      exists max_small. assert (heapy o1 = false) by (unfold heapy; rewrite X; reflexivity). split; [apply capacity_small; assumption|]. left. split; [exact K|]. split; [reflexivity|congruence].
    + assert (HL : sso_off dbg arena = true \/ max_small < slen l + delta).
      { apply andb_false_iff in EO. destruct EO as [EO|EO]; [left; destruct (sso_off dbg arena); [reflexivity|discriminate]|right; apply Z.leb_gt; exact EO]. }
      inv1 E. match type of X with _ = Ret ?u _ _ => destruct u end.
      pose proof (reserve_small_spec dbg arena mal ar N h o l R (Z.max (slen l + delta) (2 * @max_small ChT)) I H ltac:(lia)) as SP. unfold spec in SP. rewrite X in SP. destruct SP as (RD & _).
      assert (G : StrProofs4.grown dbg arena mal ar N l R (Z.max (slen l + delta) (2 * @max_small ChT)) h1 o1) by (destruct RD as [G|(_ & _ & F & _)]; [exact G|lia]).
      pose proof (counts_reserve_small dbg arena mal (Z.max (slen l + delta) (2 * @max_small ChT)) ltac:(destruct HL; [left; assumption|right; lia]) _ _ _ _ _ X) as K.
      destruct (grown_grew l R _ h o max_small (slen l + delta) _ _ G K) as (GW & HY & U); [assert (1 + 3 * max_small / 2 <= 2 * max_small) by (destruct ChT; vm_compute; discriminate); lia|lia| |].
      { intros [F|F]; [destruct HL; [congruence|assumption]|congruence]. }
      eapply finish_grew; [exact HY|left; exact U|exact GW|exact E].
  - pose proof (heap_cat _ _ _ _ _ HR) as CT. pose proof (heap_bound _ _ _ _ _ HR) as HB. pose proof HR as (B & LV & C1 & C2 & _). pose proof (heap_heapy _ _ _ _ _ HR) as HY.
    rewrite CT in E. replace ((match bk_kind k with Plain => 128 | Counted _ => 64 end) =? is_small) with false in E by (destruct (bk_kind k); reflexivity).
    rewrite C2 in E. rewrite add_small in E by lia. inv1 E. rewrite C in X. injection X as <- <- <-. destruct (Z.ltb_spec c (slen l + delta)).
    + inv1 E. match type of X with _ = Ret ?u _ _ => destruct u end.
      assert (Q : 3 * c / 2 < 2 * limit - 2 /\ 0 <= 3 * c / 2 /\ c <= 3 * c / 2) by (repeat split; Z.to_euclidean_division_equations; lia).
      rewrite mul64_small in X by (unfold M64; lia). rewrite (Z.mul_comm c 3) in X. rewrite add_small in X by lia.
      set (n := Z.max (slen l + delta) (1 + 3 * c / 2)) in *.
      pose proof (reserve_counts _ _ _ _ _ n c _ _ C ltac:(lia) HY X) as K.
      pose proof (reserve_spec dbg arena mal ar N h o l R n I ltac:(lia)) as SP. unfold spec in SP. rewrite X in SP. destruct SP as (_ & G). specialize (G HY).
      destruct (grown_grew l R _ h o c (slen l + delta) _ _ G K) as (GW & HY' & U); [lia|lia|auto|].
      eapply finish_grew; [exact HY'|left; exact U|exact GW|exact E].
    + inv1 E. injection X as <- <- <-. eapply finish_grew; [exact HY| |exists c; split; [exact C|left; auto]|exact E].
      destruct (Z.eq_dec delta 0); [right; lia|left]. eapply sole_unique; [exact HR|].
      rewrite (capacity_heap _ _ _ _ _ HR) in C. injection C as C. destruct (bk_kind k) as [|r] eqn:KD; [left; exact KD|]. destruct (Z.ltb_spec 1 r); [lia|].
      right. pose proof (refs_bound _ _ _ _ _ _ _ _ _ _ _ _ I HR KD). rewrite KD. f_equal. lia.
Qed.

Lemma expand_grown h o l R c delta : Inv h ((o, l) :: R) -> capacity h o = Ret c h o -> 0 <= delta < limit -> slen l + delta < 2 * limit ->
  spec (expand_noinit dbg arena mal delta true) h o (fun p h' o' => expanded l R delta p h' o' /\ grew h o c (slen l + delta) h' o') (Keep o l R).
Proof.
  intros I C Hd HL. eapply spec_and; [eapply expand_spec; [exact I|lia|lia]|]. intros p h' o' E. eapply expand_grew; eassumption.
Qed.
(** Writing what was appended. *)
Lemma put_grew h0 o0 c need h o m off h' o' : grew h0 o0 c need h o -> m h o = Ret tt h' o' -> heapy o' = heapy o ->
  (exists x, write (ptr_add (data o) off) x h o = Ret tt h' o') -> grew h0 o0 c need h' o'.
Proof. intros G _ HY (x & W). eapply grew_write; [exact G|exact W|exact HY|]. intros i E. eapply data_self; exact E. Qed.
Lemma move_write p q n h o h' o' : pod_move p q n h o = Ret tt h' o' -> exists x, write q x h o = Ret tt h' o'.
Proof. intros E. unfold pod_move in E. inv1 E. apply read_inv in X. destruct X as (-> & ->). eauto. Qed.
Lemma copy_write p q n h o h' o' : pod_copy dbg p q n h o = Ret tt h' o' -> exists x, write q x h o = Ret tt h' o'.
Proof. intros E. unfold pod_copy in E. inv1 E. apply assertM_inv in X. destruct X as (-> & ->). destruct (overlaps p q n); [discriminate|]. eapply move_write; exact E. Qed.
Lemma fill_write q n c h o h' o' : fill q n c h o = Ret tt h' o' -> exists x, write q x h o = Ret tt h' o'.
Proof. intros E. unfold fill in E. match type of E with context [if ?b then _ else _] => destruct b; [|discriminate] end. eauto. Qed.

Lemma push_back_grew h o l R c x : Inv h ((o, l) :: R) -> capacity h o = Ret c h o -> is_char x ->
  spec (push_back dbg arena mal x) h o (fun _ h' o' => grew h o c (slen l + 1) h' o') (Keep o l R).
Proof.
  intros I C Hx. pose proof (len_ok _ _ _ _ _ _ _ _ _ I) as LO. unfold push_back. eapply spec_bnd; [eapply expand_grown; [exact I|exact C|lia|lia]|].
  intros p h' o' ((u & I' & Lu & -> & U) & G). specialize (U ltac:(lia)).
  destruct (write_own _ _ _ _ _ h' o' (l ++ u) R (slen l) [Some x] I') as (h2 & o2 & W & I2 & _ & HY & _); try lia.
  - left. exact U.
  - constructor; [exists x; auto|constructor].
  - rewrite slen_app. change (slen [Some x]) with 1. lia.
  - eapply spec_ret_eq; [exact W|]. eapply grew_write; [exact G|exact W|exact HY|]. intros i E. eapply data_self; exact E.
Qed.
Lemma guard_grew {A} h o l R (m : M A) Q : Inv h ((o, l) :: R) ->
  spec m h o (fun a h' o' => (exists l', Inv h' ((o', l') :: R)) /\ Q a h' o') (Keep o l R) -> spec (guarded dbg m) h o Q (Keep o l R).
Proof.
  intros I H. destruct (Inv_head _ _ _ _ _ _ _ _ _ I) as (RP & _).
  eapply spec_imp; [eapply spec_guarded; [exact RP|exact H| |]| |intros ? ? ? X; exact X].
  - intros a h' o' ((l' & I') & _). eapply Inv_settled; exact I'.
  - intros e h' o' X. eapply Keep_settled; exact X.
  - intros a h' o' (_ & X). exact X.
Qed.
Lemma append_grew h o l R c p n x : Inv h ((o, l) :: R) -> capacity h o = Ret c h o -> asrc o l R p n x -> good x -> n < limit ->
  spec (append dbg arena mal p n) h o (fun _ h' o' => grew h o c (slen l + n) h' o') (Keep o l R).
Proof.
  intros I C A G Hn. destruct (asrc_len _ _ _ _ _ _ A) as (N0 & Lx). pose proof (len_ok _ _ _ _ _ _ _ _ _ I) as LO.
  unfold append. eapply guard_grew; [exact I|]. destruct (Z.eqb_spec n 0).
  { apply spec_ret. split; [eauto|]. exists c. auto. }
  apply spec_this. cbv zeta. rewrite (size_ok _ _ _ _ _ _ _ _ _ I).
  eapply spec_bnd; [eapply expand_grown; [exact I|exact C|lia|lia]|]. intros q h' o' ((u & I' & Lu & -> & U) & GW). specialize (U ltac:(lia)).
  assert (FIN : forall h2 o2, Inv h2 ((o2, splice (slen l) n x (l ++ u)) :: R) -> grew h o c (slen l + n) h2 o2 ->
    spec (let* sz := size_m in assertM dbg (sz =? add64 (slen l) n)) h2 o2
      (fun _ h' o' => (exists l', Inv h' ((o', l') :: R)) /\ grew h o c (slen l + n) h' o') (Keep o l R)).
  { intros h2 o2 I2 G2. rewrite <- Lx, splice_end in I2 by congruence. eapply size_end; [exact I2| |split; [eauto|exact G2]].
    rewrite add_small by lia. rewrite slen_app. lia. }
  destruct (asrc_cases _ _ _ _ _ _ _ _ _ _ _ _ I A ltac:(lia)) as [(-> & D0 & D1 & EX)|(-> & S)].
  - apply spec_assoc. apply spec_assert; [apply Z.leb_le; lia|]. apply spec_assoc, spec_this. set (d := distance p (data o)) in *.
    assert (RD : read (ptr_add (data o') d) n h' o' = Ret x h' o').
    { rewrite (own_read _ _ _ _ _ _ _ _ _ d n I') by (slens; lia). f_equal. rewrite EX. lists. }
    destruct (move_own _ _ _ _ _ h' o' (l ++ u) R (slen l) (ptr_add (data o') d) n x I' (or_introl U) RD Lx G) as (h2 & o2 & W & I2 & _ & HY & _); [lia|slens; lia|].
    eapply spec_eq; [exact W|]. apply FIN; [exact I2|]. eapply put_grew; [exact GW|exact W|exact HY|eapply move_write; exact W].
  - destruct (copy_own _ _ _ _ _ h' o' (l ++ u) R (slen l) p n x I' (or_introl U) S G) as (h2 & o2 & W & I2 & _ & HY & _); [lia|slens; lia|].
    eapply spec_eq; [exact W|]. apply FIN; [exact I2|]. eapply put_grew; [exact GW|exact W|exact HY|eapply copy_write; exact W].
Qed.
Lemma append_n_grew h o l R c n x : Inv h ((o, l) :: R) -> capacity h o = Ret c h o -> is_char x -> 0 <= n < limit ->
  spec (append_n dbg arena mal n x) h o (fun _ h' o' => grew h o c (slen l + n) h' o') (Keep o l R).
Proof.
  intros I C Hx Hn. pose proof (len_ok _ _ _ _ _ _ _ _ _ I) as LO. unfold append_n. eapply guard_grew; [exact I|].
  eapply spec_bnd; [eapply expand_grown; [exact I|exact C|lia|lia]|]. intros q h' o' ((u & I' & Lu & -> & U) & GW).
  destruct (fill_own _ _ _ _ _ h' o' (l ++ u) R (slen l) n x I') as (h2 & o2 & W & I2 & _ & HY & _); try lia.
  - destruct (Z.eq_dec n 0); [right; assumption|left; apply U; lia].
  - exact Hx.
  - slens. lia.
  - eapply spec_ret_eq; [exact W|]. split; [eauto|]. eapply put_grew; [exact GW|exact W|exact HY|eapply fill_write; exact W].
Qed.
Lemma run_uop_grew h c l R o p n x l' i cap : Inv h ((c, map Some l) :: R) -> Forall is_char x -> uop_ok ar i l o -> u_apply o x l = Val l' -> appends o ->
  (arg_of o <> None -> n < limit /\ asrc c (map Some l) R p n (map Some x)) -> capacity h c = Ret cap h c ->
  spec (run_uop dbg arena mal o p n) h c (fun _ h' c' => grew h c cap (slen l') h' c') (Keep c (map Some l) R).
Proof.
  intros I Bx OK V AP HA C. pose proof (good_map _ Bx) as Gx. destruct o; try contradiction; cbn [u_apply run_uop arg_of uop_ok] in *; injection V as <-; rewrite slen_app, <- (slen_map Some l).
  - destruct HA as (Hn & HA); [discriminate|]. destruct (asrc_len _ _ _ _ _ _ HA) as (N0 & Lx). rewrite slen_map in Lx. rewrite Lx. eapply append_grew; eassumption.
  - destruct OK as ((H0 & H1) & Bc). rewrite slen_srep by exact H0. eapply append_n_grew; auto.
  - eapply push_back_grew; eassumption.
Qed.
End G.

Section W.
Variables (dbg arena : bool) (mal : nat -> Z -> bool) (ar : Z).
Hypotheses (MS : mal_sane mal) (AO : ar_ok dbg arena ar).
Notation reach := (StrStatements.reach dbg arena mal ar).
Notation step := (StrStatements.step dbg arena mal ar).
Notation appending := (StrGrowStatements.appending dbg arena mal ar).

Lemma reach_grew n s ss i c l o x l' cap s' : reach n s -> short n -> sees s ss -> sget (s_objs s) i = Some c -> sget ss i = Some l ->
  allowed ar ss (SOn i o) -> appends o -> arg_val ss (arg_of o) = Some x -> u_apply o x l = Val l' ->
  capacity (s_heap s) c = Ret cap (s_heap s) c -> step s (SOn i o) = SRet s' ->
  exists c', sget (s_objs s') i = Some c' /\ grew dbg arena (s_heap s) c cap (slen l') (s_heap s') c'.
Proof.
  intros H SH SE Ec El AL AP Ex V C ST. pose proof (world_of dbg arena mal ar MS AO n s ss H SH SE) as Ws.
  pose proof (World_clean _ _ _ _ _ _ _ _ Ws) as Wc. destruct AL as (_ & OK). cbn [sop_ok] in OK. specialize (OK l El).
  pose proof Wc as [I A B]. destruct (focus _ _ i c l A Ec El) as (R & P1 & _ & _ & OT).
  set (sc := {| s_heap := clean (s_heap s); s_objs := s_objs s |}) in *.
  assert (IR : StrProofs2.Inv dbg arena mal ar (Z.of_nat n + 1) (s_heap sc) ((c, map Some l) :: R)) by (eapply Inv_perm; [exact P1|exact I]).
  assert (RV : exists p m, resolve sc i (arg_of o) = Some (p, m) /\ Forall is_char x /\ (arg_of o <> None -> m < limit /\ asrc c (map Some l) R p m (map Some x))).
  { destruct (arg_of o) as [a|] eqn:Ea.
    - assert (OA : arg_ok a) by (destruct o; try contradiction; try discriminate; injection Ea as <-; exact OK).
      destruct (resolve_ok dbg arena mal ar _ sc ss i c l a x Wc Ec El Ex OA) as (p & m & E1 & E2 & E3 & Z). exists p, m. split; [exact E1|]. split; [exact E3|]. intros _.
      split; [exact E2|]. apply (Z R IR OT).
    - exists (PExt []), 0. split; [reflexivity|]. split; [|congruence]. cbn [arg_val] in Ex. injection Ex as <-. constructor. }
  destruct RV as (p & m & E1 & Bx & HA).
  pose proof (run_uop_grew dbg arena mal ar _ (s_heap sc) c l R o p m x l' i cap IR Bx OK V AP HA (clean_capacity _ _ _ C)) as SP.
  assert (ST' : on_obj sc i (run_uop dbg arena mal o p m) = SRet s').
  { rewrite <- ST. unfold StrStatements.step. fold sc. cbn [sstep]. rewrite E1. reflexivity. }
  unfold on_obj in ST'. change (s_objs sc) with (s_objs s) in *. rewrite Ec in ST'. unfold spec in SP.
  destruct (run_uop dbg arena mal o p m (s_heap sc) c) as [a h' c'|e h' c'|h'| |h']; try discriminate. injection ST' as <-.
  exists c'. cbn [s_heap s_objs]. split; [eapply sget_sset_eq; exact Ec|exact SP].
Qed.

(** The interface of one call. *)
Lemma heapy_cat c : heapy c = true <-> category c <> is_small.
Proof. unfold heapy. destruct (Z.eqb_spec (category c) is_small); cbn [negb]; split; congruence. Qed.
Lemma append_step n s ss i c o cap s' : reach n s -> short n -> sees s ss -> sget (s_objs s) i = Some c ->
  allowed ar ss (SOn i o) -> appends o -> capacity (s_heap s) c = Ret cap (s_heap s) c -> step s (SOn i o) = SRet s' ->
  exists c' cap', sget (s_objs s') i = Some c' /\ capacity (s_heap s') c' = Ret cap' (s_heap s') c' /\ size c <= size c' <= cap' /\
    (requests (s_heap s) (s_heap s') 0 /\ cap' = cap /\ (category c' = is_small <-> category c = is_small) \/
     requests (s_heap s) (s_heap s') 1 /\ 1 + 3 * cap / 2 <= cap' /\ category c' <> is_small /\ (sso_off dbg arena = false \/ category c <> is_small -> cap < size c')).
Proof.
  intros H SH SE Ec AL AP C ST. pose proof SE as (SL & SE1). pose proof (SE1 i) as SEi. rewrite Ec in SEi. destruct (sget ss i) as [l|] eqn:El; [|contradiction].
  assert (V : exists x l', arg_val ss (arg_of o) = Some x /\ u_apply o x l = Val l' /\ slen l <= slen l').
  { destruct AL as (NE & OK). cbn [sop_ok] in OK. specialize (OK l El). cbn [s_apply] in NE. rewrite El in NE. cbn [with_] in NE. destruct (arg_val ss (arg_of o)) as [x|]; [|contradiction]. exists x.
    destruct o; try contradiction; cbn [u_apply]; eexists; (split; [reflexivity|]; split; [reflexivity|]); rewrite slen_app; match goal with |- _ <= _ + slen ?z => pose proof (slen_nonneg z) end; lia. }
  destruct V as (x & l' & Ex & V & LE).
  destruct (reach_grew n s ss i c l o x l' cap s' H SH SE Ec El AL AP Ex V C ST) as (c' & Ec' & cap' & C' & G).
  pose proof (reach_step dbg arena mal ar n s ss _ MS AO H SH SE AL) as Y. rewrite ST in Y. cbn [step_ok s_apply] in Y. rewrite El in Y. cbn [with_] in Y. rewrite Ex in Y. cbn [with_] in Y. rewrite V in Y.
  destruct Y as (ss' & [E|[]] & SE'). injection E as <-. pose proof (proj2 SE' i) as SEi'. rewrite Ec', (sget_sset_eq _ _ _ _ El) in SEi'.
  assert (Z1 : size c = slen l) by apply SEi. assert (Z2 : size c' = slen l') by apply SEi'. rewrite <- Z2 in *. rewrite <- Z1 in *.
  assert (W' : size c' <= cap').
  { assert (RP : exists n' M, StrProofs8.World dbg arena mal ar M (s_heap s') (s_objs s') n').
    { pose proof (world_of dbg arena mal ar MS AO n s ss H SH SE) as Ws. pose proof (World_clean _ _ _ _ _ _ _ _ Ws) as Wc.
      pose proof (sstep_outcome dbg arena mal ar (Z.of_nat n + 1) {| s_heap := clean (s_heap s); s_objs := s_objs s |} ss (SOn i o) Wc) as OC.
      assert (HN : Z.of_nat n + 1 + 1 < 2 ^ 63) by (unfold short in SH; lia). specialize (OC HN AL). fold (step s (SOn i o)) in OC. rewrite ST in OC. cbn [outcome] in OC.
      destruct OC as (ss' & _ & OC). eauto. }
    destruct RP as (ss' & M & Ws'). destruct (StrProofs11.world_capacity _ _ _ _ _ _ _ _ _ Ws' Ec') as (cap2 & C2 & L2 & _). rewrite C' in C2. injection C2 as <-. exact L2. }
  exists c', cap'. split; [exact Ec'|]. split; [exact C'|]. split; [split; [lia|exact W']|]. destruct G as [(G1 & G2 & G3)|(G1 & G2 & _ & G4 & G5)].
  - left. split; [exact G1|]. split; [exact G2|]. unfold heapy in G3.
    destruct (Z.eqb_spec (category c) is_small), (Z.eqb_spec (category c') is_small); try discriminate; split; intros; congruence.
  - right. split; [exact G1|]. split; [exact G2|]. split; [apply heapy_cat; exact G4|]. intros [F|F]; apply G5; [left; exact F|right; apply heapy_cat; exact F].
Qed.

Lemma appending_reach i m n s s' : reach n s -> appending i m s s' -> reach (m + n) s'.
Proof. intros H A. induction A as [|m s s1 ss1 o s2 A IH SE AL AP ST RF]; [exact H|]. cbn [Nat.add]. eapply reach_next; [apply IH; exact H|exact SE|exact AL|left; exact ST|exact RF]. Qed.
Lemma growth_arith c cap cap' (k : nat) : 0 <= c -> 3 ^ Z.of_nat k * c <= 2 ^ Z.of_nat k * cap -> 1 + 3 * cap / 2 <= cap' -> 3 ^ Z.of_nat (S k) * c <= 2 ^ Z.of_nat (S k) * cap'.
Proof.
  intros H0 H1 H2. rewrite Nat2Z.inj_succ, !Z.pow_succ_r by lia. assert (3 * cap <= 2 * cap') by (Z.to_euclidean_division_equations; lia).
  assert (0 < 2 ^ Z.of_nat k) by (apply Z.pow_pos_nonneg; lia). nia.
Qed.
Lemma appending_grows i m n s s' c cap : reach n s -> short (m + n) -> appending i m s s' -> sget (s_objs s) i = Some c -> capacity (s_heap s) c = Ret cap (s_heap s) c ->
  exists c' cap' k, sget (s_objs s') i = Some c' /\ capacity (s_heap s') c' = Ret cap' (s_heap s') c' /\ size c <= size c' <= cap' /\ requests (s_heap s) (s_heap s') k /\ (k <= m)%nat /\
    3 ^ Z.of_nat k * cap <= 2 ^ Z.of_nat k * cap' /\
    (sso_off dbg arena = false \/ category c <> is_small -> (sso_off dbg arena = false \/ category c' <> is_small) /\ (forall j, k = S j -> 3 ^ Z.of_nat j * cap < 2 ^ Z.of_nat j * size c')).
Proof.
  intros H SH A Ec C. assert (C0 : 0 <= cap).
  { destruct (reach_capacity dbg arena mal ar MS AO n s i c H ltac:(unfold short in *; lia) Ec) as (cap2 & C2 & L & _ & AL). rewrite C in C2. injection C2 as <-.
    destruct (reach_sees dbg arena mal ar MS AO n s H ltac:(unfold short in *; lia)) as (ss & SL & SE). specialize (SE i). rewrite Ec in SE. destruct (sget ss i) as [l|]; [|contradiction]. destruct SE as (Z1 & _). pose proof (slen_nonneg l). lia. }
  induction A as [s|m s s1 ss1 o s2 A IH SE AL AP ST RF].
  - destruct (reach_capacity dbg arena mal ar MS AO n s i c H ltac:(unfold short in *; lia) Ec) as (cap2 & C2 & L & _). rewrite C in C2. injection C2 as <-.
    exists c, cap, O. split; [exact Ec|]. split; [exact C|]. split; [split; [lia|exact L]|]. split; [reflexivity|]. split; [lia|]. split; [cbn; lia|]. intros F. split; [exact F|]. discriminate.
  - destruct (IH H ltac:(unfold short in *; lia) Ec C) as (c1 & cap1 & k & Ec1 & C1 & L1 & K1 & M1 & G1 & S1).
    pose proof (appending_reach i m n s s1 H A) as H1.
    destruct (append_step (m + n) s1 ss1 i c1 o cap1 s2 H1 ltac:(unfold short in *; lia) SE Ec1 AL AP C1 ST) as (c2 & cap2 & Ec2 & C2 & L2 & D).
    unfold requests in *. destruct D as [(D1 & -> & D3)|(D1 & D2 & D3 & D4)].
    + exists c2, cap1, k. split; [exact Ec2|]. split; [exact C2|]. split; [lia|]. split; [lia|]. split; [lia|]. split; [exact G1|]. intros F. destruct (S1 F) as (F1 & F2). split.
      * destruct F1 as [F1|F1]; [left; exact F1|right]. intros X. apply F1, D3. exact X.
      * intros j E. specialize (F2 j E). assert (0 < 2 ^ Z.of_nat j) by (apply Z.pow_pos_nonneg; lia). nia.
    + exists c2, cap2, (S k). split; [exact Ec2|]. split; [exact C2|]. split; [lia|]. split; [lia|]. split; [lia|]. split; [eapply growth_arith; eassumption|]. intros F. destruct (S1 F) as (F1 & F2). split; [right; exact D3|].
      intros j E. injection E as <-. specialize (D4 F1). assert (0 < 2 ^ Z.of_nat k) by (apply Z.pow_pos_nonneg; lia). nia.
Qed.
End W.

(** ** Programs that append *)
Lemma appending_cons dbg arena mal ar i m s s1 ss o s2 : sees s ss -> allowed ar ss (SOn i o) -> appends o -> step dbg arena mal ar s (SOn i o) = SRet s1 -> h_rfail (s_heap s1) = false ->
  appending dbg arena mal ar i m s1 s2 -> appending dbg arena mal ar i (S m) s s2.
Proof.
  intros SE AL AP ST RF A. induction A as [s1|m s1 t tt o' s2 A IH SE' AL' AP' ST' RF'].
  - eapply appending_more; [apply appending_none|eassumption..].
  - eapply appending_more; [apply IH; assumption|eassumption..].
Qed.
Lemma run_appending dbg arena mal ar i : mal_sane mal -> ar_ok dbg arena ar -> forall ops n s ss s' ss', reach dbg arena mal ar n s -> sees s ss ->
  Z.of_nat n + slen ops < 2 ^ 63 - 2 -> Forall appends ops -> run dbg arena mal ar (map (SOn i) ops) s ss = Some (s', ss') -> appending dbg arena mal ar i (length ops) s s'.
Proof.
  intros MS AO. induction ops as [|o r IH]; intros n s ss s' ss' H SE L F E; cbn [run length map] in *.
  - injection E as <- <-. apply appending_none.
  - rewrite slen_cons in L. pose proof (slen_nonneg r). inversion F as [|? ? AP F']; subst.
    destruct (after_step dbg arena mal ar (SOn i o) s ss) as [[s1 ss1]|] eqn:E1; [|discriminate].
    destruct (after_step_ok dbg arena mal ar n (SOn i o) s ss s1 ss1 MS AO H SE) as (H1 & SE1); [unfold short; lia|exact E1|].
    unfold after_step in E1. destruct (sop_b ar ss (SOn i o)) eqn:B; [|discriminate]. apply sop_b_ok in B.
    destruct (step dbg arena mal ar s (SOn i o)) as [t|e t|h1| |h1] eqn:ST; try discriminate.
    + destruct (s_apply (SOn i o) ss) as [|[ss2|ss2] [|]] eqn:SA; try discriminate. destruct (h_rfail (s_heap t)) eqn:RF; [discriminate|]. injection E1 as <- <-.
      eapply appending_cons; [exact SE| |exact AP|exact ST|exact RF|].
      * split; [rewrite SA; discriminate|exact B].
      * eapply (IH (S n)); [exact H1|exact SE1|lia|exact F'|exact E].
    + exfalso. destruct e; try discriminate. cbn [s_apply] in E1. destruct (sget ss i) as [l|]; [|discriminate]. cbn [with_] in E1. destruct (arg_val ss (arg_of o)) as [x|]; [|discriminate]. cbn [with_] in E1.
      destruct o; try contradiction; discriminate E1.
Qed.
End Wide.
