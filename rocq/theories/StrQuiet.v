(** Operations that ask for no memory, and inserting a string into itself. *)
Require Import ZArith List Bool Lia Permutation.
From Verif Require Import Base BaseProofs StrSpec StrModel StrProofs StrProofs2 StrProofs3 StrProofs4 StrProofs5 StrProofs6 StrProofs7.
Import ListNotations.
Open Scope Z_scope.


Section Wide.
Context {ChT : CharType}.

(** ** Operations that ask for no memory *)
Definition same (h h' : heap) : Prop := h_calls h' = h_calls h /\ h_refused h' = h_refused h /\ h_rfail h' = h_rfail h /\
  forall b, option_map bk_kind (blk h' b) = option_map bk_kind (blk h b).
Definition stay (o o' : core) : Prop := heapy o = true -> c_data o' = c_data o /\ c_cap o' = c_cap o.
Lemma same_refl' h : same h h. Proof. repeat split. Qed.
Lemma same_trans' h1 h2 h3 : same h1 h2 -> same h2 h3 -> same h1 h3.
Proof. intros (A1 & A2 & A3 & A4) (B1 & B2 & B3 & B4). split; [congruence|]. split; [congruence|]. split; [congruence|]. intros b. rewrite B4. apply A4. Qed.
Lemma stay_refl o : stay o o. Proof. intros _. auto. Qed.
Lemma stay_heapy o o' : stay o o' -> heapy o = true -> heapy o' = true.
Proof. intros S H. destruct (S H) as (_ & E). rewrite <- H. unfold heapy, category, unit_at. cbn. rewrite E. reflexivity. Qed.
Lemma stay_trans o1 o2 o3 : stay o1 o2 -> stay o2 o3 -> stay o1 o3.
Proof. intros S1 S2 H. destruct (S1 H), (S2 (stay_heapy _ _ S1 H)). split; congruence. Qed.

Definition quiet {A} (m : M A) (h : heap) (o : core) (Q : A -> core -> Prop) : Prop :=
  match m h o with
  | Ret a h' o' => same h h' /\ stay o o' /\ Q a o'
  | Thr _ h' o' => same h h' /\ stay o o'
  | Term h' | UB h' => same h h'
  | AFail => True
  end.
Definition any {A} (_ : A) (_ : core) : Prop := True.
Lemma quiet_bnd {A B} (m : M A) (f : A -> M B) h o Q1 Q : quiet m h o Q1 ->
  (forall a h' o', same h h' -> stay o o' -> Q1 a o' -> quiet (f a) h' o' Q) -> quiet (bnd m f) h o Q.
Proof.
  intros H F. unfold quiet, bnd in *. destruct (m h o) as [a h1 o1|e h1 o1|h1| |h1]; try exact H. destruct H as (S & T & Q1a).
  specialize (F a h1 o1 S T Q1a). destruct (f a h1 o1) as [a2 h2 o2|e h2 o2|h2| |h2]; try exact Logic.I.
  - destruct F as (F1 & F2 & F3). eauto using same_trans', stay_trans.
  - destruct F as (F1 & F2). eauto using same_trans', stay_trans.
  - eauto using same_trans'.
  - eauto using same_trans'.
Qed.
Lemma quiet_imp {A} (m : M A) h o (Q Q' : A -> core -> Prop) : quiet m h o Q -> (forall a o', Q a o' -> Q' a o') -> quiet m h o Q'.
Proof. intros H F. unfold quiet in *. destruct (m h o); try exact H. destruct H as (H1 & H2 & H3). auto. Qed.
(** Nothing changes at all. *)
Definition pure {A} (m : M A) : Prop := forall h o, match m h o with Ret _ h' o' => h' = h /\ o' = o | Thr _ h' o' => h' = h /\ o' = o | Term h' | UB h' => h' = h | AFail => True end.
Lemma quiet_pure {A} (m : M A) h o : pure m -> quiet m h o (fun _ o' => o' = o).
Proof.
  intros P. specialize (P h o). unfold quiet. destruct (m h o); try exact P; try exact Logic.I; try (destruct P as (-> & ->)); try (subst; apply same_refl').
  - split; [apply same_refl'|]. split; [apply stay_refl|reflexivity].
  - split; [apply same_refl'|apply stay_refl].
Qed.
Lemma quiet_skip {A B} (m : M A) (f : A -> M B) h o Q : pure m -> (forall a, quiet (f a) h o Q) -> quiet (bnd m f) h o Q.
Proof.
  intros P F. specialize (P h o). unfold quiet, bnd. destruct (m h o) as [a h1 o1|e h1 o1|h1| |h1]; try exact Logic.I; try (subst; apply same_refl').
  - destruct P as (-> & ->). apply F.
  - destruct P as (-> & ->). split; [apply same_refl'|apply stay_refl].
Qed.
Lemma quiet_eq {A B} (m : M A) (f : A -> M B) h o a h' o' Q : m h o = Ret a h' o' -> same h h' -> stay o o' -> quiet (f a) h' o' Q -> quiet (bnd m f) h o Q.
Proof.
  intros E S T F. unfold quiet, bnd in *. rewrite E. destruct (f a h' o') as [a2 h2 o2|e h2 o2|h2| |h2]; try exact Logic.I.
  - destruct F as (F1 & F2 & F3). eauto using same_trans', stay_trans.
  - destruct F as (F1 & F2). eauto using same_trans', stay_trans.
  - eauto using same_trans'.
  - eauto using same_trans'.
Qed.
Lemma quiet_ret {A} (a : A) h o (Q : A -> core -> Prop) : Q a o -> quiet (ret a) h o Q.
Proof. intros H. split; [apply same_refl'|]. split; [apply stay_refl|exact H]. Qed.

Lemma pure_bnd {A B} (m : M A) (f : A -> M B) : pure m -> (forall a, pure (f a)) -> pure (bnd m f).
Proof.
  intros P F h o. unfold bnd. specialize (P h o). destruct (m h o) as [a h1 o1|e h1 o1|h1| |h1]; try exact P. destruct P as (-> & ->). apply F.
Qed.
Lemma pure_ret {A} (a : A) : pure (ret a). Proof. intros h o. split; reflexivity. Qed.
Lemma pure_throw {A} e : pure (@throw A e). Proof. intros h o. split; reflexivity. Qed.
Lemma pure_undef {A} : pure (@undef A). Proof. intros h o. reflexivity. Qed.
Lemma pure_this : pure this. Proof. intros h o. split; reflexivity. Qed.
Lemma pure_read p n : pure (read p n).
Proof. intros h o. unfold read. destruct p; [destruct (_ && _)|destruct (blk h b) as [k|]; [destruct (in_blk k off n)|]|destruct (_ && _)]; try split; reflexivity. Qed.
Lemma pure_refs b : pure (refs b).
Proof. intros h o. unfold refs. destruct (blk h b) as [k|]; [destruct (bk_live k), (bk_kind k)|]; try split; reflexivity. Qed.
Lemma pure_if {A} (c : bool) (m m' : M A) : pure m -> pure m' -> pure (if c then m else m'). Proof. destruct c; auto. Qed.
Section Pure.
Variable dbg : bool.
Lemma pure_assert c : pure (assertM dbg c). Proof. unfold assertM. destruct (dbg && negb c); [intros h o; exact Logic.I|apply pure_ret]. Qed.
Lemma pure_capacity : pure capacity.
Proof. unfold capacity. apply pure_bnd; [apply pure_this|]. intros o. repeat apply pure_if; try apply pure_ret; try apply pure_undef. apply pure_bnd; [apply pure_refs|intros; apply pure_ret]. Qed.
Lemma pure_size_m : pure size_m. Proof. unfold size_m. apply pure_bnd; [apply pure_this|intros; apply pure_ret]. Qed.
Lemma pure_check : pure (check_sane dbg).
Proof.
  unfold check_sane. apply pure_if; [|apply pure_ret]. apply pure_bnd; [apply pure_this|]. intros. apply pure_bnd; [apply pure_capacity|]. intros.
  apply pure_bnd; [apply pure_read|intros; apply pure_assert].
Qed.
Lemma pure_small_size : pure (small_size dbg).
Proof. unfold small_size. apply pure_bnd; [apply pure_this|]. intros. apply pure_bnd; [apply pure_assert|]. intros. apply pure_bnd; [apply pure_assert|]. intros. apply pure_ret. Qed.
End Pure.

(** Where one may write without touching the object's own words. *)
Definition away (p : ptr) (o : core) : Prop := heapy o = false \/ exists b k, p = PHeap b k.
Lemma away_stay p o o' : away p o -> stay o o' -> heapy o' = heapy o -> away p o'.
Proof. intros [H|H] S E; [left; congruence|right; exact H]. Qed.
Lemma quiet_write p l h o : away p o -> quiet (write p l) h o any.
Proof.
  intros A. unfold quiet, write. destruct p as [off|b off|x].
  - destruct A as [H|(b & k & E)]; [|discriminate]. destruct (_ && _); [|apply same_refl']. split; [apply same_refl'|]. split; [|exact Logic.I]. intros H'. congruence.
  - destruct (blk h b) as [k|] eqn:E; [destruct (in_blk k off (slen l))|]; try apply same_refl'.
    split; [|split; [apply stay_refl|exact Logic.I]]. split; [reflexivity|]. split; [reflexivity|]. split; [reflexivity|].
    intros b'. rewrite (blk_upd _ _ _ _ _ E). destruct (Z.eqb_spec b b') as [<-|]; [rewrite E|]; reflexivity.
  - apply same_refl'.
Qed.
Lemma quiet_fill p n c h o : away p o -> quiet (fill p n c) h o any.
Proof.
  intros A. unfold quiet, fill. match goal with |- context [if ?b then _ else _] => destruct b; [|apply same_refl'] end. apply quiet_write. exact A.
Qed.
Lemma quiet_pod_move p q n h o : away q o -> quiet (pod_move p q n) h o any.
Proof. intros A. unfold pod_move. apply quiet_skip; [apply pure_read|]. intros l. apply quiet_write. exact A. Qed.
Lemma quiet_pod_copy dbg p q n h o : away q o -> quiet (pod_copy dbg p q n) h o any.
Proof.
  intros A. unfold pod_copy. apply quiet_skip; [apply pure_assert|]. intros _. destruct (overlaps p q n); [apply same_refl'|]. apply quiet_skip; [apply pure_read|]. intros l. apply quiet_write. exact A.
Qed.
Lemma quiet_guarded {A} dbg (m : M A) h o (Q : A -> core -> Prop) : quiet m h o Q -> quiet (guarded dbg m) h o Q.
Proof.
  intros H. unfold guarded. apply quiet_skip; [apply pure_check|]. intros _. unfold quiet, bnd in *.
  destruct (m h o) as [a h1 o1|e h1 o1|h1| |h1]; try exact H; pose proof (pure_check dbg h1 o1) as X.
  - destruct H as (S & T & Qa). destruct (check_sane dbg h1 o1) as [a2 h2 o2|e2 h2 o2|h2| |h2]; cbn [ret]; try exact Logic.I; try (subst; exact S); destruct X as (-> & ->); auto.
  - destruct H as (S & T). destruct (check_sane dbg h1 o1) as [a2 h2 o2|e2 h2 o2|h2| |h2]; cbn [throw]; try exact Logic.I; try (subst; exact S); destruct X as (-> & ->); auto.
Qed.

Section S.
Variables (dbg arena : bool) (mal : nat -> Z -> bool) (ar N : Z).
Notation INV := (StrProofs2.Inv dbg arena mal ar N).

(** What the client finds when the string is not shared and has room. *)
Definition fits (h : heap) (o : core) (n : Z) : Prop :=
  is_shared h o = Ret false h o /\ (exists cap, capacity h o = Ret cap h o /\ n <= cap) /\ (sso_off dbg arena = false \/ heapy o = true).

Lemma expand_quiet h o l R delta eg : INV h ((o, l) :: R) -> 0 <= delta -> fits h o (slen l + delta) ->
  quiet (expand_noinit dbg arena mal delta eg) h o (fun p o' => away p o' /\ heapy o' = heapy o).
Proof.
  intros I Hd (SH & (cap & C & HC) & OFF). destruct (Inv_head _ _ _ _ _ _ _ _ _ I) as (RP & A). pose proof (rep_size _ _ _ RP) as SZ.
  pose proof (slen_nonneg l) as HL. unfold expand_noinit. eapply quiet_eq; [exact C|apply same_refl'|apply stay_refl|].
  eapply quiet_eq; [reflexivity|apply same_refl'|apply stay_refl|]. apply quiet_skip; [apply pure_assert|]. intros _. cbv zeta.
  destruct RP as [S|(k & cap0 & HR)].
  - pose proof (small_heapy _ _ S) as Hs. rewrite (small_cat _ Hs). cbn [is_small Z.eqb].
    rewrite (capacity_small _ _ Hs) in C. injection C as <-. destruct OFF as [OFF|OFF]; [|congruence]. rewrite OFF. cbn [negb andb].
    eapply quiet_eq; [apply small_size_ok; exact S|apply same_refl'|apply stay_refl|].
    rewrite add_small by lia. destruct (Z.leb_spec (slen l + delta) max_small); [|lia].
    eapply quiet_eq; [apply set_small_ok; lia|apply same_refl'|intros X; congruence|]. apply quiet_ret.
    assert (HN : heapy (set_unit (set_unit o max_small (max_small - (slen l + delta))) (slen l + delta) 0) = false).
    { unfold heapy. rewrite (cat_small _ (slen l + delta)); [reflexivity| |lia]. rewrite !byte_set by lia.
      destruct (Z.eqb_spec (slen l + delta) max_small), (Z.eqb_spec max_small max_small); lia. }
    split; [left; exact HN|congruence].
  - pose proof (heap_heapy _ _ _ _ _ HR) as Hh. pose proof (heap_bound _ _ _ _ _ HR) as Hb. pose proof (heap_cat _ _ _ _ _ HR) as CT.
    assert (CN : (category o =? is_small) = false) by (rewrite CT; destruct (bk_kind k); reflexivity). rewrite CN.
    eapply quiet_eq; [exact C|apply same_refl'|apply stay_refl|].
    assert (CS : c_size o = slen l) by (destruct HR as (_ & _ & _ & E & _); exact E). rewrite CS.
    assert (cap <= cap0). { rewrite (capacity_heap _ _ _ _ _ HR) in C. injection C as <-. destruct (bk_kind k); [lia|]. destruct (1 <? r); lia. }
    rewrite add_small by lia. destruct (Z.ltb_spec cap (slen l + delta)); [lia|].
    eapply quiet_eq; [reflexivity|apply same_refl'|apply stay_refl|].
    apply quiet_skip; [apply pure_capacity|]. intros c1. apply quiet_skip; [apply pure_assert|]. intros _.
    eapply quiet_eq; [reflexivity|apply same_refl'|apply stay_refl|]. apply quiet_skip; [apply pure_assert|]. intros _.
    eapply quiet_eq; [reflexivity|apply same_refl'|intros _; split; reflexivity|].
    eapply quiet_bnd; [apply quiet_write; right; eauto|]. intros _ h2 o2 _ T _. apply quiet_skip; [apply pure_this|]. intros o3.
    apply quiet_skip; [apply pure_assert|]. intros _. apply quiet_ret. split; [right; eauto|]. rewrite Hh. apply (stay_heapy _ _ T). exact Hh.
Qed.
Lemma push_back_quiet h o l R c : INV h ((o, l) :: R) -> fits h o (slen l + 1) -> quiet (push_back dbg arena mal c) h o any.
Proof.
  intros I F. unfold push_back. eapply quiet_bnd; [eapply expand_quiet; [exact I|lia|exact F]|]. intros p h' o' _ _ (A & _). apply quiet_write. exact A.
Qed.
Lemma append_quiet h o l R p n : INV h ((o, l) :: R) -> 0 <= n -> fits h o (slen l + n) -> quiet (append dbg arena mal p n) h o any.
Proof.
  intros I Hn F. unfold append. apply quiet_guarded. destruct (n =? 0); [apply quiet_ret; exact Logic.I|].
  eapply quiet_eq; [reflexivity|apply same_refl'|apply stay_refl|]. cbv zeta.
  eapply quiet_bnd; [eapply expand_quiet; [exact I|exact Hn|exact F]|]. intros q h' o' _ _ (A & _).
  eapply quiet_bnd with (Q1 := any).
  - destruct (points_into p (data o) (size o)).
    + apply quiet_skip; [apply pure_assert|]. intros _. eapply quiet_eq; [reflexivity|apply same_refl'|apply stay_refl|]. apply quiet_pod_move. exact A.
    + apply quiet_pod_copy. exact A.
  - intros _ h2 o2 _ _ _. apply quiet_skip; [apply pure_size_m|]. intros sz. eapply quiet_imp; [apply quiet_pure, pure_assert|]. intros. exact Logic.I.
Qed.
Lemma append_str_quiet h o l R p n : INV h ((o, l) :: R) -> 0 <= n -> fits h o (slen l + n) -> quiet (append_str dbg arena mal p n) h o any.
Proof.
  intros I Hn F. unfold append_str. apply quiet_skip; [apply pure_size_m|]. intros sz.
  eapply quiet_bnd; [eapply append_quiet; [exact I|exact Hn|exact F]|]. intros _ h2 o2 _ _ _. apply quiet_skip; [apply pure_size_m|]. intros sz1.
  eapply quiet_imp; [apply quiet_pure, pure_assert|]. intros. exact Logic.I.
Qed.
Lemma append_n_quiet h o l R n c : INV h ((o, l) :: R) -> 0 <= n -> fits h o (slen l + n) -> quiet (append_n dbg arena mal n c) h o any.
Proof.
  intros I Hn F. unfold append_n. apply quiet_guarded. eapply quiet_bnd; [eapply expand_quiet; [exact I|exact Hn|exact F]|].
  intros q h' o' _ _ (A & _). apply quiet_fill. exact A.
Qed.


(** ** Inserting a piece of the string itself *)
Lemma spec_quiet {A} (m : M A) h o Q E (Q' : A -> core -> Prop) : spec m h o Q E -> quiet m h o Q' ->
  spec m h o (fun a h' o' => Q a h' o' /\ same h h' /\ stay o o' /\ Q' a o') E.
Proof. unfold spec, quiet. destruct (m h o); auto. Qed.
Lemma unique_same h h' o o' : unique h o -> same h h' -> stay o o' -> heapy o' = heapy o -> unique h' o'.
Proof.
  intros U (_ & _ & _ & K) T E. destruct (heapy o) eqn:H; [|left; exact E]. destruct U as [U|(k & Bk & Kd)]; [congruence|right].
  destruct (T H) as (D & _). specialize (K (c_data o)). rewrite Bk in K. rewrite D. destruct (blk h' (c_data o)) as [k'|]; [|discriminate]. exists k'. split; [reflexivity|].
  cbn in K. injection K as K. rewrite K. exact Kd.
Qed.
Lemma data_stay o o' : stay o o' -> heapy o' = heapy o -> data o' = data o.
Proof.
  intros T E. destruct (heapy o) eqn:H.
  - rewrite (data_heap _ H), (data_heap _ E). destruct (T H) as (D & _). rewrite D. reflexivity.
  - rewrite (data_small _ H), (data_small _ E). reflexivity.
Qed.
Lemma insert_own_list (l u : list (option Z)) pos off n : 0 <= off <= pos -> pos <= slen l -> 0 <= n -> off + n <= slen l -> slen u = n ->
  piece off n (splice (pos + n) (slen l - pos) (piece pos (slen l - pos) l) (l ++ u)) = piece off n l.
Proof. intros. lists. Qed.
Lemma insert_at_own h o l R pos off n : INV h ((o, l) :: R) -> good l -> unique h o -> 0 <= off <= pos -> pos <= slen l -> 0 <= n -> off + n <= slen l ->
  fits h o (slen l + n) ->
  spec (insert_at dbg arena mal pos (ptr_add (data o) off) n) h o (fun _ h' o' => INV h' ((o', splice pos 0 (piece off n l) l) :: R)) (StrProofs3.Keep dbg arena mal ar N o l R).
Proof.
  intros I Gl U Ho Hp Hn Hl F. pose proof (len_ok _ _ _ _ _ _ _ _ _ I) as LO.
  unfold insert_at. eapply guard_keep; [exact I|]. apply spec_size. rewrite (size_ok _ _ _ _ _ _ _ _ _ I).
  apply spec_assert; [apply andb_true_intro; split; apply Z.leb_le; lia|].
  eapply spec_bnd; [apply spec_quiet; [eapply expand_spec; [exact I|lia|lia]|eapply expand_quiet; [exact I|lia|exact F]]|].
  intros q h' o' ((u & I' & Lu & _ & _) & SM & ST & _ & HE).
  pose proof (data_stay _ _ ST HE) as DE. pose proof (unique_same _ _ _ _ U SM ST HE) as U'.
  eapply begin_then; [exact I'|]. intros h2 o2 I2 U2 SE. destruct (SE U') as (-> & ->). clear SE.
  assert (RD : read (ptr_add (data o') pos) (slen l - pos) h' o' = Ret (piece pos (slen l - pos) l) h' o').
  { rewrite (own_read _ _ _ _ _ _ _ _ _ pos (slen l - pos) I2) by (slens; lia). f_equal. lists. }
  destruct (move_own _ _ _ _ _ h' o' (l ++ u) R (pos + n) _ _ _ I2 (or_introl U2) RD) as (h3 & o3 & W & I3 & D3 & _ & U3 & _);
    [slens; lia|apply good_piece; exact Gl|lia|slens; lia|].
  eapply spec_eq; [exact W|]. rewrite <- DE, <- !(data_eq o' o3 D3).
  pose proof (own_read _ _ _ _ _ _ _ _ _ off n I3 ltac:(lia) ltac:(lia) ltac:(slens; lia)) as RD3. rewrite insert_own_list in RD3 by lia.
  destruct (move_own _ _ _ _ _ h3 o3 _ R pos _ n _ I3 (or_introl (U3 U2)) RD3) as (h4 & o4 & W4 & I4 & _); [slens; lia|apply good_piece; exact Gl|lia|slens; lia|].
  eapply spec_ret_eq; [exact W4|]. cbv beta. rewrite insert_list in I4 by (slens; lia). exact I4.
Qed.
Lemma unique_shared h o l : rep h o l -> unique h o -> is_shared h o = Ret false h o.
Proof.
  intros RP U. unfold is_shared, bnd, this. destruct RP as [S|(k & cap & HR)].
  - rewrite (small_cat _ (small_heapy _ _ S)). reflexivity.
  - rewrite (heap_cat _ _ _ _ _ HR). pose proof (heap_heapy _ _ _ _ _ HR) as H. destruct HR as (Bk & L & _). destruct U as [U|(k' & Bk' & K)]; [congruence|].
    rewrite Bk in Bk'. injection Bk' as <-. destruct K as [K|K]; rewrite K; [reflexivity|]. cbn. unfold refs. rewrite Bk, L, K. reflexivity.
Qed.
(** In place, or with another holder of the block the piece is in. *)
Lemma insert_own_spec h o l R pos off n : INV h ((o, l) :: R) -> good l -> 0 <= off <= pos -> pos <= slen l -> 0 <= n -> off + n <= slen l ->
  (unique h o -> fits h o (slen l + n)) ->
  spec (insert dbg arena mal pos (ptr_add (data o) off) n) h o (fun _ h' o' => INV h' ((o', splice pos 0 (piece off n l) l) :: R)) (StrProofs6.Bad dbg arena mal ar N R).
Proof.
  intros I Gl Ho Hp Hn Hl F. pose proof (len_ok _ _ _ _ _ _ _ _ _ I) as LO.
  assert (AS : asrc o l R (ptr_add (data o) off) n (piece off n l)) by (eapply asrc_own; [exact I|lia|lia|lia]).
  destruct (asrc_pin _ _ _ _ _ _ _ _ _ _ _ _ I AS) as [U|(R' & S & I' & _ & C1 & C2)].
  - unfold insert. apply spec_size. rewrite (size_ok _ _ _ _ _ _ _ _ _ I). unfold enforce.
    replace (pos <=? slen l) with true by (symmetry; apply Z.leb_le; lia). apply spec_bret.
    eapply begin_then; [exact I|]. intros h' o' I' U' SE. destruct (SE U) as (-> & ->).
    eapply spec_bnd; [eapply spec_Keep_Bad; [exact Gl|eapply insert_at_own; try eassumption; auto]|]. intros a h2 o2 I2. apply spec_ret. exact I2.
  - eapply spec_imp; [eapply insert_spec; [exact I'|exact S|exact Gl|apply good_piece; exact Gl|lia|lia]| |].
    + intros a h' o' X. cbv beta in X. apply C1. exact X.
    + intros e h' o' (E1 & E2 & [(l' & G' & X)|(E3 & E4 & E5 & X)]); (split; [exact E1|]; split; [exact E2|]); [left; eauto|right; auto].
Qed.
(** Inserting nothing in front of an empty string. *)
Lemma insert_none h o : insert dbg arena mal 0 (PSelf 0) 0 h o = insert dbg arena mal 0 (PExt []) 0 h o.
Proof. destruct ChT; reflexivity. Qed.
Lemma insert_empty h o R p : INV h ((o, []) :: R) -> heapy o = false -> p = PSelf 0 ->
  spec (insert dbg arena mal 0 p 0) h o (fun _ h' o' => INV h' ((o', []) :: R)) (StrProofs6.Bad dbg arena mal ar N R).
Proof.
  intros I H ->. assert (S : src R (PExt []) 0 []) by (split; [lia|]; split; [reflexivity|]; split; [reflexivity|reflexivity]).
  pose proof (insert_spec dbg arena mal ar N h o [] R 0 (PExt []) 0 [] I S (good_nil) (good_nil)) as SP. change (splice 0 0 [] []) with (@nil (option Z)) in SP.
  assert (E : insert dbg arena mal 0 (PSelf 0) 0 h o = insert dbg arena mal 0 (PExt []) 0 h o) by apply insert_none.
  unfold spec in *. rewrite E. apply SP; [change (slen (@nil (option Z))) with 0; lia|lia].
Qed.
End S.
End Wide.
