(** Proofs about StrStreamModel. *)
Require Import ZArith List Bool Lia Permutation.
From Verif Require Import Base BaseProofs StrSpec StrModel StrStatements StrProofs StrProofs2 StrProofs3 StrProofs4 StrProofs5 StrProofs6 StrProofs7 StrProofs8 StrProofs9 StrProofs12 StrProofs13 StrProofs14 StrStreamSpec StrStreamModel StrStreamStatements.
Import ListNotations.
Open Scope Z_scope.


Section Wide.
Context {ChT : CharType}.

(** ** istream::getline *)
Definition scanned (l : list Z) (room d : Z) (s : list Z) (e : ending) (rest : list Z) : Prop :=
  ~ In d s /\ slen s <= room /\
  match e with
  | AtEof => l = s /\ rest = []
  | AtDelim => l = s ++ d :: rest
  | AtFull => l = s ++ rest /\ slen s = room /\ exists c r, rest = c :: r /\ c <> d
  end.
Lemma scan_ok : forall l room d s e rest, 0 <= room -> scan l room d = (s, e, rest) -> scanned l room d s e rest.
Proof.
  unfold scanned. induction l as [|c l IH]; cbn [scan]; intros room d s e rest R H.
  - injection H as <- <- <-. repeat split; auto.
  - destruct (Z.eqb_spec c d) as [->|N].
    + injection H as <- <- <-. repeat split; auto.
    + destruct (Z.leb_spec room 0).
      * injection H as <- <- <-. repeat split; auto; [rewrite slen_nil; lia|]. eauto.
      * destruct (scan l (room - 1) d) as ((s', e'), r') eqn:E. injection H as <- <- <-.
        destruct (IH (room - 1) d s' e' r' ltac:(lia) E) as (A & B & C). rewrite slen_cons. split; [intros [X|X]; auto|]. split; [lia|].
        destruct e'.
        -- destruct C as (-> & ->). auto.
        -- rewrite C. reflexivity.
        -- destruct C as (-> & L & X). split; [reflexivity|]. split; [lia|exact X].
Qed.

Section S.
Variables (dbg arena : bool) (mal : nat -> Z -> bool) (ar N : Z).
Notation Inv := (StrProofs2.Inv dbg arena mal ar N).
Notation Keep := (StrProofs3.Keep dbg arena mal ar N).
Notation Bad := (StrProofs6.Bad dbg arena mal ar N).
Notation expanded := (StrProofs5.expanded dbg arena mal ar N).

Lemma spec_and {A} (m : M A) h o (Q Q' : A -> heap -> core -> Prop) E :
  spec m h o Q E -> (forall a h' o', m h o = Ret a h' o' -> Q' a h' o') -> spec m h o (fun a h' o' => Q a h' o' /\ Q' a h' o') E.
Proof. unfold spec. destruct (m h o); auto. Qed.

(** Shrinking a string of its own needs no defined characters. *)
Lemma shrink_unique h o l R delta : Inv h ((o, l) :: R) -> unique h o -> 0 <= delta <= slen l ->
  spec (shrink dbg arena mal delta) h o (fun _ h' o' => Inv h' ((o', stake (slen l - delta) l) :: R)) (fun _ _ _ => False).
Proof.
  intros I U Hd.
  destruct (Inv_head _ _ _ _ _ _ _ _ _ I) as (RP & A). pose proof (rep_bound _ _ _ RP) as HB.
  unfold shrink. apply spec_this.
  destruct RP as [S|(k & cap & HR)].
  - pose proof (small_heapy _ _ S) as H. rewrite (small_cat _ H). cbn [is_small Z.eqb].
    pose proof S as (L & _ & _ & GS).
    eapply spec_eq; [apply small_size_ok; exact S|]. apply spec_assert; [apply Z.leb_le; lia|].
    rewrite sub_small by lia. eapply spec_ret_eq; [apply set_small_ok; lia|].
    assert (S' : small_rep (set_unit (set_unit o max_small (max_small - (slen l - delta))) (slen l - delta) 0) (stake (slen l - delta) l)).
    { apply small_rep_of; [lia|apply slen_stake; lia|]. intros i Hi. rewrite lget_stake by lia. apply GS. lia. }
    eapply Inv_small; try eassumption; [rewrite !set_unit_al; reflexivity|].
    intros EO. rewrite (i_off _ _ _ _ _ _ _ I EO o l (or_introl eq_refl) H). destruct (Z.to_nat (slen (@nil (option Z)) - delta)) eqn:E; unfold stake; rewrite E; reflexivity.
  - pose proof (heap_cat _ _ _ _ _ HR) as CT. pose proof (heap_bound _ _ _ _ _ HR) as HB'. pose proof HR as (B & LV & C1 & C2 & _).
    pose proof (unique_sole _ _ _ _ _ U HR) as SL.
    assert (SM : spec (shrink_medium dbg delta) h o (fun _ h' o' => Inv h' ((o', stake (slen l - delta) l) :: R)) (fun _ _ _ => False)).
    { unfold shrink_medium. apply spec_this. rewrite C2. apply spec_assert; [apply Z.leb_le; lia|].
      rewrite sub_small by lia. apply spec_put.
      destruct (set_len _ _ _ _ _ h o l R k cap (slen l - delta) I HR (or_introl SL) ltac:(lia)) as (h' & l' & k' & W & I' & HR' & K' & EL & GG & _).
      eapply spec_ret_eq; [exact W|]. rewrite <- (stake_eq l l' (slen l - delta)); [|lia|exact EL|intros i Hi; apply GG; lia]. exact I'. }
    rewrite CT. destruct SL as [K|K]; rewrite K; cbn [is_small is_medium is_large Z.eqb Pos.eqb]; [exact SM|].
    eapply spec_eq; [eapply refs_ok; eassumption|]. exact SM.
Qed.
Lemma resize_unique h o l R n : Inv h ((o, l) :: R) -> good l \/ unique h o -> 0 <= n <= slen l ->
  spec (resize dbg arena mal n 0) h o (fun _ h' o' => Inv h' ((o', stake n l) :: R)) (Bad R).
Proof.
  intros I G Hn. unfold resize. eapply guard_bad; [exact I|]. apply spec_size. rewrite (size_ok _ _ _ _ _ _ _ _ _ I).
  destruct (Z.leb_spec n (slen l)); [|lia].
  assert (SP : spec (shrink dbg arena mal (slen l - n)) h o (fun _ h' o' => Inv h' ((o', stake (slen l - (slen l - n)) l) :: R)) (Bad R)).
  { destruct G as [G|U].
    - eapply spec_Keep_Bad; [exact G|]. eapply spec_imp; [eapply shrink_spec; [exact I|exact G|lia]| |intros ? ? ? X; exact X]. intros a h' o' (I' & _). exact I'.
    - eapply spec_imp; [eapply shrink_unique; [exact I|exact U|lia]|intros ? ? ? X; exact X|]. intros e h' o' []. }
  eapply spec_bnd; [exact SP|]. intros a h' o' I'. cbv beta in I'.
  replace (slen l - (slen l - n)) with n in I' by lia. eapply size_end; [exact I'|apply slen_stake; lia|exact I'].
Qed.

(** ** capacity() across writing and growing to it *)
Lemma write_capacity p x h o h' o' c : write p x h o = Ret tt h' o' -> heapy o' = heapy o -> (forall i, p = PSelf i -> heapy o = false) ->
  capacity h o = Ret c h o -> capacity h' o' = Ret c h' o'.
Proof.
  intros W HY NP C. destruct p as [off|b off|]; cbn [write] in W.
  - specialize (NP _ eq_refl). rewrite capacity_small in C by exact NP. rewrite NP in HY.
    destruct ((0 <=? off) && (off + slen x <=? num_small)); [|discriminate]. injection W as <- <-. injection C as <-. apply capacity_small. exact HY.
  - destruct (blk h b) as [k|] eqn:B; [|discriminate]. destruct (in_blk k off (slen x)); [|discriminate]. injection W as <- <-.
    unfold capacity, bnd, this in *. destruct (category o =? is_small); [injection C as <-; reflexivity|]. destruct (category o =? is_large); [|destruct (category o =? is_medium); [injection C as <-; reflexivity|discriminate]].
    unfold refs in *. rewrite (blk_upd _ _ _ _ _ B). destruct (Z.eqb_spec b (c_data o)) as [E|].
    + rewrite <- E in C. rewrite B in C. cbn [set_chars bk_live bk_kind]. destruct (bk_live k); [|discriminate]. destruct (bk_kind k); [discriminate|]. injection C as <-. reflexivity.
    + destruct (blk h (c_data o)) as [k2|]; [|discriminate]. destruct (bk_live k2); [|discriminate]. destruct (bk_kind k2); [discriminate|]. injection C as <-. reflexivity.
  - discriminate.
Qed.
Lemma ptr_add_add p a b : 0 <= a -> 0 <= b -> ptr_add (ptr_add p a) b = ptr_add p (a + b).
Proof.
  intros A B. destruct p; cbn [ptr_add]; try (f_equal; lia). f_equal. unfold sdrop. rewrite Z2Nat.inj_add by assumption.
  rewrite Nat.add_comm. generalize (Z.to_nat a) (Z.to_nat b). clear. intros a b. revert a. induction l as [|x l IH]; intros [|a]; cbn [skipn]; try rewrite skipn_nil; try rewrite Nat.add_0_r; auto; try (destruct b; reflexivity).
  rewrite IH, <- plus_n_Sm. reflexivity.
Qed.
(** Writing the terminator once more. *)
Lemma write_term h o l R : Inv h ((o, l) :: R) ->
  exists h' o', write (ptr_add (data o) (slen l)) [Some 0] h o = Ret tt h' o' /\ Inv h' ((o', l) :: R) /\ heapy o' = heapy o /\ (unique h o -> unique h' o').
Proof.
  intros I. destruct (Inv_head _ _ _ _ _ _ _ _ _ I) as (RP & A). pose proof (slen_nonneg l) as L0. destruct RP as [S|(k & cap & HR)].
  - pose proof (small_heapy _ _ S) as H. rewrite (data_small _ H). cbn [ptr_add write Z.add]. pose proof S as (L & B & T & G).
    change (slen [Some 0]) with 1. destruct (Z.leb_spec 0 (slen l)), (Z.leb_spec (slen l + 1) num_small); try lia. cbn [andb].
    eexists h, _. split; [reflexivity|]. cbn [set_units].
    assert (S' : small_rep (set_unit o (slen l) 0) l).
    { split; [exact L|]. split; [|split].
      - rewrite byte_set by lia. destruct (Z.eqb_spec (slen l) max_small); [lia|exact B].
      - rewrite byte_set by lia. rewrite Z.eqb_refl. reflexivity.
      - intros i Hi. rewrite byte_set by lia. destruct (Z.eqb_spec (slen l) i); [lia|]. apply G. lia. }
    split; [|split].
    + eapply Inv_small; try eassumption; [rewrite set_unit_al; reflexivity|]. intros EO. exact (i_off _ _ _ _ _ _ _ I EO o l (or_introl eq_refl) H).
    + rewrite H. exact (small_heapy _ _ S').
    + intros _. left. exact (small_heapy _ _ S').
  - rewrite (data_heap _ (heap_heapy _ _ _ _ _ HR)). cbn [ptr_add Z.add].
    pose proof (heap_bound _ _ _ _ _ HR) as HB. pose proof HR as (B & LV & C1 & C2 & _).
    destruct (set_len _ _ _ _ _ h o l R k cap (slen l) I HR (or_intror eq_refl) ltac:(lia)) as (h' & l' & k' & W & I' & HR' & K' & EL & GG & _).
    assert (EO : set_size o (slen l) = o) by (rewrite <- C2; destruct o; reflexivity). rewrite EO in *.
    assert (El : l' = l) by (apply lext; [exact EL|intros i Hi; apply GG; lia]). subst l'.
    exists h', o. split; [exact W|]. split; [exact I'|]. split; [reflexivity|].
    intros U. eapply sole_unique; [exact HR'|]. pose proof (unique_sole _ _ _ _ _ U HR) as SL. destruct SL as [SL|SL]; [left|right]; congruence.
Qed.

Lemma capacity_inv h o c h1 o1 : capacity h o = Ret c h1 o1 -> h1 = h /\ o1 = o.
Proof.
  unfold capacity, bnd, this. destruct (category o =? is_small); [intros H; injection H; auto|].
  destruct (category o =? is_large); [|destruct (category o =? is_medium); [intros H; injection H; auto|discriminate]].
  unfold refs. destruct (blk h (c_data o)) as [k|]; [|discriminate]. destruct (bk_live k); [|discriminate]. destruct (bk_kind k); [discriminate|]. intros H; injection H; auto.
Qed.
Lemma capacity_resized h o c : capacity h o = Ret c h o -> heapy o = true -> capacity h (set_size o c) = Ret c h (set_size o c).
Proof.
  intros C H. unfold capacity, bnd, this in *. change (category (set_size o c)) with (category o) in *. change (ml_capacity (set_size o c)) with (ml_capacity o). change (c_data (set_size o c)) with (c_data o). change (c_size (set_size o c)) with c.
  unfold heapy in H. destruct (category o =? is_small); [discriminate|].
  destruct (category o =? is_large); [|destruct (category o =? is_medium); [injection C as <-; reflexivity|discriminate]].
  unfold refs in *. destruct (blk h (c_data o)) as [k|]; [|discriminate]. destruct (bk_live k); [|discriminate]. destruct (bk_kind k); [discriminate|].
  injection C as E. unfold ret. f_equal. destruct (1 <? r); [reflexivity|exact E].
Qed.
Ltac inv1 H := let a := fresh "a" in let h1 := fresh "h1" in let o1 := fresh "o1" in let X := fresh "X" in
  apply bnd_inv in H; destruct H as (a & h1 & o1 & X & H).
Lemma finish_cap h o c old p h' o' : heapy o = true -> capacity h o = Ret c h o ->
  (let* c1 := capacity in
   let* _ := assertM dbg (c <=? c1) in
   let* o1 := this in
   let* _ := assertM dbg ((category o1 =? is_medium) || (category o1 =? is_large)) in
   let* _ := put (set_size o1 c) in
   let* _ := write (PHeap (c_data o1) c) [Some 0] in
   let* o2 := this in
   let* _ := assertM dbg (size o2 =? c) in
   ret (PHeap (c_data o1) old)) h o = Ret p h' o' -> capacity h' o' = Ret c h' o'.
Proof.
  intros HY C H. inv1 H. destruct (capacity_inv _ _ _ _ _ X) as (-> & ->). inv1 H. apply assertM_inv in X0. destruct X0 as (-> & ->).
  inv1 H. apply this_inv in X0. destruct X0 as (-> & -> & ->). inv1 H. apply assertM_inv in X0. destruct X0 as (-> & ->).
  inv1 H. apply put_inv in X0. destruct X0 as (-> & ->). inv1 H. pose proof (write_heap_inv _ _ _ _ _ _ _ _ X0) as E. subst o1. destruct a3.
  inv1 H. apply this_inv in X1. destruct X1 as (-> & -> & ->). inv1 H. apply assertM_inv in X1. destruct X1 as (-> & ->). injection H as _ <- <-.
  eapply write_capacity; [exact X0|reflexivity|intros i E; discriminate|]. apply capacity_resized; assumption.
Qed.
Lemma reserve_small_cap n h o h' o' : heapy o = false -> sso_off dbg arena = true -> 0 <= n <= max_medium ->
  reserve_small dbg arena mal n h o = Ret tt h' o' -> heapy o' = true /\ capacity h' o' = Ret n h' o'.
Proof.
  intros H EO Hn E. unfold reserve_small in E. inv1 E. apply this_inv in X. destruct X as (-> & -> & ->). inv1 E. apply assertM_inv in X. destruct X as (-> & ->).
  rewrite EO in E. cbn [negb andb] in E. destruct (Z.leb_spec n max_medium); [|lia].
  inv1 E. inv1 E. inv1 E. inv1 E. apply this_inv in X2. destruct X2 as (-> & -> & ->). apply put_inv in E. destruct E as (-> & ->).
  set (q := set_size _ _). assert (HC : has_cap (set_capacity q ((1 + n) * csize / csize - 1) is_medium) n 128).
  { rewrite bytes_back. replace (1 + n - 1) with n by lia. apply set_capacity_ok; [lia|left; reflexivity]. }
  pose proof (cat_medium _ _ HC) as CT. split; [unfold heapy; rewrite CT; reflexivity|].
  unfold capacity, bnd, this. rewrite CT. cbn [is_small is_medium is_large Z.eqb Pos.eqb]. rewrite (ml_capacity_ok _ _ _ HC (or_introl eq_refl)). reflexivity.
Qed.
Lemma expand_cap h o l R c p h' o' : Inv h ((o, l) :: R) -> capacity h o = Ret c h o -> slen l <= c < 2 * limit ->
  expand_noinit dbg arena mal (c - slen l) false h o = Ret p h' o' -> capacity h' o' = Ret c h' o'.
Proof.
  intros I C Hc E. destruct (Inv_head _ _ _ _ _ _ _ _ _ I) as (RP & A). pose proof (slen_nonneg l) as L0.
  unfold expand_noinit in E. inv1 E. rewrite C in X. injection X as <- <- <-. inv1 E. apply this_inv in X. destruct X as (-> & -> & ->). inv1 E. apply assertM_inv in X. destruct X as (-> & ->).
  cbv zeta in E. destruct RP as [S|(k & cap & HR)].
  - pose proof (small_heapy _ _ S) as H. rewrite (small_cat _ H) in E. cbn [is_small Z.eqb] in E.
    rewrite capacity_small in C by exact H. injection C as <-.
    inv1 E. rewrite (small_size_ok _ _ _ _ S) in X. injection X as <- <- <-. rewrite add_small in E by lia. replace (slen l + (max_small - slen l)) with max_small in E by lia.
    rewrite Z.leb_refl in E. destruct (sso_off dbg arena) eqn:EO; cbn [negb andb] in E.
    + inv1 E. destruct a0. destruct (reserve_small_cap (@max_small ChT) h o h1 o1 H EO ltac:(lia) X) as (H1 & C1). eapply finish_cap; eassumption.
    + inv1 E. apply set_small_inv in X. injection E as _ <- <-. apply capacity_small. unfold heapy. rewrite X. reflexivity.
  - pose proof (heap_cat _ _ _ _ _ HR) as CT. pose proof (heap_bound _ _ _ _ _ HR) as HB. pose proof HR as (B & LV & C1 & C2 & _).
    rewrite CT in E. replace ((match bk_kind k with Plain => 128 | Counted _ => 64 end) =? is_small) with false in E by (destruct (bk_kind k); reflexivity).
    rewrite C2 in E. rewrite add_small in E by lia. replace (slen l + (c - slen l)) with c in E by lia.
    inv1 E. rewrite C in X. injection X as <- <- <-. destruct (Z.ltb_spec c c); [lia|]. inv1 E. injection X as <- <- <-.
    eapply finish_cap; [exact (heap_heapy _ _ _ _ _ HR)|exact C|exact E].
Qed.
Lemma expand_exact h o l R c : Inv h ((o, l) :: R) -> capacity h o = Ret c h o -> slen l <= c < 2 * limit ->
  spec (expand_noinit dbg arena mal (c - slen l) false) h o
    (fun p h' o' => expanded l R (c - slen l) p h' o' /\ capacity h' o' = Ret c h' o') (Keep o l R).
Proof.
  intros I C Hc. eapply spec_and; [eapply expand_spec; [exact I|lia|lia]|]. intros p h' o' E. eapply expand_cap; eassumption.
Qed.
Lemma capacity_small_bound h o l c : rep h o l -> capacity h o = Ret c h o -> c < limit.
Proof.
  intros [S|(k & cap & HR)] C.
  - rewrite capacity_small in C by exact (small_heapy _ _ S). injection C as <-. lia.
  - rewrite (capacity_heap _ _ _ _ _ HR) in C. injection C as <-. pose proof (heap_bound _ _ _ _ _ HR). destruct (bk_kind k) as [|r]; [lia|]. destruct (1 <? r); lia.
Qed.

(** ** The loop *)
Definition line_end (d : Z) (st : stream) (line : list Z) (st' : stream) : Prop :=
  exists rest ended, is_line d (inp st) line rest ended /\
    st' = Stream rest ended (match inp st with [] => true | _ => false end) false (width st).
Definition expanded_l (l : list Z) : list (option Z) := map Some l.
Lemma data_self o i j : ptr_add (data o) j = PSelf i -> heapy o = false.
Proof. unfold data, heapy. destruct (category o =? is_small); [reflexivity|discriminate]. Qed.

Lemma loop_spec d R : forall (fuel : nat) h o l st,
  Inv h ((o, map Some l) :: R) -> Forall is_char l -> good_stream st = true -> Forall is_char (inp st) -> is_char d ->
  ((length (inp st) < fuel)%nat /\ (exists c, capacity h o = Ret c h o /\ slen l < c) \/ (S (length (inp st)) < fuel)%nat) ->
  spec (getline_loop dbg arena mal fuel d (slen l) st) h o
    (fun st' h' o' => exists line, line_end d st line st' /\ Inv h' ((o', map Some (l ++ line)) :: R)) (Bad R).
Proof.
  induction fuel as [|fuel IH]; intros h o l st I Bl GS Bi Bd F; [exfalso; destruct F as [(F & _)|F]; lia|].
  destruct (Inv_head _ _ _ _ _ _ _ _ _ I) as (RP & A). destruct (capacity_ok _ _ _ RP) as (c & C & HC). pose proof (capacity_small_bound _ _ _ _ RP C) as HC2.
  assert (SL : slen (map Some l) = slen l) by (unfold slen; rewrite map_length; reflexivity). rewrite SL in HC. pose proof (slen_nonneg l) as L0.
  assert (GL : good (map Some l)) by (apply good_map; exact Bl).
  cbn [getline_loop]. eapply spec_eq; [exact C|]. cbv zeta. rewrite sub_small by lia.
  eapply spec_bnd; [eapply spec_Keep_Bad; [exact GL|]; rewrite <- SL; eapply expand_exact; [exact I|exact C|lia]|]. rewrite SL.
  intros p h1 o1 ((u & I1 & Lu & -> & U) & C1).
  unfold is_getline. rewrite GS. destruct (scan (inp st) (c - slen l) d) as ((s, e), rest) eqn:ES. apply scan_ok in ES; [|lia]. destruct ES as (ND & LE & SC).
  assert (Ss : slen (map Some s) = slen s) by (unfold slen; rewrite map_length; reflexivity). pose proof (slen_nonneg s) as S0.
  assert (Bs : Forall is_char s /\ Forall is_char rest).
  { destruct e; [destruct SC as (E & ->)|rename SC into E|destruct SC as (E & _)]; rewrite E in Bi.
    - split; [exact Bi|constructor].
    - apply Forall_app in Bi. destruct Bi as (X & Y). split; [exact X|]. inversion Y; assumption.
    - apply Forall_app in Bi. exact Bi. }
  destruct Bs as (Bs & Br).
  destruct (write_own _ _ _ _ _ h1 o1 _ R (slen (map Some l)) (map Some s) I1) as (h2 & o2 & W2 & I2 & D2 & H2 & U2 & _).
  { destruct (Z.eq_dec (c - slen l) 0); [right|left; apply U; lia]. destruct s; [reflexivity|]. rewrite slen_cons in LE. pose proof (slen_nonneg s). lia. }
  { apply good_map. exact Bs. }
  { lia. }
  { rewrite slen_app. lia. }
  rewrite SL in W2. rewrite SL. eapply spec_eq; [exact W2|].
  pose proof (write_capacity _ _ _ _ _ _ _ W2 H2 (fun i E => data_self _ _ _ E) C1) as C2.
  assert (E2 : splice (slen (map Some l)) (slen (map Some s)) (map Some s) (map Some l ++ u) = map Some (l ++ s) ++ sdrop (slen s) u).
  { rewrite map_app. unfold splice. rewrite Ss. rewrite <- app_assoc. f_equal; [|f_equal].
    - unfold stake. rewrite firstn_app. unfold slen. rewrite Nat2Z.id, Nat.sub_diag, firstn_all. cbn [firstn]. apply app_nil_r.
    - unfold sdrop. rewrite skipn_app. unfold slen. rewrite skipn_all2 by lia. cbn [app]. f_equal. lia. }
  rewrite E2 in I2.
  assert (L2 : slen (map Some (l ++ s) ++ sdrop (slen s) u) = slen l + (c - slen l)).
  { rewrite slen_app. unfold slen at 1. rewrite map_length, app_length, Nat2Z.inj_add. fold (slen l) (slen s). rewrite slen_sdrop by lia. lia. }
  rewrite ptr_add_add by lia. rewrite <- D2.
  assert (W3 : exists h3 o3 u3, write (ptr_add (data o2) (slen l + slen s)) [Some 0] h2 o2 = Ret tt h3 o3 /\ Inv h3 ((o3, map Some (l ++ s) ++ u3) :: R) /\ slen u3 = c - slen l - slen s /\
     heapy o3 = heapy o2 /\ (unique h2 o2 -> unique h3 o3)).
  { destruct (Z.eq_dec (slen s) (c - slen l)).
    - destruct (write_term _ _ _ _ I2) as (h3 & o3 & W3 & I3 & H3 & U3). rewrite L2 in W3. exists h3, o3, (sdrop (slen s) u).
      replace (slen l + slen s) with (slen l + (c - slen l)) by lia. split; [exact W3|]. split; [exact I3|]. split; [rewrite slen_sdrop; lia|]. split; [exact H3|exact U3].
    - destruct (write_own _ _ _ _ _ h2 o2 _ R (slen l + slen s) [Some 0] I2) as (h3 & o3 & W3 & I3 & _ & H3 & U3 & _).
      + left. apply U2. apply U. lia.
      + constructor; [exists 0; unfold is_char; split; [reflexivity|lia]|constructor].
      + lia.
      + rewrite L2. change (slen [Some 0]) with 1. lia.
      + exists h3, o3, (Some 0 :: sdrop (slen s + 1) u). split; [exact W3|]. split; [|split; [|auto]].
        * replace (map Some (l ++ s) ++ Some 0 :: sdrop (slen s + 1) u) with (splice (slen l + slen s) (slen [Some 0]) [Some 0] (map Some (l ++ s) ++ sdrop (slen s) u)); [exact I3|].
          assert (LN : Z.to_nat (slen l + slen s) = length (map Some (l ++ s))) by (unfold slen; rewrite map_length, app_length; lia).
          unfold splice. change (slen [Some 0]) with 1. f_equal; [|change (Some 0 :: sdrop (slen s + 1) u) with ([Some 0] ++ sdrop (slen s + 1) u); f_equal].
          -- unfold stake. rewrite LN, firstn_app, Nat.sub_diag, firstn_all. cbn [firstn]. apply app_nil_r.
          -- unfold sdrop. rewrite skipn_app. rewrite skipn_all2 by lia. cbn [app]. rewrite <- LN.
             replace (Z.to_nat (slen l + slen s + 1) - Z.to_nat (slen l + slen s))%nat with 1%nat by lia.
             replace (Z.to_nat (slen s + 1)) with (S (Z.to_nat (slen s))) by lia. generalize (Z.to_nat (slen s)). clear. intros n. revert u. induction n; intros u; [destruct u; reflexivity|]. destruct u; [reflexivity|]. exact (IHn u).
        * rewrite slen_cons, slen_sdrop by lia. lia. }
  destruct W3 as (h3 & o3 & u3 & W3 & I3 & Lu3 & H3 & U3). eapply spec_eq; [exact W3|].
  pose proof (write_capacity _ _ _ _ _ _ _ W3 H3 (fun i E => data_self _ _ _ E) C2) as C3.
  assert (SLS : slen (map Some (l ++ s)) = slen l + slen s) by (unfold slen; rewrite map_length, app_length; lia).
  assert (RZ : forall st1, line_end d st s st1 ->
    spec (let* _ := resize dbg arena mal (slen l + slen s) 0 in ret st1) h3 o3
      (fun st' h' o' => exists line, line_end d st line st' /\ Inv h' ((o', map Some (l ++ line)) :: R)) (Bad R)).
  { intros st1 LN. assert (GU : good (map Some (l ++ s) ++ u3) \/ unique h3 o3).
    { destruct (Z.eq_dec (c - slen l) 0).
      - left. assert (u3 = []) as -> by (apply slen_0; pose proof (slen_nonneg u3); lia). rewrite app_nil_r. apply good_map. apply Forall_app. auto.
      - right. apply U3, U2, U. lia. }
    assert (SP : spec (resize dbg arena mal (slen l + slen s) 0) h3 o3 (fun _ h' o' => Inv h' ((o', map Some (l ++ s)) :: R)) (Bad R)).
    { eapply spec_imp; [eapply resize_unique; [exact I3|exact GU|rewrite slen_app; lia]| |intros ? ? ? X; exact X]. intros a h4 o4 I4. cbv beta in I4.
      replace (stake (slen l + slen s) (map Some (l ++ s) ++ u3)) with (map Some (l ++ s)) in I4; [exact I4|]. rewrite <- SLS. unfold stake, slen. rewrite Nat2Z.id, firstn_app, Nat.sub_diag, firstn_all. cbn [firstn]. symmetry. apply app_nil_r. }
    eapply spec_bnd; [exact SP|]. intros a h4 o4 I4. apply spec_ret. exists s. auto. }
  destruct e.
  - destruct SC as (Ei & ->). cbn [is_getline]. cbv beta iota zeta. cbn [setstate rest_of badbit eofbit failbit].
    unfold good_stream in GS. destruct (eofbit st) eqn:F1, (failbit st) eqn:F2, (badbit st) eqn:F3; try discriminate GS. cbn [orb negb andb].
    rewrite add_small by lia. apply RZ. exists [], true. split; [split; [exact ND|auto]|]. unfold setstate, rest_of. cbn [inp eofbit failbit badbit width]. rewrite F1, F2, F3. cbn [orb]. f_equal.
    rewrite Ei. destruct s; [reflexivity|]. rewrite slen_cons. pose proof (slen_nonneg s). apply Z.eqb_neq. lia.
  - cbv beta iota zeta. cbn [setstate rest_of badbit eofbit failbit].
    unfold good_stream in GS. destruct (eofbit st) eqn:F1, (failbit st) eqn:F2, (badbit st) eqn:F3; try discriminate GS. cbn [orb negb andb].
    destruct (Z.eqb_spec (slen s + 1) 0) as [X|_]; [lia|]. cbn [orb negb].
    rewrite add_small by lia. rewrite sub_small by lia. replace (slen l + (slen s + 1) - 1) with (slen l + slen s) by lia. apply RZ.
    exists rest, false. split; [split; [exact ND|exact SC]|]. unfold setstate, rest_of. cbn [inp eofbit failbit badbit width]. rewrite F1, F2, F3. cbn [orb]. f_equal. rewrite SC. destruct s; reflexivity.
  - destruct SC as (Ei & LS & c0 & r0 & Er & Nd). cbv beta iota zeta. cbn [setstate rest_of badbit eofbit failbit].
    unfold good_stream in GS. destruct (eofbit st) eqn:F1, (failbit st) eqn:F2, (badbit st) eqn:F3; try discriminate GS. cbn [orb negb andb].
    rewrite add_small by lia. apply spec_size. rewrite (size_ok _ _ _ _ _ _ _ _ _ I3).
    assert (u3 = []) as -> by (apply slen_0; pose proof (slen_nonneg u3); lia). rewrite app_nil_r in I3. rewrite app_nil_r, SLS.
    apply spec_assert; [apply Z.eqb_eq; lia|]. eapply spec_eq; [exact C3|]. apply spec_assert; [apply Z.eqb_eq; lia|].
    rewrite mul64_small by (unfold M64; lia).
    assert (G3 : good (map Some (l ++ s))) by (apply good_map; apply Forall_app; auto).
    assert (Q3 : 3 * (slen l + slen s) / 2 < 2 * limit /\ (slen l + slen s) <= 3 * (slen l + slen s) / 2 /\ (63 <= slen l + slen s -> slen l + slen s < 3 * (slen l + slen s) / 2)) by (repeat split; intros; Z.to_euclidean_division_equations; lia).
    eapply spec_bnd; [eapply spec_Keep_Bad; [exact G3|]; eapply reserve_spec; [exact I3|lia]|]. intros a h4 o4 (RD & _).
    assert (I4 : Inv h4 ((o4, map Some (l ++ s)) :: R)) by (destruct RD as [(X & _)|(X & _)]; exact X).
    assert (C4 : exists c4, capacity h4 o4 = Ret c4 h4 o4 /\ slen l + slen s < c4).
    { destruct RD as [X|(_ & _ & X & _)]; [|lia]. destruct (grown_capacity _ _ _ _ _ _ _ _ _ _ X) as (c4 & X1 & X2). exists c4. split; [exact X1|lia]. }
    assert (SS : slen (l ++ s) = slen l + slen s) by apply slen_app. rewrite <- SS.
    eapply spec_imp; [apply (IH h4 o4 (l ++ s) (clear_state (setstate (rest_of st rest) false true)))| |intros ? ? ? X; exact X].
    + exact I4.
    + apply Forall_app; auto.
    + reflexivity.
    + exact Br.
    + exact Bd.
    + left. split; [|rewrite SS; exact C4]. cbn [clear_state setstate rest_of inp].
      assert (LL : length (inp st) = (length s + length rest)%nat) by (rewrite Ei; apply app_length).
      destruct F as [(F & c9 & X & Y)|F]; [|lia]. rewrite C in X. injection X as <-. unfold slen in LS, Y. unfold slen in LS. lia.
    + intros st' h' o' (line & (rest' & ended & IL & ->) & I'). cbn [clear_state setstate rest_of inp width] in *. exists (s ++ line). split; [|rewrite app_assoc; exact I'].
      exists rest', ended. split.
      * destruct IL as (ND' & IL). split; [intros X; apply in_app_or in X; destruct X; auto|]. rewrite Ei. destruct ended; [destruct IL as (-> & ->)|rewrite IL, <- app_assoc]; auto.
      * f_equal. rewrite Er, Ei, Er. destruct s; reflexivity.
Qed.

Lemma getline_spec d R h o l st : Inv h ((o, map Some l) :: R) -> Forall is_char l -> good_stream st = true -> Forall is_char (inp st) -> is_char d ->
  spec (getline dbg arena mal d st) h o
    (fun st' h' o' => exists line, line_end d st line st' /\ Inv h' ((o', map Some line) :: R)) (Bad R).
Proof.
  intros I Bl GS Bi Bd. destruct (Inv_head _ _ _ _ _ _ _ _ _ I) as (RP & _). unfold getline.
  eapply spec_guarded; [exact RP| |intros a h' o' (x & _ & I'); eapply Inv_settled; exact I'|intros e h' o' X; eapply Bad_settled; exact X].
  assert (GL : good (map Some l)) by (apply good_map; exact Bl).
  eapply spec_bnd; [eapply resize_unique; [exact I|left; exact GL|pose proof (slen_nonneg (map Some l)); lia]|].
  intros a h1 o1 I1. cbv beta in I1. change (stake 0 (map Some l)) with (map (@Some Z) []) in I1.
  change 0 with (slen (@nil Z)) at 1.
  eapply spec_imp; [eapply loop_spec; [exact I1|constructor|exact GS|exact Bi|exact Bd|right; lia]| |intros ? ? ? X; exact X].
  intros st' h' o' (line & LN & I'). exists line. auto.
Qed.

(** ** operator>> *)
Lemma isspace_white c : isspace c = true <-> white c.
Proof. unfold isspace, white. rewrite orb_true_iff, andb_true_iff, Z.eqb_eq, !Z.leb_le. reflexivity. Qed.
Lemma skip_blanks_ok l : exists b, l = b ++ skip_blanks l /\ Forall white b /\ (forall c r, skip_blanks l = c :: r -> ~ white c).
Proof.
  induction l as [|c l (b & E & W & NB)]; [exists []; repeat split; auto; discriminate|]. cbn [skip_blanks]. destruct (isspace c) eqn:S.
  - exists (c :: b). split; [cbn [app]; f_equal; exact E|]. split; [constructor; [apply isspace_white; exact S|exact W]|exact NB].
  - exists []. split; [reflexivity|]. split; [constructor|]. intros c' r X Y. injection X as -> ->. apply isspace_white in Y. congruence.
Qed.
Lemma extract_loop_spec R : forall l h o w n, Inv h ((o, map Some w) :: R) -> Forall is_char w -> Forall is_char l -> 0 <= n ->
  spec (extract_loop dbg arena mal l n (slen w)) h o
    (fun r h' o' => exists w2, l = w2 ++ snd (fst r) /\ Forall (fun c => ~ white c) w2 /\ slen w2 <= n /\ Inv h' ((o', map Some (w ++ w2)) :: R) /\
       fst (fst r) = slen w + slen w2 /\
       (if snd r then snd (fst r) = [] /\ slen w2 < n else slen w2 = n \/ exists c t, snd (fst r) = c :: t /\ white c)) (Bad R).
Proof.
  induction l as [|c l IH]; intros h o w n I Bw Bl Hn; cbn [extract_loop].
  - destruct (Z.eqb_spec n 0) as [E|E]; apply spec_ret; cbn [fst snd]; exists []; rewrite (app_nil_r w), slen_nil; (split; [reflexivity|]); (split; [exact (Forall_nil _)|]); (split; [lia|]); (split; [exact I|]); (split; [lia|]); first [left; lia|split; [reflexivity|lia]].
  - destruct (Z.eqb_spec n 0) as [E|E].
    + apply spec_ret; cbn [fst snd]; exists []; rewrite (app_nil_r w), slen_nil; (split; [reflexivity|]); (split; [exact (Forall_nil _)|]); (split; [lia|]); (split; [exact I|]); (split; [lia|]); first [left; lia|split; [reflexivity|lia]].
    + destruct (isspace c) eqn:SP.
      * apply spec_ret; cbn [fst snd]; exists []; rewrite (app_nil_r w), slen_nil; (split; [reflexivity|]); (split; [exact (Forall_nil _)|]); (split; [lia|]); (split; [exact I|]); (split; [lia|]). right. exists c, l. split; [reflexivity|]. apply isspace_white. exact SP.
      * inversion Bl as [|? ? Bc Bl']; subst. eapply spec_bnd; [eapply spec_Keep_Bad; [apply good_map; exact Bw|]; eapply push_back_spec; [exact I|exact Bc]|].
        intros a h1 o1 I1. cbv beta in I1. replace (map Some w ++ [Some c]) with (map Some (w ++ [c])) in I1 by (rewrite map_app; reflexivity).
        replace (slen w + 1) with (slen (w ++ [c])) by (rewrite slen_app; reflexivity).
        eapply spec_imp; [apply (IH h1 o1 (w ++ [c]) (n - 1) I1)| |intros ? ? ? X; exact X].
        -- apply Forall_app. split; [exact Bw|]. constructor; [exact Bc|constructor].
        -- exact Bl'.
        -- lia.
        -- intros ((x & l') & e) h' o' (w2 & E1 & NW & L2 & I2 & EX & EE). cbn [fst snd] in *. exists (c :: w2). rewrite slen_cons. split; [cbn [app]; f_equal; exact E1|].
           split; [constructor; [intros X; apply isspace_white in X; congruence|exact NW]|]. split; [lia|]. split; [rewrite <- app_assoc in I2; exact I2|].
           split; [rewrite EX, slen_app; change (slen [c]) with 1; lia|]. destruct e; [destruct EE; split; [assumption|lia]|]. destruct EE as [EE|EE]; [left; lia|right; exact EE].
Qed.
(** The width asked for. *)
Definition asked (st : stream) : option Z := if width st <=? 0 then None else Some (width st).
Definition word_end (st : stream) (l : list Z) (st' : stream) (v : list Z) : Prop :=
  (Forall white (inp st) /\ v = l /\ st' = Stream [] true true false (width st)) \/
  exists b rest, is_word (asked st) (inp st) b v rest /\
    st' = (if match rest with [] => negb (slen v =? width st) | _ => false end then Stream [] true false false 0 else Stream rest false false false (width st)).
Lemma extract_spec R h o l st : Inv h ((o, map Some l) :: R) -> Forall is_char l -> stream_ok st ->
  spec (extract dbg arena mal st) h o
    (fun st' h' o' => exists v, word_end st l st' v /\ Forall is_char v /\ Inv h' ((o', map Some v) :: R)) (Bad R).
Proof.
  intros I Bl (F1 & F2 & F3 & Bi & Hw). unfold extract, sentry, good_stream. rewrite F1, F2, F3. cbn [orb negb].
  destruct (skip_blanks_ok (inp st)) as (b & Eb & Wb & NW). destruct (skip_blanks (inp st)) as [|c r] eqn:ES.
  - apply spec_ret. exists l. split; [|auto]. left. rewrite app_nil_r in Eb. rewrite Eb. split; [exact Wb|]. split; [reflexivity|].
    unfold setstate, rest_of. cbn [inp eofbit failbit badbit width]. rewrite F1, F2, F3. reflexivity.
  - specialize (NW c r eq_refl). set (n := if width (rest_of st (c :: r)) <=? 0 then M64 - 1 else width (rest_of st (c :: r))). change (width (rest_of st (c :: r))) with (width st) in n.
    assert (Bb : Forall is_char (c :: r)) by (rewrite Eb in Bi; apply Forall_app in Bi; apply Bi).
    assert (Hn : 1 <= n /\ (n <> width st -> n = M64 - 1 /\ asked st = None) /\ (n = width st -> asked st = Some n)).
    { unfold n, asked. destruct (Z.leb_spec (width st) 0); unfold M64; repeat split; auto; try lia; intros; try lia; congruence. }
    assert (GL : good (map Some l)) by (apply good_map; exact Bl).
    eapply spec_bnd; [eapply erase_spec; [exact I|exact GL|pose proof (slen_nonneg (map Some l)); lia|unfold M64; lia]|].
    intros a h1 o1 I1. cbv beta in I1. pose proof (len_ok _ _ _ _ _ _ _ _ _ I) as LO.
    replace (splice 0 (M64 - 1) [] (map Some l)) with (map (@Some Z) []) in I1.
    2:{ unfold splice, stake, sdrop. cbn [Z.to_nat firstn app]. rewrite skipn_all2; [reflexivity|]. unfold slen in LO. unfold M64. lia. }
    change 0 with (slen (@nil Z)) at 1. eapply spec_bnd; [eapply extract_loop_spec; [exact I1|constructor|exact Bb|lia]|].
    intros ((x & l') & e) h' o' (w2 & E1 & NW2 & L2 & I2 & EX & EE). cbn [fst snd app] in *. change (inp (rest_of st (c :: r))) with (c :: r) in E1.
    apply spec_ret. pose proof (len_ok _ _ _ _ _ _ _ _ _ I2) as LO2. assert (SL : slen (map Some w2) = slen w2) by (unfold slen; rewrite map_length; reflexivity). rewrite SL in LO2.
    assert (NE : w2 <> []).
    { intros ->. rewrite slen_nil in *. cbn [app] in E1. destruct e; [destruct EE as (-> & _); discriminate|]. destruct EE as [EE|(c' & t & -> & WC)]; [lia|]. injection E1 as -> _. contradiction. }
    exists w2. split; [|split; [|exact I2]].
    2:{ rewrite E1 in Bb. apply Forall_app in Bb. apply Bb. }
    right. exists b, l'. split.
    + split; [rewrite Eb, E1; reflexivity|]. split; [exact Wb|]. split; [exact NW2|]. split; [exact NE|].
      destruct (Z.eq_dec n (width st)) as [Ew|Ew].
      * destruct Hn as (_ & _ & Hn). rewrite (Hn Ew). fold (slen w2). split; [exact L2|]. destruct e; [left; apply EE|]. destruct EE as [EE|EE]; [right; right; rewrite EE; reflexivity|right; left; exact EE].
      * destruct Hn as (_ & Hn & _). destruct (Hn Ew) as (E9 & ->). split; [exact Logic.I|]. destruct e; [left; apply EE|]. destruct EE as [EE|EE]; [exfalso; unfold M64 in E9; lia|right; left; exact EE].
    + rewrite slen_nil in EX. assert (EZ : (x =? 0) = false) by (apply Z.eqb_neq; destruct w2; [congruence|]; rewrite slen_cons in EX; pose proof (slen_nonneg w2); lia). rewrite EZ.
      unfold setstate, rest_of. cbn [inp eofbit failbit badbit width]. rewrite F1, F2, F3. cbn [orb].
      destruct e.
      * destruct EE as (-> & EE). destruct (Z.eqb_spec (slen w2) (width st)) as [X|X]; cbn [negb]; [|reflexivity].
        exfalso. unfold n in EE. destruct (Z.leb_spec (width st) 0); [|lia]. destruct w2; [congruence|]. rewrite slen_cons in X. pose proof (slen_nonneg w2). lia.
      * destruct l' as [|c' t]; [|reflexivity]. destruct EE as [EE|(? & ? & X & _)]; [|discriminate]. destruct (Z.eqb_spec (slen w2) (width st)) as [X|X]; [reflexivity|].
        exfalso. unfold n in EE. destruct (Z.leb_spec (width st) 0); [unfold M64 in EE; lia|lia].
Qed.
End S.

(** ** On the objects of a history *)
Section R.
Variables (dbg arena : bool) (mal : nat -> Z -> bool) (ar : Z).
Hypotheses (MS : mal_sane mal) (AO : ar_ok dbg arena ar).
Notation reach := (StrStatements.reach dbg arena mal ar).
Notation cleaned s := {| s_heap := clean (s_heap s); s_objs := s_objs s |}.

Lemma on_stream_gives n s ss i l m (P : stream -> list Z -> Prop) : reach n s -> short n -> sees s ss -> sget ss i = Some l ->
  (forall R h c, StrProofs2.Inv dbg arena mal ar (Z.of_nat n + 1) h ((c, map Some l) :: R) -> Forall is_char l ->
     spec m h c (fun st h' c' => exists v, P st v /\ Forall is_char v /\ StrProofs2.Inv dbg arena mal ar (Z.of_nat n + 1) h' ((c', map Some v) :: R)) (Bad dbg arena mal ar (Z.of_nat n + 1) R)) ->
  stream_gives ss i P (on_stream (cleaned s) i m).
Proof.
  intros H SH SE El HS. pose proof (world_of dbg arena mal ar MS AO n s ss H SH SE) as Ws. pose proof (World_clean _ _ _ _ _ _ _ _ Ws) as Wc.
  destruct (alike_obj _ _ _ _ (w_alike _ _ _ _ _ _ _ _ Ws) El) as (c & Ec). destruct Wc as [I A B].
  destruct (focus _ _ i c l A Ec El) as (R & P1 & P2 & _). unfold on_stream. cbn [s_objs s_heap]. rewrite Ec.
  specialize (HS R (clean (s_heap s)) c (Inv_perm _ _ _ _ _ _ _ _ P1 I) (B _ _ El)). unfold spec in HS.
  destruct (m (clean (s_heap s)) c) as [a h' c'|e h' c'|h'| |h']; cbn [stream_gives s_heap]; try exact HS.
  - destruct HS as (v & PV & Bv & I'). exists v. split; [exact PV|]. eapply World_sees. constructor; cbn [s_heap s_objs].
    + eapply Inv_perm; [symmetry; apply P2|exact I'].
    + apply alike_sset; [exact Logic.I|exact A].
    + apply bytes_sset; assumption.
  - destruct HS as (-> & F & X). cbn [stream_gives s_heap]. split; [exact F|]. intros RF. destruct X as [(x & Gx & Ix)|(_ & RF' & _)]; [|congruence].
    destruct (good_inv _ Gx) as (v & -> & Bv). exists v. split; [exact Bv|]. eapply World_sees. constructor; cbn [s_heap s_objs].
    + eapply Inv_perm; [symmetry; apply P2|exact Ix].
    + apply alike_sset; [exact Logic.I|exact A].
    + apply bytes_sset; assumption.
Qed.
Lemma reach_getline n s ss i l d st : reach n s -> short n -> sees s ss -> sget ss i = Some l -> stream_ok st -> is_char d ->
  stream_gives ss i (fun st' line => line_end d st line st') (on_stream (cleaned s) i (getline dbg arena mal d st)).
Proof.
  intros H SH SE El (F1 & F2 & F3 & Bi & _) Bd. eapply on_stream_gives; try eassumption. intros R h c I Bl.
  eapply spec_imp; [eapply getline_spec; try eassumption; unfold good_stream; rewrite F1, F2, F3; reflexivity| |intros ? ? ? X; exact X].
  intros st' h' c' (line & LE & I'). exists line. split; [exact LE|]. split; [|exact I']. destruct LE as (rest & e & (_ & E) & _).
  destruct e; [destruct E as (<- & _); exact Bi|]. rewrite E in Bi. apply Forall_app in Bi. apply Bi.
Qed.
Lemma reach_extract n s ss i l st : reach n s -> short n -> sees s ss -> sget ss i = Some l -> stream_ok st ->
  stream_gives ss i (word_end st l) (on_stream (cleaned s) i (extract dbg arena mal st)).
Proof.
  intros H SH SE El SO. eapply on_stream_gives; try eassumption. intros R h c I Bl. eapply extract_spec; eassumption.
Qed.
End R.
End Wide.
