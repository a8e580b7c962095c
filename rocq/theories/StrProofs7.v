(** Member functions that use a temporary string, and constructors. *)
Require Import ZArith List Bool Lia Permutation.
From Verif Require Import Base BaseProofs StrSpec StrModel StrProofs StrProofs2 StrProofs3 StrProofs4 StrProofs5 StrProofs6.
Import ListNotations.
Open Scope Z_scope.


Section Wide.
Context {ChT : CharType}.

Section S.
Variables (dbg arena : bool) (mal : nat -> Z -> bool) (ar N : Z).
Notation Inv := (StrProofs2.Inv dbg arena mal ar N).
Notation Keep := (StrProofs3.Keep dbg arena mal ar N).
Notation Bad := (StrProofs6.Bad dbg arena mal ar N).
Notation unbuilt := (StrProofs5.unbuilt dbg arena mal ar N).
Notation built := (StrProofs5.built dbg arena mal ar N).

Lemma unbuilt_Bad o l R e h' : good l -> unbuilt ((o, l) :: R) e h' -> Bad R e h' o.
Proof. intros G (-> & F & I). split; [reflexivity|]. split; [exact F|]. left. eauto. Qed.
Lemma on_spec m t lt lx h o l R : Inv h ((t, lt) :: (o, l) :: R) -> good l ->
  spec m h t (fun (_ : unit) h' t' => Inv h' ((t', lx) :: (o, l) :: R)) (Bad ((o, l) :: R)) ->
  spec (on dbg arena t m) h o (fun p h' o' => o' = o /\ Inv h' ((snd p, lx) :: (o, l) :: R)) (Bad R).
Proof.
  intros I G H. eapply spec_on; [exact H| |].
  - intros a h' t' I'. split; [reflexivity|exact I'].
  - intros e h' t' (-> & F & [(l' & G' & I')|(EA & RF & D & I')]); [left|right; auto].
    exists l', ((o, l) :: R). split; [exact I'|]. intros h'' I'' (F1 & _).
    split; [reflexivity|]. split; [congruence|]. left. eauto.
Qed.
(** A local copy of part of the string. *)
Lemma build_part h o l R pos n : Inv h ((o, l) :: R) -> good l -> 0 <= pos -> 0 <= n -> pos + n <= slen l ->
  spec (build (c_al o) (init_core dbg arena mal (export o (ptr_add (data o) pos)) n)) h o
    (fun t h' o' => o' = o /\ built ((o, l) :: R) (piece pos n l) h' t) (Bad R).
Proof.
  intros I G H1 H2 H3. destruct (Inv_head _ _ _ _ _ _ _ _ _ I) as (RP & A). pose proof (rep_bound _ _ _ RP) as LO. apply spec_build.
  eapply spec_imp; [eapply (init_core_spec dbg arena mal ar N h (blank (c_al o)) ((o, l) :: R)); [exact I|exact A| | |]| |].
  - eapply src_export; [exact I|left; reflexivity|exact H1|exact H2|exact H3].
  - apply good_piece. exact G.
  - lia.
  - intros a h' t' B. split; [reflexivity|exact B].
  - intros e h' t' B. eapply unbuilt_Bad; [exact G|exact B].
Qed.
Lemma swap_end h o l t lt R (Q : unit -> heap -> core -> Prop) E : Inv h ((t, lt) :: (o, l) :: R) ->
  (forall h', Inv h' ((t, lt) :: R) -> (unique h t -> unique h' t) -> Q tt h' t) -> spec (swap_destroy dbg arena t) h o Q E.
Proof. intros I H. destruct (swap_destroy_ok _ _ _ _ _ _ _ _ _ _ _ I) as (h' & E1 & I1 & _ & U). eapply spec_ret_eq; [exact E1|]. auto. Qed.

(** ** insert, input iterators *)
Lemma insert_input_spec h o l R pos x : Inv h ((o, l) :: R) -> good l -> 0 <= pos <= slen l -> Forall is_char x ->
  spec (insert_input dbg arena mal pos x) h o (fun _ h' o' => Inv h' ((o', splice pos 0 (map Some x) l) :: R)) (Bad R).
Proof.
  intros I G Hp Hx. unfold insert_input. apply spec_this. cbv zeta.
  pose proof (build_part h o l R 0 pos I G ltac:(lia) ltac:(lia) ltac:(lia)) as BP. rewrite ptr_add0 in BP.
  eapply spec_bnd; [exact BP|]. intros t h' o' (-> & It & _). cbv beta.
  rewrite (size_ok _ _ _ _ _ _ _ _ _ I).
  pose proof (len_ok _ _ _ _ _ _ _ _ _ I) as LO.
  eapply spec_bnd; [eapply (on_spec _ t _ (splice pos 0 (map Some x) l)); [exact It|exact G|]|].
  - eapply spec_bnd; [apply push_all_spec; [exact Hx|exact It|apply good_piece; exact G]|]. intros a h2 t2 I2. cbv beta in I2.
    eapply spec_imp; [eapply (append_range_spec dbg arena mal ar N h2 t2 _ ((o, l) :: R) _ _ (piece pos (slen l - pos) l)); [exact I2| | | |]| |].
    + eapply src_str; [exact I|left; reflexivity|lia|lia|lia].
    + rewrite good_app. split; [apply good_piece; exact G|apply good_map; exact Hx].
    + apply good_piece. exact G.
    + lia.
    + intros b h3 t3 I3. cbv beta in I3. replace (splice pos 0 (map Some x) l) with ((piece 0 pos l ++ map Some x) ++ piece pos (slen l - pos) l); [exact I3|].
      lists.
    + intros ? ? ? X0; exact X0.
  - intros (u, t2) h2 o2 (-> & I2). cbn [snd] in I2. eapply spec_bnd with (Q1 := fun _ h' o' => Inv h' ((o', splice pos 0 (map Some x) l) :: R)).
    + eapply swap_end; [exact I2|]. intros h3 I3 _. exact I3.
    + intros a h3 o3 I3. cbv beta in I3. eapply begin_then; [exact I3|]. intros h4 o4 I4 _ _. apply spec_ret. exact I4.
Qed.

(** ** replace *)
Lemma src_take R p n x m : src R p n x -> 0 <= m <= n -> src R p m (stake m x).
Proof.
  intros (N0 & Lx & S) Hm. split; [lia|]. split; [apply slen_stake; lia|].
  destruct p as [|b off|e]; [contradiction| |].
  - destruct S as (O0 & o & l & X & H & E & Le & ->). split; [exact O0|]. exists o, l. split; [exact X|]. split; [exact H|]. split; [exact E|].
    split; [lia|]. lists.
  - destruct S as (Le & ->). split; [lia|]. lists.
Qed.
Lemma src_drop R p n x m : src R p n x -> 0 <= m <= n -> src R (ptr_add p m) (n - m) (sdrop m x).
Proof.
  intros (N0 & Lx & S) Hm. split; [lia|]. split; [rewrite slen_sdrop; lia|].
  destruct p as [|b off|e]; [contradiction| |]; cbn [ptr_add].
  - destruct S as (O0 & o & l & X & H & E & Le & ->). split; [lia|]. exists o, l. split; [exact X|]. split; [exact H|]. split; [exact E|].
    split; [lia|]. lists.
  - destruct S as (Le & ->). split; [slens; lia|]. lists.
Qed.
Lemma asrc_export h o l R p n x : Inv h ((o, l) :: R) -> asrc o l R p n x -> src ((o, l) :: R) (export o p) n x.
Proof.
  intros I [S|(H & off & -> & H1 & H2 & H3 & ->)].
  - pose proof S as (_ & _ & S'). destruct p; [contradiction|exact S|exact S].
  - destruct (Inv_head _ _ _ _ _ _ _ _ _ I) as (RP & _). cbn [export]. split; [exact H2|]. split; [apply slen_piece; assumption|].
    destruct (small_ext o l off n (rep_small _ _ _ RP H) H1 H2 H3) as (A & B). split; [exact A|symmetry; exact B].
Qed.
Lemma unaliased h o l R p n x : Inv h ((o, l) :: R) -> unique h o -> asrc o l R p n x ->
  (aliased p (data o) (slen l) = false -> src R p n x) /\ (src R p n x -> aliased p (data o) (slen l) = false).
Proof.
  intros I U A. split.
  - intros AL. destruct A as [(N0 & Lx & S)|(H & off & -> & H1 & H2 & H3 & ->)].
    + split; [exact N0|]. split; [exact Lx|]. destruct p as [|b off|e]; [contradiction| |exact S].
      destruct S as (O0 & oj & lj & X & H & E & Le & EX). split; [exact O0|]. exists oj, lj. split; [|auto].
      destruct X as [X|X]; [|exact X]. injection X as <- <-. exfalso. rewrite (data_heap _ H) in AL. cbn [aliased] in AL.
      rewrite <- E, Z.eqb_refl in AL. cbn [andb] in AL. destruct (Z.leb_spec 0 off); [|lia]. destruct (Z.leb_spec off (0 + slen l)); [discriminate|lia].
    + exfalso. rewrite (data_small _ H) in AL. cbn [aliased] in AL. destruct (Z.leb_spec 0 off); [|lia]. destruct (Z.leb_spec off (0 + slen l)); [discriminate|lia].
  - intros S. destruct (heapy o) eqn:H.
    + rewrite (data_heap _ H). destruct p as [|b off|e]; try reflexivity. cbn [aliased].
      pose proof (src_apart _ _ _ _ _ h o l R b off n x I U H S). destruct (Z.eqb_spec b (c_data o)); [contradiction|reflexivity].
    + rewrite (data_small _ H). destruct p as [|b off|e]; try reflexivity. destruct S as (_ & _ & []).
Qed.
Lemma check_end h o l R (Q : unit -> heap -> core -> Prop) E : Inv h ((o, l) :: R) -> Q tt h o -> spec (assert_sane dbg) h o Q E.
Proof. intros I H. destruct (Inv_head _ _ _ _ _ _ _ _ _ I) as (RP & _). eapply spec_ret_eq; [eapply check_ok; exact RP|exact H]. Qed.
Lemma replace_shorter (l x : list (option Z)) pos n1 n2 : 0 <= pos -> 0 <= n2 <= n1 -> pos + n1 <= slen l -> slen x = n2 ->
  splice (pos + n2) (pos + n1 - (pos + n2)) [] (splice pos n2 x l) = splice pos n1 x l.
Proof. intros. lists. Qed.
Lemma replace_longer (l x : list (option Z)) pos n1 : 0 <= pos -> 0 <= n1 <= slen x -> pos + n1 <= slen l ->
  splice (pos + n1) 0 (sdrop n1 x) (splice pos n1 (stake n1 x) l) = splice pos n1 x l.
Proof. intros. lists. Qed.

Lemma replace_at_spec h o l R pos n1 p n2 x : Inv h ((o, l) :: R) -> unique h o -> asrc o l R p n2 x ->
  (ar = 0 \/ src R p n2 x) -> good l -> good x ->
  0 <= pos -> 0 <= n1 -> pos + n1 <= slen l -> n2 < limit ->
  spec (replace_at dbg arena mal pos n1 p n2) h o (fun _ h' o' => Inv h' ((o', splice pos n1 x l) :: R)) (Bad R).
Proof.
  intros I U A AR Gl G H1 H2 H3 Hn. destruct (asrc_len _ _ _ _ _ _ A) as (N0 & Lx). pose proof (len_ok _ _ _ _ _ _ _ _ _ I) as LO.
  unfold replace_at. eapply guard_bad; [exact I|]. eapply begin_then; [exact I|]. intros h0 o0 _ _ SAME. destruct (SAME U) as (-> & ->). clear SAME.
  apply spec_this. cbv zeta. rewrite (size_ok _ _ _ _ _ _ _ _ _ I).
  destruct (unaliased _ _ _ _ _ _ _ I U A) as (UA1 & UA2).
  destruct (aliased p (data o) (slen l)) eqn:AL.
  - destruct AR as [EA|S]; [|specialize (UA2 S); discriminate].
    pose proof EA as HA.
    eapply spec_bnd with (Q1 := fun t h' o' => o' = o /\ h' = h /\ Inv h ((t, []) :: (o, l) :: R)).
    { apply spec_build. eapply spec_noexc; [|intros e h' o' X; exact X].
      eapply init_default_spec; [exact I|symmetry; exact HA|]. intros t It _. auto. }
    intros t h' o' (-> & -> & It). rewrite sub_small by lia. rewrite add_small by lia.
    eapply spec_bnd; [eapply (on_spec _ t _ (splice pos n1 x l)); [exact It|exact Gl|]|].
    + eapply spec_bnd; [eapply spec_Keep_Bad; [apply good_nil|eapply reserve_spec; [exact It|lia]]|].
      intros a h2 t2 (RD & _).
      assert (I2 : Inv h2 ((t2, []) :: (o, l) :: R)) by (destruct RD as [(I2 & _)|(I2 & _)]; exact I2). clear RD.
      pose proof (src_export dbg arena mal ar N h ((o, l) :: R) o l 0 pos I (or_introl eq_refl) ltac:(lia) ltac:(lia) ltac:(lia)) as S1.
      rewrite ptr_add0 in S1.
      eapply spec_bnd; [eapply append_range_spec; [exact I2|exact S1|apply good_nil|apply good_piece; exact Gl|lia]|].
      intros b h3 t3 I3. cbv beta in I3. cbn [app] in I3.
      eapply spec_bnd; [eapply append_range_spec; [exact I3|eapply asrc_export; [exact I|exact A]|apply good_piece; exact Gl|exact G|exact Hn]|].
      intros c h4 t4 I4. cbv beta in I4.
      pose proof (src_export dbg arena mal ar N h ((o, l) :: R) o l (pos + n1) (slen l - (pos + n1)) I (or_introl eq_refl) ltac:(lia) ltac:(lia) ltac:(lia)) as S3.
      eapply spec_imp; [eapply append_range_spec; [exact I4|exact S3| |apply good_piece; exact Gl|lia]| |intros ? ? ? X0; exact X0].
      * rewrite good_app. split; [apply good_piece; exact Gl|exact G].
      * intros d h5 t5 I5. cbv beta in I5.
        replace (splice pos n1 x l) with ((piece 0 pos l ++ x) ++ piece (pos + n1) (slen l - (pos + n1)) l); [exact I5|]. lists.
    + intros (u, t2) h2 o2 (-> & I2). cbn [snd] in I2. eapply swap_end; [exact I2|]. intros h3 I3 _. exact I3.
  - specialize (UA1 eq_refl). clear UA2 A AR AL. rename UA1 into S.
    eapply spec_bnd with (Q1 := fun _ h' o' => Inv h' ((o', splice pos n1 x l) :: R)).
    2:{ intros a h' o' I'. cbv beta in I'. eapply check_end; [exact I'|exact I']. }
    destruct (Z.ltb_spec n2 n1).
    + pose proof (Inv_tail_src dbg arena mal ar N h o l R p n2 x I S) as RD.
      destruct (move_own _ _ _ _ _ h o l R pos p n2 x I (or_introl U) RD Lx G) as (h2 & o2 & W & I2 & _); [lia|lia|].
      eapply spec_eq; [exact W|].
      eapply spec_imp; [eapply erase_range_spec; [exact I2|apply good_splice; assumption|slens; lia|lia]| |intros ? ? ? X0; exact X0].
      intros a h3 o3 I3. cbv beta in I3. rewrite replace_shorter in I3 by lia. exact I3.
    + pose proof (src_take _ _ _ _ n1 S ltac:(lia)) as S1. pose proof (src_drop _ _ _ _ n1 S ltac:(lia)) as S2.
      pose proof (Inv_tail_src dbg arena mal ar N h o l R p n1 _ I S1) as RD.
      destruct (move_own _ _ _ _ _ h o l R pos p n1 (stake n1 x) I (or_introl U) RD) as (h2 & o2 & W & I2 & _); [slens; lia|apply good_stake; exact G|lia|lia|].
      eapply spec_eq; [exact W|].
      assert (G2 : good (splice pos n1 (stake n1 x) l)) by (apply good_splice; [exact Gl|apply good_stake; exact G]).
      eapply spec_Keep_Bad; [exact G2|].
      eapply spec_imp; [eapply insert_at_spec; [exact I2|exact S2|exact G2|apply good_sdrop; exact G|slens; lia|lia]| |intros ? ? ? X0; exact X0].
      intros a h3 o3 I3. cbv beta in I3. rewrite replace_longer in I3 by lia. exact I3.
Qed.

Lemma clip (l x : list (option Z)) pos n : 0 <= pos <= slen l -> 0 <= n ->
  splice pos (if slen l - pos <? n then slen l - pos else n) x l = splice pos n x l.
Proof.
  intros Hp Hn. unfold splice. destruct (Z.ltb_spec (slen l - pos) n); [|reflexivity]. do 2 f_equal. unfold sdrop.
  rewrite !skipn_all2 by (unfold slen in *; lia). reflexivity.
Qed.
Lemma Bad_closed R R' e h' o' : (forall h' x, Inv h' (x :: R') -> Inv h' (x :: R)) -> (forall h', Inv h' R' -> Inv h' R) ->
  Bad R' e h' o' -> Bad R e h' o'.
Proof.
  intros C1 C2 (-> & F & [(l' & G' & I')|(EA & RF & D & I')]); (split; [reflexivity|]); (split; [exact F|]); [left; eauto|right; auto].
Qed.
Lemma replace_spec h o l R pos n1 p n2 x : Inv h ((o, l) :: R) -> asrc o l R p n2 x ->
  (ar = 0 \/ src R p n2 x) -> good l -> good x -> 0 <= pos <= slen l -> 0 <= n1 -> n2 < limit ->
  spec (replace dbg arena mal pos n1 p n2) h o (fun _ h' o' => Inv h' ((o', splice pos n1 x l) :: R)) (Bad R).
Proof.
  intros I A AR Gl G Hp Hn1 Hn2. unfold replace. eapply guard_bad; [exact I|]. apply spec_size. rewrite (size_ok _ _ _ _ _ _ _ _ _ I).
  unfold enforce. replace (pos <=? slen l) with true by (symmetry; apply Z.leb_le; lia). apply spec_bret. cbv zeta.
  rewrite <- (clip l x pos n1 Hp Hn1). set (n := if slen l - pos <? n1 then slen l - pos else n1).
  assert (Hn : 0 <= n /\ pos + n <= slen l) by (unfold n; destruct (Z.ltb_spec (slen l - pos) n1); lia).
  destruct (asrc_pin _ _ _ _ _ _ _ _ _ _ _ _ I A) as [U|(R' & S & I1 & C0 & C1 & C2)].
  - eapply begin_then; [exact I|]. intros h' o' I' U' SAME. destruct (SAME U) as (-> & ->). apply replace_at_spec; try assumption; lia.
  - eapply begin_then; [exact I1|]. intros h' o' I' U' _.
    eapply spec_imp; [eapply (replace_at_spec h' o' l R'); [exact I'|exact U'|apply asrc_src; exact S|right; exact S|exact Gl|exact G|lia|lia|lia|exact Hn2]| |].
    + intros a h2 o2 I2. apply C1. exact I2.
    + intros e h2 o2 X. eapply Bad_closed; eassumption.
Qed.
Lemma replace_range_ok h o l R pos n1 p n2 : Inv h ((o, l) :: R) -> slen l < pos -> replace dbg arena mal pos n1 p n2 h o = Thr OutOfRange h o.
Proof.
  intros I H. destruct (Inv_head _ _ _ _ _ _ _ _ _ I) as (RP & _). unfold replace. eapply guard_throw; [exact RP|].
  unfold bnd at 1, size_m, bnd at 1, this, ret. rewrite (rep_size _ _ _ RP). destruct (Z.leb_spec pos (slen l)); [lia|reflexivity].
Qed.

Lemma replace_n_at_spec h o l R pos n1 n2 c : Inv h ((o, l) :: R) -> good l -> is_char c ->
  0 <= pos -> 0 <= n1 -> pos + n1 <= slen l -> 0 <= n2 < limit ->
  spec (replace_n_at dbg arena mal pos n1 n2 c) h o (fun _ h' o' => Inv h' ((o', splice pos n1 (srep n2 (Some c)) l) :: R)) (Bad R).
Proof.
  intros I0 Gl Hc H1 H2 H3 Hn. unfold replace_n_at. eapply begin_then; [exact I0|]. intros h1 o1 I U _.
  eapply spec_bnd with (Q1 := fun _ h' o' => Inv h' ((o', splice pos n1 (srep n2 (Some c)) l) :: R)).
  2:{ intros a h' o' I'. cbv beta in I'. eapply check_end; [exact I'|exact I']. }
  destruct (Z.ltb_spec n2 n1).
  - destruct (fill_own _ _ _ _ _ h1 o1 l R pos n2 c I (or_introl U) Hc) as (h2 & o2 & W & I2 & _); [lia|lia|lia|].
    eapply spec_eq; [exact W|].
    eapply spec_imp; [eapply erase_range_spec; [exact I2|apply good_splice; [exact Gl|apply good_srep; exact Hc]|slens; lia|lia]| |intros ? ? ? X0; exact X0].
    intros a h3 o3 I3. cbv beta in I3. rewrite replace_shorter in I3 by (slens; lia). exact I3.
  - destruct (fill_own _ _ _ _ _ h1 o1 l R pos n1 c I (or_introl U) Hc) as (h2 & o2 & W & I2 & _); [lia|lia|lia|].
    eapply spec_eq; [exact W|].
    assert (G2 : good (splice pos n1 (srep n1 (Some c)) l)) by (apply good_splice; [exact Gl|apply good_srep; exact Hc]).
    eapply spec_Keep_Bad; [exact G2|].
    eapply spec_imp; [eapply insert_n_at_spec; [exact I2|exact G2|exact Hc|slens; lia|lia]| |intros ? ? ? X0; exact X0].
    intros a h3 o3 I3. cbv beta in I3.
    replace (splice pos n1 (srep n2 (Some c)) l) with (splice (pos + n1) 0 (srep (n2 - n1) (Some c)) (splice pos n1 (srep n1 (Some c)) l)); [exact I3|]. lists.
Qed.
Lemma replace_n_spec h o l R pos n1 n2 c : Inv h ((o, l) :: R) -> good l -> is_char c ->
  0 <= pos <= slen l -> 0 <= n1 -> 0 <= n2 < limit ->
  spec (replace_n dbg arena mal pos n1 n2 c) h o (fun _ h' o' => Inv h' ((o', splice pos n1 (srep n2 (Some c)) l) :: R)) (Bad R).
Proof.
  intros I Gl Hc Hp Hn1 Hn2. unfold replace_n. eapply guard_bad; [exact I|]. apply spec_size. rewrite (size_ok _ _ _ _ _ _ _ _ _ I).
  unfold enforce. replace (pos <=? slen l) with true by (symmetry; apply Z.leb_le; lia). apply spec_bret. cbv zeta.
  rewrite <- (clip l _ pos n1 Hp Hn1). set (n := if slen l - pos <? n1 then slen l - pos else n1).
  assert (Hn : 0 <= n /\ pos + n <= slen l) by (unfold n; destruct (Z.ltb_spec (slen l - pos) n1); lia).
  apply replace_n_at_spec; try assumption; lia.
Qed.
Lemma replace_n_range_ok h o l R pos n1 n2 c : Inv h ((o, l) :: R) -> slen l < pos -> replace_n dbg arena mal pos n1 n2 c h o = Thr OutOfRange h o.
Proof.
  intros I H. destruct (Inv_head _ _ _ _ _ _ _ _ _ I) as (RP & _). unfold replace_n. eapply guard_throw; [exact RP|].
  unfold bnd at 1, size_m, bnd at 1, this, ret. rewrite (rep_size _ _ _ RP). destruct (Z.leb_spec pos (slen l)); [lia|reflexivity].
Qed.
Lemma assign_n_spec h o l R n c : Inv h ((o, l) :: R) -> good l -> is_char c -> 0 <= n < limit ->
  spec (assign_n dbg arena mal n c) h o (fun _ h' o' => Inv h' ((o', srep n (Some c)) :: R)) (Bad R).
Proof.
  intros I Gl Hc Hn. unfold assign_n. eapply begin_then; [exact I|]. intros h' o' I' _ _. apply spec_size.
  rewrite (size_ok _ _ _ _ _ _ _ _ _ I'). pose proof (slen_nonneg l).
  eapply spec_imp; [eapply replace_n_at_spec; [exact I'|exact Gl|exact Hc|lia|lia|lia|exact Hn]| |intros ? ? ? X0; exact X0].
  intros a h2 o2 I2. cbv beta in I2. replace (srep n (Some c)) with (splice 0 (slen l) (srep n (Some c)) l); [exact I2|]. lists.
Qed.
Lemma replace_input_spec h o l R pos n1 x : Inv h ((o, l) :: R) -> good l -> 0 <= pos -> 0 <= n1 -> pos + n1 <= slen l -> Forall is_char x ->
  spec (replace_input dbg arena mal pos n1 x) h o (fun _ h' o' => Inv h' ((o', splice pos n1 (map Some x) l) :: R)) (Bad R).
Proof.
  intros I0 G H1 H2 H3 Hx. unfold replace_input. eapply begin_then; [exact I0|]. intros h1 o1 I _ _.
  apply spec_this. cbv zeta.
  pose proof (build_part h1 o1 l R 0 pos I G ltac:(lia) ltac:(lia) ltac:(lia)) as BP. rewrite ptr_add0 in BP.
  eapply spec_bnd; [exact BP|]. intros t h' o' (-> & It & _). cbv beta. clear BP.
  rewrite (size_ok _ _ _ _ _ _ _ _ _ I). pose proof (len_ok _ _ _ _ _ _ _ _ _ I) as LO.
  eapply spec_bnd; [eapply (on_spec _ t _ (splice pos n1 (map Some x) l)); [exact It|exact G|]|].
  - eapply begin_then; [exact It|]. intros h2 t2 I2 _ _. apply spec_size. rewrite (size_ok _ _ _ _ _ _ _ _ _ I2).
    rewrite slen_piece by lia.
    eapply spec_bnd; [apply insert_input_spec; [exact I2|apply good_piece; exact G|slens; lia|exact Hx]|]. intros a h3 t3 I3. cbv beta in I3.
    eapply spec_imp; [eapply (append_range_spec dbg arena mal ar N h3 t3 _ ((o1, l) :: R) _ _ (piece (pos + n1) (slen l - (pos + n1)) l)); [exact I3| | | |]| |].
    + eapply src_str; [exact I|left; reflexivity|lia|lia|lia].
    + apply good_splice; [apply good_piece; exact G|apply good_map; exact Hx].
    + apply good_piece. exact G.
    + lia.
    + intros b h4 t4 I4. cbv beta in I4.
      replace (splice pos n1 (map Some x) l) with (splice pos 0 (map Some x) (piece 0 pos l) ++ piece (pos + n1) (slen l - (pos + n1)) l); [exact I4|].
      lists.
    + intros ? ? ? X0; exact X0.
  - intros (u, t2) h2 o2 (-> & I2). cbn [snd] in I2. eapply swap_end; [exact I2|]. intros h3 I3 _. exact I3.
Qed.

(** ** The rest *)
Lemma init_n_spec h o R n c : Inv h R -> c_al o = ar -> is_char c -> 0 <= n < limit ->
  spec (init_n dbg arena mal n c) h o (fun _ h' o' => Inv h' ((o', srep n (Some c)) :: R)) (fun e h' _ => unbuilt R e h').
Proof.
  intros I A Hc Hn. unfold init_n. eapply spec_bnd with (Q1 := fun _ h' t => h' = h /\ Inv h ((t, []) :: R) /\ heapy t = false).
  { eapply init_default_spec; [exact I|exact A|]. auto. }
  intros a h' t (-> & It & Ht).
  eapply spec_bnd2; [eapply expand_spec; [exact It|lia|change (slen (@nil (option Z))) with 0; lia]| |].
  - intros e h' o' (-> & F & [(-> & I')|(X & _)]); [|congruence]. split; [reflexivity|]. split; [exact F|]. eapply Inv_drop_small; eassumption.
  - intros q h' o' (u & I' & Lu & -> & U). cbn [app] in I'. change (slen (@nil (option Z))) with 0.
    destruct (fill_own _ _ _ _ _ h' o' u R 0 n c I') as (h2 & o2 & W & I2 & _); try lia.
    + destruct (Z.eq_dec n 0); [right; assumption|left; apply U; lia].
    + exact Hc.
    + eapply spec_ret_eq; [exact W|]. cbv beta. replace (srep n (Some c)) with (splice 0 n (srep n (Some c)) u); [exact I2|]. lists.
Qed.
Lemma front_spec h o l R c (E : exn -> heap -> core -> Prop) : Inv h ((o, l) :: R) -> slen l = 1 -> is_char c ->
  spec (let* b := begin_ dbg arena mal in write b [Some c]) h o (fun _ h' o' => Inv h' ((o', [Some c]) :: R)) E.
Proof.
  intros I L Hc. eapply begin_then; [exact I|]. intros h' o' I' U _.
  destruct (write_own _ _ _ _ _ h' o' l R 0 [Some c] I' (or_introl U)) as (h2 & o2 & W & I2 & _); try lia.
  - constructor; [exists c; auto|constructor].
  - change (slen [Some c]) with 1. lia.
  - rewrite ptr_add0 in W. eapply spec_ret_eq; [exact W|]. cbv beta. replace [Some c] with (splice 0 (slen [Some c]) [Some c] l); [exact I2|].
    unfold splice, sdrop. rewrite skipn_all2 by (unfold slen in *; cbn; lia). reflexivity.
Qed.
Lemma assign_char_spec h o l R c : Inv h ((o, l) :: R) -> good l -> is_char c -> ar = 0 ->
  spec (assign_char dbg arena mal c) h o (fun _ h' o' => Inv h' ((o', [Some c]) :: R)) (Bad R).
Proof.
  intros I G Hc EA. destruct (Inv_head _ _ _ _ _ _ _ _ _ I) as (RP & _). pose proof (rep_bound _ _ _ RP) as LO.
  unfold assign_char. eapply guard_bad; [exact I|]. apply spec_size. rewrite (rep_size _ _ _ RP). cbv zeta.
  destruct (Z.eqb_spec (slen l) 0) as [E0|E0].
  - apply slen_0 in E0. subst l.
    eapply spec_bnd2; [eapply expand_spec; [exact I|lia|change (slen (@nil (option Z))) with 0; lia]|intros e h' o' X; eapply Keep_Bad; [exact G|exact X]|].
    intros q h' o' (u & I' & Lu & _ & _). cbn [app] in I'. eapply front_spec; eassumption.
  - assert (IS : exists b, is_shared h o = Ret b h o).
    { unfold is_shared, bnd at 1, this. destruct RP as [S|(k & cap & HR)].
      - rewrite (small_cat _ (small_heapy _ _ S)). exists false. reflexivity.
      - rewrite (heap_cat _ _ _ _ _ HR). destruct (bk_kind k) as [|r] eqn:K; [exists false; reflexivity|].
        exists (1 <? r). cbn [is_large Z.eqb Pos.eqb]. unfold bnd. erewrite refs_ok; [reflexivity|exact HR|exact K]. }
    destruct IS as (b & IS). eapply spec_eq; [exact IS|]. destruct b.
    + pose proof EA as HA.
      eapply spec_bnd with (Q1 := fun t h' o' => o' = o /\ Inv h' ((t, [Some c]) :: (o, l) :: R)).
      { apply spec_build. eapply spec_imp; [eapply (init_n_spec h (blank 0) ((o, l) :: R) 1 c I); [symmetry; exact HA|exact Hc|lia]| |].
        - intros a h' t' X. split; [reflexivity|exact X].
        - intros e h' t' X. eapply unbuilt_Bad; [exact G|exact X]. }
      intros t h' o' (-> & It). eapply swap_end; [exact It|]. intros h3 I3 _. exact I3.
    + eapply spec_bnd2; [eapply shrink_spec; [exact I|exact G|lia]|intros e h' o' X; eapply Keep_Bad; [exact G|exact X]|].
      intros a h' o' (I' & _). eapply front_spec; [exact I'|slens; lia|exact Hc].
Qed.
Lemma shrink_to_fit_spec h o l R : Inv h ((o, l) :: R) -> good l ->
  spec (shrink_to_fit dbg arena mal) h o (fun _ h' o' => Inv h' ((o', l) :: R)) (Bad R).
Proof.
  intros I G. destruct (Inv_head _ _ _ _ _ _ _ _ _ I) as (RP & A). unfold shrink_to_fit. assert (arena = true \/ arena = false) as [EA|EA] by (destruct arena; auto).
  { replace arena with true at 1 by auto. apply spec_ret. exact I. }
  replace (if arena then ret tt else _) with (let* cap := capacity in
     let* o := this in
     if cap <? mul64 (size o) 3 / 2 then ret tt
     else let* t := build 0 (init_core dbg arena mal (export o (data o)) (size o)) in swap_destroy dbg arena t) by (rewrite EA; reflexivity).
  destruct (capacity_ok _ _ _ RP) as (c0 & C0 & _). eapply spec_eq; [exact C0|]. apply spec_this. apply spec_if; intros _; [apply spec_ret; exact I|].
  pose proof (i_ar _ _ _ _ _ _ _ I) as HA. rewrite EA in HA. pose proof (slen_nonneg l).
  pose proof (build_part h o l R 0 (slen l) I G ltac:(lia) ltac:(lia) ltac:(lia)) as BP. assert (A0 : c_al o = 0) by congruence. rewrite ptr_add0, piece_all, A0 in BP.
  rewrite (rep_size _ _ _ RP).
  eapply spec_bnd; [exact BP|]. intros t h' o' (-> & It & _). eapply swap_end; [exact It|]. intros h3 I3 _. exact I3.
Qed.
Lemma set_at_spec h o l R i c (E : exn -> heap -> core -> Prop) : Inv h ((o, l) :: R) -> is_char c -> 0 <= i < slen l ->
  spec (set_at dbg arena mal i c) h o (fun _ h' o' => Inv h' ((o', splice i 1 [Some c] l) :: R)) E.
Proof.
  intros I Hc Hi. unfold set_at. eapply begin_then; [exact I|]. intros h' o' I' U _.
  destruct (write_own _ _ _ _ _ h' o' l R i [Some c] I' (or_introl U)) as (h2 & o2 & W & I2 & _); try lia.
  - constructor; [exists c; auto|constructor].
  - change (slen [Some c]) with 1. lia.
  - eapply spec_ret_eq; [exact W|exact I2].
Qed.
Lemma set_at_checked_spec h o l R i c (E : exn -> heap -> core -> Prop) : Inv h ((o, l) :: R) -> is_char c -> 0 <= i < slen l ->
  spec (set_at_checked dbg arena mal i c) h o (fun _ h' o' => Inv h' ((o', splice i 1 [Some c] l) :: R)) E.
Proof.
  intros I Hc Hi. unfold set_at_checked. apply spec_size. rewrite (size_ok _ _ _ _ _ _ _ _ _ I). unfold enforce.
  replace (i <? slen l) with true by (symmetry; apply Z.ltb_lt; lia). apply spec_bret. apply set_at_spec; assumption.
Qed.
Lemma set_at_range_ok h o l R i c : Inv h ((o, l) :: R) -> slen l <= i -> set_at_checked dbg arena mal i c h o = Thr OutOfRange h o.
Proof.
  intros I H. unfold set_at_checked, bnd at 1, size_m, bnd at 1, this, ret. rewrite (size_ok _ _ _ _ _ _ _ _ _ I).
  destruct (Z.ltb_spec i (slen l)); [lia|reflexivity].
Qed.
Lemma set_back_spec h o l R c (E : exn -> heap -> core -> Prop) : Inv h ((o, l) :: R) -> is_char c -> l <> [] ->
  spec (set_back dbg arena mal c) h o (fun _ h' o' => Inv h' ((o', splice (slen l - 1) 1 [Some c] l) :: R)) E.
Proof.
  intros I Hc NE. assert (1 <= slen l).
  { pose proof (slen_nonneg l). destruct (Z.eq_dec (slen l) 0) as [X|X]; [apply slen_0 in X; contradiction|lia]. }
  unfold set_back. apply spec_size. rewrite (size_ok _ _ _ _ _ _ _ _ _ I).
  apply spec_assert; [destruct (Z.eqb_spec (slen l) 0); [lia|reflexivity]|]. apply set_at_spec; [exact I|exact Hc|lia].
Qed.

(** clone *)
Lemma clone_spec h o rhs l R : Inv h ((rhs, l) :: R) -> c_al o = ar -> good l ->
  (forall k r, heapy rhs = true -> blk h (c_data rhs) = Some k -> bk_kind k = Counted r -> r + 1 <= N) ->
  spec (clone_from dbg arena mal rhs) h o (fun _ h' o' => Inv h' ((o', l) :: (rhs, l) :: R))
    (fun e h' o' => unbuilt ((rhs, l) :: R) e h').
Proof.
  intros I A G HN. destruct (Inv_head _ _ _ _ _ _ _ _ _ I) as (RP & Ar).
  unfold clone_from. destruct (Z.eqb_spec (category rhs) is_large) as [CL|CL].
  2:{ eapply spec_imp; [eapply copy_core_spec; eassumption| |intros ? ? ? X0; exact X0]. intros a h' o' (I' & _). exact I'. }
  eapply spec_bnd with (Q1 := fun t h' o' => t = rhs /\ Inv h' ((rhs, l) :: (rhs, l) :: R)).
  { apply spec_build. eapply spec_imp; [eapply copy_core_spec; try eassumption| |intros ? ? ? X0; exact X0].
    intros a h' t (I' & X). specialize (X CL). subst t. auto. }
  intros t h' o' (-> & I').
  destruct (Inv_head _ _ _ _ _ _ _ _ _ I') as (RP' & _).
  assert (H : heapy rhs = true). { destruct (heapy rhs) eqn:H; [reflexivity|]. rewrite (small_cat _ H) in CL. discriminate. }
  destruct (rep_heapy _ _ _ RP' H) as (k & cap & HR). pose proof (heap_cat _ _ _ _ _ HR) as CT. rewrite CL in CT.
  destruct (bk_kind k) as [|r] eqn:K; [discriminate|].
  assert (Hr : 1 < r).
  { pose proof HR as (B & LV & _). pose proof (i_blk _ _ _ _ _ _ _ I' _ _ B LV) as (_ & X). rewrite K in X.
    rewrite !owners_cons, owns_self in X by assumption. pose proof (owners_nonneg (c_data rhs) R). destruct X as (_ & X). ar_cases ar; lia. }
  eapply spec_bnd with (Q1 := fun p h2 o2 => Inv h2 ((snd p, l) :: (rhs, l) :: R)).
  - eapply spec_on; [eapply unshare_spec; [exact I'|exact HR|exact K|exact Hr|lia]| |].
    + intros a h2 t2 (I2 & _). exact I2.
    + intros e h2 t2 (-> & F & [(-> & I2)|(_ & EA & RF & D & I2)]); [left|right; auto].
      exists l, ((rhs, l) :: R). split; [exact I2|]. intros h3 I3 (F1 & _). split; [reflexivity|]. split; [congruence|exact I3].
  - intros (u, t2) h2 o2 I2. cbn [snd] in I2. apply spec_put_end. exact I2.
Qed.

(** ** Local results *)
Lemma local_spec h o R m x : Inv h R ->
  (forall t, Inv h ((t, []) :: R) -> spec m h t (fun _ h' t' => Inv h' ((t', x) :: R)) (Bad R)) ->
  spec (new_local dbg arena ar m) h o (fun _ h' o' => Inv h' ((o', x) :: R)) (fun e h' _ => unbuilt R e h').
Proof.
  intros I H. unfold new_local, local_from.
  eapply spec_bnd with (Q1 := fun t h' _ => h' = h /\ Inv h ((t, []) :: R)).
  { apply spec_build. eapply spec_noexc; [|intros e h' o' X; exact X]. eapply init_default_spec; [exact I|reflexivity|]. intros t It _. auto. }
  intros t h' o' (-> & It).
  eapply spec_bnd with (Q1 := fun p h2 o2 => Inv h2 ((snd p, x) :: R)).
  - eapply spec_on; [exact (H t It)| |].
    + intros a h2 t2 I2. exact I2.
    + intros e h2 t2 (-> & F & [(l' & _ & I2)|(EA & RF & D & _)]); [left|right; auto].
      exists l', R. split; [exact I2|]. intros h3 I3 (F1 & _). split; [reflexivity|]. split; [congruence|exact I3].
  - intros (u, t2) h2 o2 I2. cbn [snd] in I2. apply spec_put_end. exact I2.
Qed.
Lemma reserve_empty {B} (f : unit -> M B) h t R n (Q : B -> heap -> core -> Prop) : Inv h ((t, []) :: R) -> 0 <= n < 2 * limit ->
  (forall h' t', Inv h' ((t', []) :: R) -> spec (f tt) h' t' Q (Bad R)) -> spec (bnd (reserve dbg arena mal n) f) h t Q (Bad R).
Proof.
  intros I Hn H. eapply spec_bnd; [eapply spec_Keep_Bad; [apply good_nil|eapply reserve_spec; [exact I|exact Hn]]|].
  intros [] h2 t2 (RD & _). apply H. destruct RD as [(I2 & _)|(I2 & _)]; exact I2.
Qed.
Lemma al_of_ok c : c_al c = ar -> (if arena then dbg = true -> ar <> 0 else ar = 0) -> al_of arena c = ar.
Proof. unfold al_of. destruct arena; auto. Qed.
Lemma In_len h R a la : Inv h R -> In (a, la) R -> 0 <= slen la < limit /\ size a = slen la /\ al_of arena a = ar.
Proof.
  intros I X. destruct (i_rep _ _ _ _ _ _ _ I a la X) as (RP & A). split; [apply (rep_bound _ _ _ RP)|]. split; [apply (rep_size _ _ _ RP)|].
  apply al_of_ok; [exact A|apply (i_ar _ _ _ _ _ _ _ I)].
Qed.
Definition goods (R : pairs) : Prop := forall o l, In (o, l) R -> good l.
Definition makes (R : pairs) (x : list (option Z)) (m : M unit) : Prop :=
  forall h o, Inv h R -> spec m h o (fun _ h' o' => Inv h' ((o', x) :: R)) (fun e h' _ => unbuilt R e h').

Lemma plus_str_spec R a la b lb : In (a, la) R -> In (b, lb) R -> goods R -> makes R (la ++ lb) (plus_str dbg arena mal a b).
Proof.
  intros Xa Xb G h o I. destruct (In_len _ _ _ _ I Xa) as (La & Sa & Aa), (In_len _ _ _ _ I Xb) as (Lb & Sb & _).
  unfold plus_str. rewrite Aa. apply local_spec; [exact I|]. intros t It. rewrite Sa, Sb, add_small by lia.
  eapply reserve_empty; [exact It|lia|]. intros h2 t2 I2.
  eapply spec_bnd; [eapply spec_Keep_Bad; [apply good_nil|eapply append_str_spec; [exact I2|apply asrc_src; eapply src_str0; [exact I|exact Xa]|exact (G _ _ Xa)|lia]]|].
  intros u h3 t3 I3. cbv beta in I3. cbn [app] in I3.
  eapply spec_Keep_Bad; [exact (G _ _ Xa)|]. eapply append_str_spec; [exact I3|apply asrc_src; eapply src_str0; [exact I|exact Xb]|exact (G _ _ Xb)|lia].
Qed.
Lemma src_ext R l : src R (PExt (map Some l)) (slen l) (map Some l).
Proof.
  split; [apply slen_nonneg|]. split; [apply slen_map|]. split; [rewrite slen_map; lia|]. rewrite stake_all; [reflexivity|rewrite slen_map; lia].
Qed.
Lemma plus_cl_spec R l b lb : Forall is_char l -> slen l < limit -> In (b, lb) R -> goods R -> makes R (map Some l ++ lb) (plus_cl dbg arena mal l b).
Proof.
  intros Hl Ll Xb G h o I. destruct (In_len _ _ _ _ I Xb) as (Lb & Sb & Ab). pose proof (slen_nonneg l).
  unfold plus_cl. rewrite Ab. apply local_spec; [exact I|]. intros t It. rewrite Sb, add_small by lia.
  eapply reserve_empty; [exact It|lia|]. intros h2 t2 I2.
  eapply spec_bnd; [eapply spec_Keep_Bad; [apply good_nil|eapply append_spec; [exact I2|apply asrc_src, src_ext|apply good_map; exact Hl|exact Ll]]|].
  intros u h3 t3 I3. cbv beta in I3. cbn [app] in I3.
  eapply spec_Keep_Bad; [apply good_map; exact Hl|]. eapply append_str_spec; [exact I3|apply asrc_src; eapply src_str0; [exact I|exact Xb]|exact (G _ _ Xb)|lia].
Qed.
Lemma plus_hl_spec R c b lb : is_char c -> In (b, lb) R -> goods R -> makes R (Some c :: lb) (plus_hl dbg arena mal c b).
Proof.
  intros Hc Xb G h o I. destruct (In_len _ _ _ _ I Xb) as (Lb & Sb & Ab).
  unfold plus_hl. rewrite Ab. apply local_spec; [exact I|]. intros t It. rewrite Sb, add_small by lia.
  eapply reserve_empty; [exact It|lia|]. intros h2 t2 I2.
  eapply spec_bnd; [eapply spec_Keep_Bad; [apply good_nil|eapply push_back_spec; [exact I2|exact Hc]]|].
  intros u h3 t3 I3. cbv beta in I3. cbn [app] in I3.
  assert (G1 : good [Some c]) by (constructor; [exists c; auto|constructor]).
  eapply spec_Keep_Bad; [exact G1|]. eapply (append_str_spec dbg arena mal ar N h3 t3 [Some c]); [exact I3|apply asrc_src; eapply src_str0; [exact I|exact Xb]|exact (G _ _ Xb)|lia].
Qed.
Lemma plus_cr_spec R a la l : Forall is_char l -> slen l < limit -> In (a, la) R -> goods R -> makes R (la ++ map Some l) (plus_cr dbg arena mal a l).
Proof.
  intros Hl Ll Xa G h o I. destruct (In_len _ _ _ _ I Xa) as (La & Sa & Aa). pose proof (slen_nonneg l).
  unfold plus_cr. rewrite Aa. apply local_spec; [exact I|]. intros t It. rewrite Sa, add_small by lia.
  eapply reserve_empty; [exact It|lia|]. intros h2 t2 I2.
  eapply spec_bnd; [eapply spec_Keep_Bad; [apply good_nil|eapply append_str_spec; [exact I2|apply asrc_src; eapply src_str0; [exact I|exact Xa]|exact (G _ _ Xa)|lia]]|].
  intros u h3 t3 I3. cbv beta in I3. cbn [app] in I3.
  eapply spec_Keep_Bad; [exact (G _ _ Xa)|]. eapply append_spec; [exact I3|apply asrc_src, src_ext|apply good_map; exact Hl|exact Ll].
Qed.
Lemma plus_hr_spec R a la c : is_char c -> In (a, la) R -> goods R -> makes R (la ++ [Some c]) (plus_hr dbg arena mal a c).
Proof.
  intros Hc Xa G h o I. destruct (In_len _ _ _ _ I Xa) as (La & Sa & Aa).
  unfold plus_hr. rewrite Aa. apply local_spec; [exact I|]. intros t It. rewrite Sa, add_small by lia.
  eapply reserve_empty; [exact It|lia|]. intros h2 t2 I2.
  eapply spec_bnd; [eapply spec_Keep_Bad; [apply good_nil|eapply append_str_spec; [exact I2|apply asrc_src; eapply src_str0; [exact I|exact Xa]|exact (G _ _ Xa)|lia]]|].
  intros u h3 t3 I3. cbv beta in I3. cbn [app] in I3.
  eapply spec_Keep_Bad; [exact (G _ _ Xa)|]. eapply push_back_spec; [exact I3|exact Hc].
Qed.
End S.
End Wide.
