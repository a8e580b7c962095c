(** Ranges of forward iterators: copying one character after the other. *)
Require Import ZArith List Bool Lia Permutation.
From Verif Require Import Base BaseProofs StrSpec StrModel StrStatements StrProofs StrProofs2 StrProofs3 StrProofs4 StrProofs5 StrProofs6 StrProofs7 StrQuiet StrProofs8 StrProofs9 StrProofs10 StrProofs11 StrProofs12 StrProofs13 StrProofs14 StrStreamProofs StrCases StrOwnStatements StrOwnProofs StrRangeModel StrRangeSpec.
Import ListNotations.
Open Scope Z_scope.

Lemma Forall2_impl {A B} (P Q : A -> B -> Prop) l m : (forall x y, P x y -> Q x y) -> Forall2 P l m -> Forall2 Q l m.
Proof. intros H. induction 1; constructor; auto. Qed.
(** Writing at [off] and on what the functions give of the text so far. *)
Fixpoint wr (off : Z) (fs : list (list (option Z) -> option Z)) (l : list (option Z)) : list (option Z) :=
  match fs with [] => l | f :: r => wr (off + 1) r (splice off 1 [f l] l) end.
Lemma slen_wr fs : forall off l, 0 <= off -> off + slen fs <= slen l -> slen (wr off fs l) = slen l.
Proof.
  induction fs as [|f r IH]; cbn [wr]; intros off l H H'; [reflexivity|]. rewrite slen_cons in H'. pose proof (slen_nonneg r).
  assert (slen (splice off 1 [f l] l) = slen l) by (rewrite slen_splice by lia; change (slen [f l]) with 1; lia). rewrite IH; lia.
Qed.
Lemma wr_const x : forall off l, 0 <= off -> off + slen x <= slen l -> wr off (map (fun v _ => v) x) l = splice off (slen x) x l.
Proof.
  induction x as [|v x IH]; cbn [map wr]; intros off l H H'; [rewrite slen_nil in *; unfold splice; rewrite Z.add_0_r; cbn [app]; symmetry; apply firstn_skipn|]. rewrite slen_cons in *. pose proof (slen_nonneg x).
  assert (L1 : slen [v] = 1) by reflexivity. assert (L2 : slen (splice off 1 [v] l) = slen l) by (rewrite slen_splice, L1 by lia; lia).
  rewrite IH by lia. apply lext; [rewrite !slen_splice, !slen_cons by lia; change (slen (@nil (option Z))) with 0; lia|]. intros i Hi. rewrite slen_splice, L2 in Hi by lia.
  rewrite !lget_splice by lia. rewrite L1, slen_cons. replace (i - slen x + slen x) with i by lia.
  destruct (Z.ltb_spec i (off + 1)), (Z.ltb_spec i off); try lia; try reflexivity.
  - destruct (Z.ltb_spec i (off + (1 + slen x))); [|lia]. replace (i - off) with 0 by lia. reflexivity.
  - destruct (Z.ltb_spec i (off + 1 + slen x)), (Z.ltb_spec i (off + (1 + slen x))); try lia.
    + unfold lget. replace (Z.to_nat (i - off)) with (S (Z.to_nat (i - (off + 1)))) by lia. reflexivity.
    + f_equal. lia.
Qed.

Section Wide.
Context {ChT : CharType}.
Lemma ptr_add_add o a b : ptr_add (ptr_add (data o) a) b = ptr_add (data o) (a + b).
Proof. unfold data. destruct (category o =? is_small); reflexivity. Qed.
Lemma piece_one l k : 0 <= k < slen l -> piece k 1 l = [lget l k].
Proof. intros H. apply lext; [slens; reflexivity|]. intros i. slens. intros Hi. rewrite lget_piece by lia. assert (i = 0) as -> by lia. rewrite Z.add_0_r. reflexivity. Qed.

Section S.
Variables (dbg arena : bool) (mal : nat -> Z -> bool) (ar N : Z).
Notation INV := (StrProofs2.Inv dbg arena mal ar N).
Notation Keep := (StrProofs3.Keep dbg arena mal ar N).
Notation Bad := (StrProofs6.Bad dbg arena mal ar N).

(** Where a character is taken from: elsewhere, or one of the first [m] of the own text. *)
Inductive fetch (R : pairs) (o : core) (m : Z) : ptr -> (list (option Z) -> option Z) -> Prop :=
| f_out p x : src R p 1 [x] -> isb x -> fetch R o m p (fun _ => x)
| f_own k : 0 <= k < m -> fetch R o m (ptr_add (data o) k) (fun l => lget l k).
Lemma fetch_data R o o' m p f : data o' = data o -> fetch R o m p f -> fetch R o' m p f.
Proof. intros E [p' x S B|k H]; [constructor; assumption|]. rewrite <- E. constructor. exact H. Qed.

Lemma copy_cells_own R m : forall ps fs h o l off, Forall2 (fetch R o m) ps fs ->
  INV h ((o, l) :: R) -> unique h o -> m <= slen l -> (forall k, 0 <= k < m -> isb (lget l k)) -> 0 <= off -> off + slen fs <= slen l ->
  exists h' o', copy_cells ps (ptr_add (data o) off) h o = Ret tt h' o' /\ INV h' ((o', wr off fs l) :: R) /\ data o' = data o /\ unique h' o' /\
    (forall k, 0 <= k < m -> isb (lget (wr off fs l) k)).
Proof.
  induction ps as [|p ps IH]; intros fs h o l off F I U Hm G H1 H2; inversion F as [|? f ? fs' Fp Fr]; subst.
  - exists h, o. cbn [copy_cells wr]. split; [reflexivity|]. auto.
  - rewrite slen_cons in H2. pose proof (slen_nonneg fs') as H3. cbn [copy_cells wr].
    assert (RD : read p 1 h o = Ret [f l] h o).
    { destruct Fp as [p x S B|k Hk]; [eapply Inv_tail_src; [exact I|exact S]|].
      rewrite (own_read _ _ _ _ _ _ _ _ _ k 1 I) by lia. rewrite piece_one by lia. reflexivity. }
    assert (B : isb (f l)) by (destruct Fp as [p x S B|k Hk]; [exact B|apply G; exact Hk]).
    destruct (move_own dbg arena mal ar N h o l R off p 1 [f l] I (or_introl U) RD) as (h1 & o1 & W & I1 & D1 & _ & U1 & _);
      [reflexivity|constructor; [exact B|constructor]|lia|lia|].
    unfold bnd. rewrite W. rewrite ptr_add_add, <- D1.
    assert (L1 : slen (splice off 1 [f l] l) = slen l) by (rewrite slen_splice by lia; change (slen [f l]) with 1; lia).
    destruct (IH fs' h1 o1 (splice off 1 [f l] l) (off + 1)) as (h2 & o2 & W2 & I2 & D2 & U2 & G2); [|exact I1|exact (U1 U)|lia| |lia|lia|].
    + eapply Forall2_impl; [|exact Fr]. intros p' f'. apply fetch_data. exact D1.
    + intros k Hk. rewrite lget_splice by lia. change (slen [f l]) with 1.
      destruct (Z.ltb_spec k off); [apply G; exact Hk|]. destruct (Z.ltb_spec k (off + 1)); [replace (k - off) with 0 by lia; exact B|].
      replace (k - 1 + 1) with k by lia. apply G. exact Hk.
    + exists h2, o2. split; [exact W2|]. split; [exact I2|]. split; [congruence|]. auto.
Qed.

Lemma fetch_const R o m ps x : Forall2 (fun p v => src R p 1 [v] /\ isb v) ps x -> Forall2 (fetch R o m) ps (map (fun v _ => v) x).
Proof. induction 1 as [|p v ps x (S & B)]; constructor; [constructor; assumption|assumption]. Qed.
Lemma Forall2_slen {A B} (P : A -> B -> Prop) l m : Forall2 P l m -> slen l = slen m.
Proof. unfold slen. induction 1; cbn [length]; lia. Qed.
Definition outer (R : pairs) (ps : list ptr) (x : list (option Z)) : Prop := Forall2 (fun p v => src R p 1 [v] /\ isb v) ps x.
Lemma outer_good R ps x : outer R ps x -> good x.
Proof. induction 1 as [|p v ps x (S & B)]; constructor; assumption. Qed.
Lemma outer_split R n ps x : outer R ps x -> outer R (firstn n ps) (firstn n x) /\ outer R (skipn n ps) (skipn n x).
Proof.
  intros H. revert n. induction H as [|p v ps x H0 H IH]; intros [|n]; cbn [firstn skipn]; split; try constructor; try assumption.
  - apply IH. - apply IH.
Qed.
Lemma copy_outer h o l R ps x off : INV h ((o, l) :: R) -> unique h o -> outer R ps x -> 0 <= off -> off + slen x <= slen l ->
  exists h' o', copy_cells ps (ptr_add (data o) off) h o = Ret tt h' o' /\ INV h' ((o', splice off (slen x) x l) :: R) /\ data o' = data o /\ unique h' o'.
Proof.
  intros I U X H1 H2. assert (LM : slen (map (fun (v : option Z) (_ : list (option Z)) => v) x) = slen x) by apply slen_map.
  destruct (copy_cells_own R 0 ps (map (fun v _ => v) x) h o l off) as (h' & o' & W & I' & D & U' & _);
    [apply fetch_const; exact X|exact I|exact U|apply slen_nonneg|lia|exact H1|rewrite LM; exact H2|].
  rewrite wr_const in I' by assumption. exists h', o'. auto.
Qed.

(** ** insert *)
Lemma insert_cells_spec h o l R pos ps x : INV h ((o, l) :: R) -> outer R ps x -> good l -> 0 <= pos <= slen l -> slen x < limit ->
  spec (insert_cells dbg arena mal pos ps) h o (fun _ h' o' => INV h' ((o', splice pos 0 x l) :: R)) (Keep o l R).
Proof.
  intros I X Gl Hp Hn. pose proof (len_ok _ _ _ _ _ _ _ _ _ I) as LO. pose proof (Forall2_slen _ _ _ X) as LX. pose proof (slen_nonneg x) as L0.
  unfold insert_cells. rewrite LX. eapply guard_keep; [exact I|]. apply spec_size. rewrite (size_ok _ _ _ _ _ _ _ _ _ I).
  apply spec_assert; [apply andb_true_intro; split; apply Z.leb_le; lia|]. cbv zeta.
  eapply spec_bnd; [eapply expand_spec; [exact I|lia|lia]|]. intros q h' o' (u & I' & Lu & _ & _).
  eapply begin_then; [exact I'|]. intros h2 o2 I2 U _.
  assert (RD : read (ptr_add (data o2) pos) (slen l - pos) h2 o2 = Ret (piece pos (slen l - pos) l) h2 o2).
  { rewrite (own_read _ _ _ _ _ _ _ _ _ pos (slen l - pos) I2) by (slens; lia). f_equal. lists. }
  destruct (move_own _ _ _ _ _ h2 o2 (l ++ u) R (pos + slen x) _ _ _ I2 (or_introl U) RD) as (h3 & o3 & W & I3 & D3 & _ & U3 & _);
    [slens; lia|apply good_piece; exact Gl|lia|slens; lia|].
  eapply spec_eq; [exact W|]. rewrite <- (data_eq o2 o3 D3).
  destruct (copy_outer h3 o3 _ R ps x pos I3 (U3 U) X) as (h4 & o4 & W4 & I4 & _); [lia|slens; lia|].
  eapply spec_ret_eq; [exact W4|]. cbv beta. rewrite insert_list in I4 by lia. exact I4.
Qed.
(** ** replace *)
Lemma replace_cells_spec h o l R pos n1 ps x : INV h ((o, l) :: R) -> unique h o -> outer R ps x -> good l -> 0 <= pos -> 0 <= n1 -> pos + n1 <= slen l -> slen x < limit ->
  spec (replace_cells dbg arena mal pos n1 ps) h o (fun _ h' o' => INV h' ((o', splice pos n1 x l) :: R)) (Bad R).
Proof.
  intros I U X Gl H1 H2 H3 Hn. pose proof (outer_good _ _ _ X) as G. pose proof (Forall2_slen _ _ _ X) as LX. pose proof (slen_nonneg x) as L0.
  unfold replace_cells. rewrite LX. eapply guard_bad; [exact I|]. cbv zeta. apply spec_this.
  eapply spec_bnd with (Q1 := fun _ h' o' => INV h' ((o', splice pos n1 x l) :: R)).
  2:{ intros a h' o' I'. cbv beta in I'. eapply check_end; [exact I'|exact I']. }
  destruct (Z.ltb_spec (slen x) n1).
  - destruct (copy_outer h o l R ps x pos I U X) as (h2 & o2 & W & I2 & _); [lia|lia|]. eapply spec_eq; [exact W|].
    eapply spec_imp; [eapply erase_range_spec; [exact I2|apply good_splice; assumption|slens; lia|lia]| |intros ? ? ? X0; exact X0].
    intros a h3 o3 I3. cbv beta in I3. rewrite replace_shorter in I3 by lia. exact I3.
  - destruct (outer_split R (Z.to_nat n1) ps x X) as (Xa & Xb).
    assert (La : slen (firstn (Z.to_nat n1) x) = n1) by (apply (slen_stake n1 x); lia).
    assert (Lb : slen (skipn (Z.to_nat n1) x) = slen x - n1) by (apply (slen_sdrop n1 x); lia).
    destruct (copy_outer h o l R _ _ pos I U Xa) as (h2 & o2 & W & I2 & _); [lia|lia|]. eapply spec_eq; [exact W|]. rewrite La in I2.
    assert (G2 : good (splice pos n1 (firstn (Z.to_nat n1) x) l)) by (apply good_splice; [exact Gl|exact (outer_good _ _ _ Xa)]).
    eapply spec_Keep_Bad; [exact G2|]. eapply spec_imp; [eapply insert_cells_spec; [exact I2|exact Xb|exact G2|rewrite slen_splice by lia; lia|lia]| |intros ? ? ? X0; exact X0].
    intros a h3 o3 I3. cbv beta in I3. change (firstn (Z.to_nat n1) x) with (stake n1 x) in I3. change (skipn (Z.to_nat n1) x) with (sdrop n1 x) in I3.
    rewrite replace_longer in I3 by lia. exact I3.
Qed.

(** ** The own characters, in place *)
Definition local (m : Z) (f : list (option Z) -> option Z) : Prop := forall l l', (forall k, 0 <= k < m -> lget l k = lget l' k) -> f l = f l'.
Lemma fetch_local R o m p f : fetch R o m p f -> local m f.
Proof. intros [p' x S B|k H] l l' E; [reflexivity|apply E; exact H]. Qed.
Lemma lget_one off f (l : list (option Z)) k : 0 <= off < slen l -> 0 <= k ->
  lget (splice off 1 [f l] l) k = if k =? off then f l else lget l k.
Proof.
  intros H H'. rewrite lget_splice by lia. change (slen [f l]) with 1. destruct (Z.ltb_spec k off), (Z.eqb_spec k off); try lia; try reflexivity.
  - subst. destruct (Z.ltb_spec off (off + 1)); [|lia]. rewrite Z.sub_diag. reflexivity.
  - destruct (Z.ltb_spec k (off + 1)); [lia|]. f_equal. lia.
Qed.
Lemma slen_one off f (l : list (option Z)) : 0 <= off < slen l -> slen (splice off 1 [f l] l) = slen l.
Proof. intros H. rewrite slen_splice by lia. change (slen [f l]) with 1. lia. Qed.
Lemma wr_agree m : forall fs off l1 l2, Forall (local m) fs -> slen l1 = slen l2 -> 0 <= off -> off + slen fs <= slen l1 -> m <= slen l1 ->
  (forall k, 0 <= k < slen l1 -> k < m \/ ~ (off <= k < off + slen fs) -> lget l1 k = lget l2 k) -> wr off fs l1 = wr off fs l2.
Proof.
  induction fs as [|f r IH]; intros off l1 l2 F L H1 H2 H3 A; cbn [wr].
  - apply lext; [exact L|]. intros k Hk. apply A; [exact Hk|]. right. change (slen (@nil (list (option Z) -> option Z))) with 0. lia.
  - inversion F as [|? ? Ff Fr]; subst. rewrite slen_cons in *. pose proof (slen_nonneg r).
    assert (E : f l1 = f l2) by (apply Ff; intros k Hk; apply A; [lia|left; lia]).
    apply IH; rewrite ?slen_one by lia; try lia; [exact Fr|]. intros k Hk D. rewrite !lget_one by lia.
    destruct (Z.eqb_spec k off); [exact E|]. apply A; [lia|]. lia.
Qed.
Definition gap (pos : Z) (u l : list (option Z)) : list (option Z) := splice (pos + slen u) (slen l - pos) (sdrop pos l) (l ++ u).
Lemma slen_gap pos u l : 0 <= pos <= slen l -> slen (gap pos u l) = slen l + slen u.
Proof. intros H. pose proof (slen_nonneg u). unfold gap. rewrite slen_splice by (rewrite ?slen_app; lia). rewrite slen_app, slen_sdrop by lia. lia. Qed.
Lemma lget_gap pos u l k : 0 <= pos <= slen l -> 0 <= k < slen l \/ pos + slen u <= k < slen l + slen u ->
  lget (gap pos u l) k = if k <? pos + slen u then lget l k else lget l (k - slen u).
Proof.
  intros H Hk. pose proof (slen_nonneg u). unfold gap. rewrite lget_splice by (rewrite ?slen_app; lia). rewrite slen_sdrop by lia.
  destruct (Z.ltb_spec k (pos + slen u)).
  - rewrite lget_app by lia. destruct (Z.ltb_spec k (slen l)); [reflexivity|lia].
  - destruct (Z.ltb_spec k (pos + slen u + (slen l - pos))); [|lia]. rewrite lget_sdrop by lia. f_equal. lia.
Qed.
Lemma insert_cells_in_place h o l R pos ps fs v : INV h ((o, l) :: R) -> good l -> unique h o -> Forall2 (fetch R o (slen l)) ps fs ->
  0 <= pos <= slen l -> slen v = slen fs -> fits dbg arena h o (slen l + slen fs) -> slen fs < limit ->
  spec (insert_cells dbg arena mal pos ps) h o (fun _ h' o' => INV h' ((o', wr pos fs (gap pos v l)) :: R)) (Keep o l R).
Proof.
  intros I Gl U X Hp Lv F Hn. pose proof (len_ok _ _ _ _ _ _ _ _ _ I) as LO. pose proof (Forall2_slen _ _ _ X) as LX. pose proof (slen_nonneg fs) as L0.
  unfold insert_cells. rewrite LX. eapply guard_keep; [exact I|]. apply spec_size. rewrite (size_ok _ _ _ _ _ _ _ _ _ I).
  apply spec_assert; [apply andb_true_intro; split; apply Z.leb_le; lia|]. cbv zeta.
  eapply spec_bnd; [apply spec_quiet; [eapply expand_spec; [exact I|lia|lia]|eapply expand_quiet; [exact I|lia|exact F]]|].
  intros q h' o' ((u & I' & Lu & _ & _) & SM & ST & _ & HE).
  pose proof (data_stay _ _ ST HE) as DE. pose proof (unique_same _ _ _ _ U SM ST HE) as U'.
  eapply begin_then; [exact I'|]. intros h2 o2 I2 U2 SE. destruct (SE U') as (-> & ->). clear SE.
  assert (RD : read (ptr_add (data o') pos) (slen l - pos) h' o' = Ret (sdrop pos l) h' o').
  { rewrite (own_read _ _ _ _ _ _ _ _ _ pos (slen l - pos) I2) by (slens; lia). f_equal. lists. }
  destruct (move_own _ _ _ _ _ h' o' (l ++ u) R (pos + slen fs) _ _ _ I2 (or_introl U2) RD) as (h3 & o3 & W & I3 & D3 & _ & U3 & _);
    [slens; lia|apply Forall_skipn; exact Gl|lia|slens; lia|].
  eapply spec_eq; [exact W|]. rewrite <- (data_eq o' o3 D3).
  assert (GE : splice (pos + slen fs) (slen l - pos) (sdrop pos l) (l ++ u) = gap pos u l) by (unfold gap; rewrite Lu; reflexivity).
  rewrite GE in I3.
  destruct (copy_cells_own R (slen l) ps fs h3 o3 (gap pos u l) pos) as (h4 & o4 & W4 & I4 & _); [|exact I3|exact (U3 U2)|rewrite slen_gap by lia; lia| |lia|rewrite slen_gap by lia; lia|].
  - eapply Forall2_impl; [|exact X]. intros p f. apply fetch_data. congruence.
  - intros k Hk. rewrite lget_gap by lia. destruct (Z.ltb_spec k (pos + slen u)); apply (proj1 (lget_Forall isb l) Gl); lia.
  - eapply spec_ret_eq; [exact W4|]. cbv beta. rewrite (wr_agree (slen l) fs pos (gap pos v l) (gap pos u l)); [exact I4| | |lia| | |].
    + clear -X. induction X; constructor; [eapply fetch_local; eassumption|assumption].
    + rewrite !slen_gap by lia. lia.
    + rewrite slen_gap by lia. lia.
    + rewrite slen_gap by lia. lia.
    + intros k Hk D. rewrite slen_gap in Hk by lia. rewrite !lget_gap by lia. replace (slen v) with (slen u) by lia. reflexivity.
Qed.
Lemma replace_cells_in_place h o l R pos n1 ps fs : INV h ((o, l) :: R) -> good l -> unique h o -> Forall2 (fetch R o (slen l)) ps fs ->
  0 <= pos -> pos + n1 <= slen l -> slen fs <= n1 ->
  spec (replace_cells dbg arena mal pos n1 ps) h o (fun _ h' o' => INV h' ((o', splice (pos + slen fs) (n1 - slen fs) [] (wr pos fs l)) :: R)) (Bad R).
Proof.
  intros I Gl U X H1 H2 H3. pose proof (Forall2_slen _ _ _ X) as LX. pose proof (slen_nonneg fs) as L0.
  unfold replace_cells. rewrite LX. eapply guard_bad; [exact I|]. cbv zeta. apply spec_this.
  eapply spec_bnd with (Q1 := fun _ h' o' => INV h' ((o', splice (pos + slen fs) (n1 - slen fs) [] (wr pos fs l)) :: R)).
  2:{ intros a h' o' I'. cbv beta in I'. eapply check_end; [exact I'|exact I']. }
  destruct (copy_cells_own R (slen l) ps fs h o l pos X I U) as (h2 & o2 & W & I2 & _ & _ & G2); [lia|apply (proj1 (lget_Forall isb l)); exact Gl|lia|lia|].
  assert (L2 : slen (wr pos fs l) = slen l) by (apply slen_wr; lia).
  assert (Gw : good (wr pos fs l)) by (apply lget_Forall; rewrite L2; exact G2).
  destruct (Z.ltb_spec (slen fs) n1).
  - eapply spec_eq; [exact W|].
    eapply spec_imp; [eapply erase_range_spec; [exact I2|exact Gw|lia|lia]| |intros ? ? ? X0; exact X0].
    intros a h3 o3 I3. cbv beta in I3. replace (pos + n1 - (pos + slen fs)) with (n1 - slen fs) in I3 by lia. exact I3.
  - assert (n1 = slen fs) as -> by lia. replace (firstn (Z.to_nat (slen fs)) ps) with ps by (symmetry; apply firstn_all2; unfold slen in *; lia).
    replace (skipn (Z.to_nat (slen fs)) ps) with (@nil ptr) by (symmetry; apply skipn_all2; unfold slen in *; lia).
    eapply spec_eq; [exact W|]. eapply spec_Keep_Bad; [exact Gw|].
    eapply spec_imp; [eapply (insert_cells_spec h2 o2 _ R (pos + slen fs) [] []); [exact I2|constructor|exact Gw|lia|]| |intros ? ? ? X0; exact X0].
    + change (slen (@nil (option Z))) with 0. pose proof (len_ok _ _ _ _ _ _ _ _ _ I). lia.
    + intros a h3 o3 I3. cbv beta in I3. rewrite Z.sub_diag. exact I3.
Qed.
End S.
End Wide.
