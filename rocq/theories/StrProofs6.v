(** Member functions of one string: append, assign, erase, insert, replace. *)
Require Import ZArith List Bool Lia Permutation.
From Verif Require Import Base BaseProofs StrSpec StrModel StrProofs StrProofs2 StrProofs3 StrProofs4 StrProofs5.
Import ListNotations.
Open Scope Z_scope.

(** Equalities of lists of characters, by position. *)
Ltac slens := repeat first
  [ rewrite slen_app | rewrite slen_nil | rewrite slen_cons | rewrite slen_map
  | rewrite slen_splice by (slens; lia) | rewrite slen_piece by (slens; lia) | rewrite slen_stake by (slens; lia)
  | rewrite slen_sdrop by (slens; lia) | rewrite slen_srep by (slens; lia) ].
Ltac lgets1 :=
  first [ rewrite lget_splice by (slens; lia) | rewrite lget_app by lia | rewrite lget_piece by lia
        | rewrite lget_stake by lia | rewrite lget_sdrop by lia | rewrite lget_srep by lia ]; slens.
Ltac lgets := repeat first
  [ lgets1
  | match goal with |- context [?a <? ?b] => destruct (Z.ltb_spec a b); try lia end ];
  try lia; try reflexivity; try (f_equal; lia).
Ltac nn := repeat match goal with
  |- context [slen ?y] => lazymatch goal with H : 0 <= slen y |- _ => fail | _ => pose proof (slen_nonneg y) end end.
Ltac lists := apply lext; [slens; lia|slens; nn; intros ?i ?Hi; lgets].


Section Wide.
Context {ChT : CharType}.

Section S.
Variables (dbg arena : bool) (mal : nat -> Z -> bool) (ar N : Z).
Notation Inv := (StrProofs2.Inv dbg arena mal ar N).
Notation Keep := (StrProofs3.Keep dbg arena mal ar N).
Notation expanded := (StrProofs5.expanded dbg arena mal ar N).

(** A failed operation: the string has some value, or its characters were
    taken away by a failed realloc. *)
Definition Bad (R : pairs) (e : exn) (h' : heap) (o' : core) : Prop :=
  e = BadAlloc /\ h_refused h' = true /\
  ((exists l', good l' /\ Inv h' ((o', l') :: R)) \/ (arena = false /\ h_rfail h' = true /\ dangling h' o' /\ Inv h' R)).
Lemma Keep_Bad o l R e h' o' : good l -> Keep o l R e h' o' -> Bad R e h' o'.
Proof.
  intros G (-> & F & [(-> & I)|(_ & EA & RF & D & I)]); (split; [reflexivity|]); (split; [exact F|]); [left; eauto|right; auto].
Qed.
Lemma Bad_settled R e h' o' : Bad R e h' o' -> settled h' o'.
Proof. intros (_ & _ & [(l' & _ & I)|(_ & F & D & _)]); [eapply Inv_settled; exact I|right; auto]. Qed.
Lemma Bad_refused R e h' o' : Bad R e h' o' -> h_refused h' = true. Proof. intros (_ & F & _). exact F. Qed.
Lemma Keep_closed o l R R' e h' o' : (forall h' x, Inv h' (x :: R') -> Inv h' (x :: R)) -> (forall h', Inv h' R' -> Inv h' R) ->
  Keep o l R' e h' o' -> Keep o l R e h' o'.
Proof.
  intros C1 C2 (-> & F & [(-> & I)|(Hh & EA & RF & D & I)]); (split; [reflexivity|]); (split; [exact F|]).
  - left. auto.
  - right. auto 6.
Qed.

(** Guarded operations that keep the invariant. *)
Lemma guard_keep {A} (m : M A) h o l l' R : Inv h ((o, l) :: R) ->
  spec m h o (fun _ h' o' => Inv h' ((o', l') :: R)) (Keep o l R) ->
  spec (guarded dbg m) h o (fun _ h' o' => Inv h' ((o', l') :: R)) (Keep o l R).
Proof.
  intros I H. destruct (Inv_head _ _ _ _ _ _ _ _ _ I) as (RP & _).
  eapply spec_guarded; [exact RP|exact H|intros a h' o' I'; eapply Inv_settled; exact I'|intros e h' o' X; eapply Keep_settled; exact X].
Qed.
Lemma guard_bad {A} (m : M A) h o l l' R : Inv h ((o, l) :: R) ->
  spec m h o (fun _ h' o' => Inv h' ((o', l') :: R)) (Bad R) ->
  spec (guarded dbg m) h o (fun _ h' o' => Inv h' ((o', l') :: R)) (Bad R).
Proof.
  intros I H. destruct (Inv_head _ _ _ _ _ _ _ _ _ I) as (RP & _).
  eapply spec_guarded; [exact RP|exact H|intros a h' o' I'; eapply Inv_settled; exact I'|intros e h' o' X; eapply Bad_settled; exact X].
Qed.
(** An exception thrown before anything was done. *)
Lemma guard_throw {A} (m : M A) h o l e : rep h o l -> m h o = Thr e h o -> guarded dbg m h o = Thr e h o.
Proof.
  intros RP E. unfold guarded, bnd. rewrite (check_ok dbg _ _ _ RP), E, (check_ok dbg _ _ _ RP). reflexivity.
Qed.
Lemma spec_Keep_Bad {A} (m : M A) h o o0 l R (Q : A -> heap -> core -> Prop) : good l -> spec m h o Q (Keep o0 l R) -> spec m h o Q (Bad R).
Proof. intros G H. eapply spec_imp; [exact H|auto|]. intros e h' o' X. eapply Keep_Bad; eassumption. Qed.
Lemma size_ok h o l R : Inv h ((o, l) :: R) -> size o = slen l.
Proof. intros I. destruct (Inv_head _ _ _ _ _ _ _ _ _ I) as (RP & _). apply (rep_size _ _ _ RP). Qed.
Lemma len_ok h o l R : Inv h ((o, l) :: R) -> 0 <= slen l < limit.
Proof. intros I. destruct (Inv_head _ _ _ _ _ _ _ _ _ I) as (RP & _). apply (rep_bound _ _ _ RP). Qed.
Lemma own_read h o l R off n : Inv h ((o, l) :: R) -> 0 <= off -> 0 <= n -> off + n <= slen l ->
  read (ptr_add (data o) off) n h o = Ret (piece off n l) h o.
Proof. intros I. destruct (Inv_head _ _ _ _ _ _ _ _ _ I) as (RP & _). intros. apply read_own; assumption. Qed.
Lemma size_end h o l R n (Q : unit -> heap -> core -> Prop) E : Inv h ((o, l) :: R) -> slen l = n -> Q tt h o ->
  spec (let* sz := size_m in assertM dbg (sz =? n)) h o Q E.
Proof. intros I L H. apply spec_size. apply spec_assert_end; [|exact H]. rewrite (size_ok _ _ _ _ I). apply Z.eqb_eq. exact L. Qed.

(** ** The source of an operation on [o] *)
Definition asrc (o : core) (l : list (option Z)) (R : pairs) (p : ptr) (n : Z) (x : list (option Z)) : Prop :=
  src ((o, l) :: R) p n x \/
  (heapy o = false /\ exists off, p = PSelf off /\ 0 <= off /\ 0 <= n /\ off + n <= slen l /\ x = piece off n l).
Lemma asrc_len o l R p n x : asrc o l R p n x -> 0 <= n /\ slen x = n.
Proof.
  intros [S|(_ & off & _ & H1 & H2 & H3 & ->)]; [eapply src_range; exact S|]. split; [exact H2|apply slen_piece; assumption].
Qed.
Lemma asrc_src o l R p n x : src R p n x -> asrc o l R p n x.
Proof. intros S. left. eapply src_mono; [|exact S]. intros y Y. right. exact Y. Qed.
Lemma asrc_own h o l R off n : Inv h ((o, l) :: R) -> 0 <= off -> 0 <= n -> off + n <= slen l ->
  asrc o l R (ptr_add (data o) off) n (piece off n l).
Proof.
  intros I H1 H2 H3. destruct (heapy o) eqn:H.
  - left. pose proof (src_export dbg arena mal ar N h ((o, l) :: R) o l off n I (or_introl eq_refl) H1 H2 H3) as X.
    rewrite (data_heap _ H) in *. exact X.
  - right. split; [exact H|]. exists off. rewrite (data_small _ H). auto.
Qed.
Lemma asrc_read h o l R p n x : Inv h ((o, l) :: R) -> asrc o l R p n x -> read p n h o = Ret x h o.
Proof.
  intros I [S|(H & off & -> & H1 & H2 & H3 & ->)]; [eapply read_src; eassumption|].
  pose proof (own_read _ _ _ _ off n I H1 H2 H3) as X. rewrite (data_small _ H) in X. exact X.
Qed.
Lemma asrc_cases h o l R p n x : Inv h ((o, l) :: R) -> asrc o l R p n x -> 0 < n ->
  (points_into p (data o) (slen l) = true /\ 0 <= distance p (data o) /\ distance p (data o) + n <= slen l /\ x = piece (distance p (data o)) n l) \/
  (points_into p (data o) (slen l) = false /\ src R p n x).
Proof.
  intros I [(N0 & Lx & S)|(H & off & -> & H1 & H2 & H3 & ->)] Hn.
  - destruct p as [y|b off|e].
    + contradiction.
    + destruct S as (O0 & oj & lj & X & Hj & Eb & Le & ->).
      destruct (heapy o) eqn:H.
      * rewrite (data_heap _ H). cbn [points_into distance]. rewrite Z.sub_0_r. destruct (Z.eqb_spec b (c_data o)) as [E|E].
        -- left. assert (l = lj) as <-.
           { eapply same_value; [exact I|left; reflexivity|exact X|exact H|exact Hj|congruence]. }
           destruct (Z.leb_spec 0 off), (Z.ltb_spec off (0 + slen l)); try lia. auto.
        -- right. split; [reflexivity|]. split; [exact N0|]. split; [exact Lx|]. split; [exact O0|]. exists oj, lj.
           split; [|auto]. destruct X as [X|X]; [injection X as <- <-; congruence|exact X].
      * right. rewrite (data_small _ H). split; [reflexivity|]. split; [exact N0|]. split; [exact Lx|]. split; [exact O0|]. exists oj, lj.
        split; [|auto]. destruct X as [X|X]; [injection X as <- <-; congruence|exact X].
    + right. split; [destruct (data o); reflexivity|]. split; [exact N0|]. split; [exact Lx|]. exact S.
  - left. rewrite (data_small _ H). cbn [points_into distance]. rewrite Z.sub_0_r.
    destruct (Z.leb_spec 0 off), (Z.ltb_spec off (0 + slen l)); try lia. auto.
Qed.
Lemma asrc_pin h o l R p n x : Inv h ((o, l) :: R) -> asrc o l R p n x ->
  unique h o \/
  exists R', src R' p n x /\ Inv h ((o, l) :: R') /\ (forall y, In y R -> In y R') /\
    (forall h' x, Inv h' (x :: R') -> Inv h' (x :: R)) /\ (forall h', Inv h' R' -> Inv h' R).
Proof.
  intros I A. destruct (unique_dec _ _ _ _ _ _ _ _ _ I) as [U|(k & cap & r & HR & K & Hr)]; [left; exact U|right].
  destruct (pin_shared _ _ _ _ _ h R o l k cap r I HR K Hr) as (o' & R' & C0 & X & H' & Ed & I' & C1 & C2).
  exists R'. split; [|auto]. pose proof (heap_heapy _ _ _ _ _ HR) as H.
  destruct A as [(N0 & Lx & S)|(H2 & _)]; [|congruence]. split; [exact N0|]. split; [exact Lx|].
  destruct p as [y|b off|e]; [contradiction| |exact S]. destruct S as (O0 & oj & lj & Y & Hj & Eb & Le & E). split; [exact O0|].
  destruct Y as [Y|Y].
  - injection Y as <- <-. exists o', l. split; [exact X|]. split; [exact H'|]. split; [congruence|auto].
  - exists oj, lj. auto.
Qed.
Lemma asrc_long h o l R p n x : Inv h ((o, l) :: R) -> asrc o l R p n x -> slen l < n -> src R p n x.
Proof.
  intros I A Hn. pose proof (len_ok _ _ _ _ I). destruct (asrc_cases _ _ _ _ _ _ _ I A ltac:(lia)) as [(_ & D0 & D1 & _)|(_ & S)]; [lia|exact S].
Qed.

(** ** append *)
Lemma append_spec h o l R p n x : Inv h ((o, l) :: R) -> asrc o l R p n x -> good x -> n < limit ->
  spec (append dbg arena mal p n) h o (fun _ h' o' => Inv h' ((o', l ++ x) :: R)) (Keep o l R).
Proof.
  intros I A G Hn. destruct (asrc_len _ _ _ _ _ _ A) as (N0 & Lx). pose proof (len_ok _ _ _ _ I) as LO.
  unfold append. eapply guard_keep; [exact I|]. destruct (Z.eqb_spec n 0).
  { apply spec_ret. rewrite (slen_0 x) by lia. rewrite app_nil_r. exact I. }
  apply spec_this. cbv zeta. rewrite (size_ok _ _ _ _ I).
  eapply spec_bnd; [eapply expand_spec; [exact I|lia|lia]|]. intros q h' o' (u & I' & Lu & -> & U). specialize (U ltac:(lia)).
  assert (FIN : forall h2 o2, Inv h2 ((o2, splice (slen l) n x (l ++ u)) :: R) ->
    spec (let* sz := size_m in assertM dbg (sz =? add64 (slen l) n)) h2 o2 (fun _ h' o' => Inv h' ((o', l ++ x) :: R)) (Keep o l R)).
  { intros h2 o2 I2. rewrite <- Lx, splice_end in I2 by congruence. eapply size_end; [exact I2| |exact I2].
    rewrite add_small by lia. rewrite slen_app. lia. }
  destruct (asrc_cases _ _ _ _ _ _ _ I A ltac:(lia)) as [(-> & D0 & D1 & EX)|(-> & S)].
  - apply spec_assoc. apply spec_assert; [apply Z.leb_le; lia|]. apply spec_assoc, spec_this. set (d := distance p (data o)) in *.
    assert (RD : read (ptr_add (data o') d) n h' o' = Ret x h' o').
    { rewrite (own_read _ _ _ _ d n I') by (slens; lia). f_equal. rewrite EX. lists. }
    destruct (move_own _ _ _ _ _ h' o' (l ++ u) R (slen l) (ptr_add (data o') d) n x I' (or_introl U) RD Lx G) as (h2 & o2 & W & I2 & _); [lia|slens; lia|].
    eapply spec_eq; [exact W|]. apply FIN. exact I2.
  - destruct (copy_own _ _ _ _ _ h' o' (l ++ u) R (slen l) p n x I' (or_introl U) S G) as (h2 & o2 & W & I2 & _); [lia|slens; lia|].
    eapply spec_eq; [exact W|]. apply FIN. exact I2.
Qed.
Lemma append_str_spec h o l R p n x : Inv h ((o, l) :: R) -> asrc o l R p n x -> good x -> n < limit ->
  spec (append_str dbg arena mal p n) h o (fun _ h' o' => Inv h' ((o', l ++ x) :: R)) (Keep o l R).
Proof.
  intros I A G Hn. destruct (asrc_len _ _ _ _ _ _ A) as (N0 & Lx). pose proof (len_ok _ _ _ _ I) as LO.
  unfold append_str. apply spec_size. eapply spec_bnd; [eapply append_spec; eassumption|]. intros a h' o' I'. cbv beta in I'.
  eapply size_end; [exact I'| |exact I']. rewrite (size_ok _ _ _ _ I), add_small by lia. slens. lia.
Qed.
Lemma append_n_spec h o l R n c : Inv h ((o, l) :: R) -> is_char c -> 0 <= n < limit ->
  spec (append_n dbg arena mal n c) h o (fun _ h' o' => Inv h' ((o', l ++ srep n (Some c)) :: R)) (Keep o l R).
Proof.
  intros I Hc Hn. pose proof (len_ok _ _ _ _ I) as LO. unfold append_n. eapply guard_keep; [exact I|].
  eapply spec_bnd; [eapply expand_spec; [exact I|lia|lia]|]. intros q h' o' (u & I' & Lu & -> & U).
  destruct (fill_own _ _ _ _ _ h' o' (l ++ u) R (slen l) n c I') as (h2 & o2 & W & I2 & _); try lia.
  - destruct (Z.eq_dec n 0); [right; assumption|left; apply U; lia].
  - exact Hc.
  - slens. lia.
  - eapply spec_ret_eq; [exact W|]. cbv beta.
    rewrite <- (splice_end l u (srep n (Some c))); rewrite slen_srep by lia; [exact I2|exact Lu].
Qed.
Lemma pop_back_spec h o l R (E : exn -> heap -> core -> Prop) : Inv h ((o, l) :: R) -> good l -> l <> [] ->
  spec (pop_back dbg arena mal) h o (fun _ h' o' => Inv h' ((o', stake (slen l - 1) l) :: R)) E.
Proof.
  intros I G NE. assert (1 <= slen l).
  { pose proof (slen_nonneg l). destruct (Z.eq_dec (slen l) 0) as [X|X]; [apply slen_0 in X; contradiction|lia]. }
  unfold pop_back. eapply spec_noexc; [|intros e h' o' X; eapply Keep_refused; exact X].
  apply spec_size. apply spec_assert; [rewrite (size_ok _ _ _ _ I); destruct (Z.eqb_spec (slen l) 0); [lia|reflexivity]|].
  eapply spec_imp; [eapply shrink_spec; [exact I|exact G|lia]| |intros e h' o' X; exact X].
  intros a h' o' (I' & _). exact I'.
Qed.

(** ** resize downwards, assign *)
Lemma resize_down h o l R n : Inv h ((o, l) :: R) -> good l -> 0 <= n <= slen l ->
  spec (resize dbg arena mal n 0) h o (fun _ h' o' => Inv h' ((o', stake n l) :: R)) (Keep o l R).
Proof.
  intros I G Hn. pose proof (len_ok _ _ _ _ I). eapply spec_imp; [eapply resize_spec; [exact I|exact G|unfold is_char; lia|lia]| |intros ? ? ? X0; exact X0].
  intros a h' o' I'. cbv beta in I'. replace (stake n l) with (stake n l ++ srep (n - slen l) (Some 0)); [exact I'|].
  unfold srep. replace (Z.to_nat (n - slen l)) with O by lia. apply app_nil_r.
Qed.

Lemma assign_spec h o l R p n x : Inv h ((o, l) :: R) -> asrc o l R p n x -> good l -> good x -> n < limit ->
  spec (assign dbg arena mal p n) h o (fun _ h' o' => Inv h' ((o', x) :: R)) (Bad R).
Proof.
  intros I A Gl G Hn. destruct (asrc_len _ _ _ _ _ _ A) as (N0 & Lx). pose proof (len_ok _ _ _ _ I) as LO.
  unfold assign. eapply guard_bad; [exact I|]. apply spec_size. rewrite (size_ok _ _ _ _ I).
  eapply spec_bnd with (Q1 := fun _ h' o' => Inv h' ((o', x) :: R)).
  2:{ intros a h' o' I'. cbv beta in I'. eapply size_end; [exact I'|exact Lx|exact I']. }
  destruct (Z.eqb_spec n 0).
  { rewrite (slen_0 x) by lia. eapply spec_Keep_Bad; [exact Gl|].
    eapply spec_imp; [eapply (resize_down h o l R 0); [exact I|exact Gl|lia]| |intros ? ? ? X0; exact X0]. intros a h' o' I'. exact I'. }
  destruct (Z.leb_spec n (slen l)).
  - (* within the present size *)
    assert (MAIN : forall R', Inv h ((o, l) :: R') -> (unique h o \/ src R' p n x) ->
      spec (let* q := mutable_data dbg arena mal in
            let* _ := pod_move p q n in
            let* sz1 := size_m in
            let* _ := shrink dbg arena mal (sz1 - n) in
            let* sz2 := size_m in assertM dbg (sz2 =? n)) h o (fun _ h' o' => Inv h' ((o', x) :: R')) (Bad R')).
    { intros R' I1 AS. eapply spec_bnd2; [eapply mutable_data_spec; exact I1|intros e h' o' X; eapply Keep_Bad; [exact Gl|exact X]|].
      intros q h' o' (I' & U & -> & SAME).
      assert (RD : read p n h' o' = Ret x h' o').
      { destruct AS as [U0|S]; [|eapply Inv_tail_src; eassumption]. destruct (SAME U0) as (-> & ->).
        exact (asrc_read _ _ _ _ _ _ _ I A). }
      destruct (move_own _ _ _ _ _ h' o' l R' 0 p n x I' (or_introl U) RD Lx G) as (h2 & o2 & W & I2 & _); [lia|lia|].
      rewrite ptr_add0 in W. eapply spec_eq; [exact W|]. apply spec_size. rewrite (size_ok _ _ _ _ I2).
      assert (L2 : slen (splice 0 n x l) = slen l) by (slens; lia).
      eapply spec_bnd2; [eapply shrink_spec; [exact I2|apply good_splice; assumption|rewrite L2; lia]|intros e h3 o3 X; eapply Keep_Bad; [|exact X]; apply good_splice; assumption|].
      intros a h3 o3 (I3 & _). rewrite L2 in I3.
      assert (stake (slen l - (slen l - n)) (splice 0 n x l) = x) as E3 by lists. rewrite E3 in I3.
      eapply size_end; [exact I3|exact Lx|exact I3]. }
    destruct (asrc_pin _ _ _ _ _ _ _ I A) as [U|(R' & S & I1 & _ & C1 & C2)].
    + apply MAIN; auto.
    + eapply spec_imp; [apply (MAIN R' I1 (or_intror S))| |].
      * intros a h' o' I'. apply C1. exact I'.
      * intros e h' o' (-> & F & [(l' & G' & I')|(EA & RF & D & I')]); (split; [reflexivity|]); (split; [exact F|]); [left; eauto|right; auto].
  - pose proof (asrc_long _ _ _ _ _ _ _ I A ltac:(lia)) as S.
    eapply spec_bnd2; [eapply (resize_down h o l R 0); [exact I|exact Gl|lia]|intros e h' o' X; eapply Keep_Bad; [exact Gl|exact X]|].
    intros a h' o' I'. cbv beta in I'. change (stake 0 l) with (@nil (option Z)) in I'.
    eapply spec_bnd2; [eapply expand_spec; [exact I'|lia|change (slen (@nil (option Z))) with 0; lia]|intros e h2 o2 X; eapply Keep_Bad; [apply good_nil|exact X]|].
    intros q h2 o2 (u & I2 & Lu & -> & U). specialize (U ltac:(lia)). cbn [app] in I2. change (slen (@nil (option Z))) with 0.
    destruct (copy_own _ _ _ _ _ h2 o2 u R 0 p n x I2 (or_introl U) S G) as (h3 & o3 & W & I3 & _); [lia|lia|].
    eapply spec_ret_eq; [exact W|]. replace x with (splice 0 n x u); [exact I3|lists].
Qed.

(** ** erase *)
Lemma begin_then {B} (f : ptr -> M B) h o l R (Q : B -> heap -> core -> Prop) E : Inv h ((o, l) :: R) ->
  (forall h' o', Inv h' ((o', l) :: R) -> unique h' o' -> (unique h o -> h' = h /\ o' = o) -> spec (f (data o')) h' o' Q E) ->
  spec (bnd (begin_ dbg arena mal) f) h o Q E.
Proof.
  intros I H. eapply spec_bnd; [eapply begin_spec; exact I|]. intros p h' o' (I' & U & -> & SAME). apply H; assumption.
Qed.
Lemma data_eq o o' : data o' = data o -> forall i, ptr_add (data o') i = ptr_add (data o) i.
Proof. intros ->. reflexivity. Qed.

Lemma erase_spec h o l R pos n : Inv h ((o, l) :: R) -> good l -> 0 <= pos <= slen l -> 0 <= n ->
  spec (erase dbg arena mal pos n) h o (fun _ h' o' => Inv h' ((o', splice pos n [] l) :: R)) (Bad R).
Proof.
  intros I G Hp Hn. pose proof (len_ok _ _ _ _ I) as LO. unfold erase. eapply guard_bad; [exact I|].
  apply spec_size. rewrite (size_ok _ _ _ _ I). unfold enforce. replace (pos <=? slen l) with true by (symmetry; apply Z.leb_le; lia).
  apply spec_bret. cbv zeta. set (n1 := if slen l - pos <? n then slen l - pos else n).
  assert (H1 : 0 <= n1 /\ pos + n1 <= slen l) by (unfold n1; destruct (Z.ltb_spec (slen l - pos) n); lia).
  assert (EQ : splice pos n [] l = splice pos n1 [] l).
  { unfold splice, n1. destruct (Z.ltb_spec (slen l - pos) n); [|reflexivity]. do 2 f_equal. unfold sdrop.
    rewrite !skipn_all2 by (unfold slen in *; lia). reflexivity. }
  rewrite EQ. eapply begin_then; [exact I|]. intros h' o' I' U _.
  pose proof (own_read _ _ _ _ (pos + n1) (slen l - (pos + n1)) I' ltac:(lia) ltac:(lia) ltac:(lia)) as RD.
  destruct (move_own _ _ _ _ _ h' o' l R pos _ _ _ I' (or_introl U) RD) as (h2 & o2 & W & I2 & _); [slens; lia|apply good_piece; exact G|lia|lia|].
  eapply spec_eq; [exact W|]. apply spec_size. rewrite (size_ok _ _ _ _ I2). clear EQ. set (l2 := splice pos (slen l - (pos + n1)) _ l) in *.
  assert (L2 : slen l2 = slen l) by (unfold l2; slens; lia). rewrite L2.
  assert (G2 : good l2) by (apply good_splice; [exact G|apply good_piece; exact G]).
  eapply spec_Keep_Bad; [exact G2|].
  eapply spec_imp; [eapply (resize_down h2 o2 l2 R (slen l - n1)); [exact I2|exact G2|lia]| |intros ? ? ? X0; exact X0].
  intros a h3 o3 I3. cbv beta in I3. replace (splice pos n1 [] l) with (stake (slen l - n1) l2); [exact I3|]. unfold l2. lists.
Qed.
Lemma erase_range_ok h o l R pos n : Inv h ((o, l) :: R) -> slen l < pos -> erase dbg arena mal pos n h o = Thr OutOfRange h o.
Proof.
  intros I H. destruct (Inv_head _ _ _ _ _ _ _ _ _ I) as (RP & _). unfold erase. eapply guard_throw; [exact RP|].
  unfold bnd at 1, size_m, bnd at 1, this, ret. rewrite (rep_size _ _ _ RP). destruct (Z.leb_spec pos (slen l)); [lia|reflexivity].
Qed.
Lemma erase_range_spec h o l R a b : Inv h ((o, l) :: R) -> good l -> 0 <= a <= slen l -> a <= b ->
  spec (erase_range dbg arena mal a b) h o (fun _ h' o' => Inv h' ((o', splice a (b - a) [] l) :: R)) (Bad R).
Proof.
  intros I G Ha Hb. unfold erase_range. eapply begin_then; [exact I|]. intros h' o' I' U _.
  eapply spec_bnd; [eapply erase_spec; [exact I'|exact G|lia|lia]|]. intros u h2 o2 I2. cbv beta in I2.
  eapply begin_then; [exact I2|]. intros h3 o3 I3 _ _. apply spec_ret. exact I3.
Qed.

(** ** insert *)
Lemma insert_list (l u x : list (option Z)) pos n : 0 <= pos <= slen l -> 0 <= n -> slen x = n -> slen u = n ->
  splice pos n x (splice (pos + n) (slen l - pos) (piece pos (slen l - pos) l) (l ++ u)) = splice pos 0 x l.
Proof. intros. lists. Qed.
Lemma insert_at_spec h o l R pos p n x : Inv h ((o, l) :: R) -> src R p n x -> good l -> good x -> 0 <= pos <= slen l -> n < limit ->
  spec (insert_at dbg arena mal pos p n) h o (fun _ h' o' => Inv h' ((o', splice pos 0 x l) :: R)) (Keep o l R).
Proof.
  intros I S Gl G Hp Hn. destruct (src_range _ _ _ _ S) as (N0 & Lx). pose proof (len_ok _ _ _ _ I) as LO.
  unfold insert_at. eapply guard_keep; [exact I|]. apply spec_size. rewrite (size_ok _ _ _ _ I).
  apply spec_assert; [apply andb_true_intro; split; apply Z.leb_le; lia|].
  eapply spec_bnd; [eapply expand_spec; [exact I|lia|lia]|]. intros q h' o' (u & I' & Lu & _ & _).
  eapply begin_then; [exact I'|]. intros h2 o2 I2 U _.
  assert (RD : read (ptr_add (data o2) pos) (slen l - pos) h2 o2 = Ret (piece pos (slen l - pos) l) h2 o2).
  { rewrite (own_read _ _ _ _ pos (slen l - pos) I2) by (slens; lia). f_equal. lists. }
  destruct (move_own _ _ _ _ _ h2 o2 (l ++ u) R (pos + n) _ _ _ I2 (or_introl U) RD) as (h3 & o3 & W & I3 & D3 & _ & U3 & _);
    [slens; lia|apply good_piece; exact Gl|lia|slens; lia|].
  eapply spec_eq; [exact W|]. rewrite <- (data_eq o2 o3 D3).
  pose proof (Inv_tail_src dbg arena mal ar N h3 o3 _ R p n x I3 S) as RD3.
  destruct (move_own _ _ _ _ _ h3 o3 _ R pos p n x I3 (or_introl (U3 U)) RD3 Lx G) as (h4 & o4 & W4 & I4 & _); [lia|slens; lia|].
  eapply spec_ret_eq; [exact W4|]. cbv beta. rewrite insert_list in I4 by assumption. exact I4.
Qed.
Lemma insert_n_at_spec h o l R pos n c : Inv h ((o, l) :: R) -> good l -> is_char c -> 0 <= pos <= slen l -> 0 <= n < limit ->
  spec (insert_n_at dbg arena mal pos n c) h o (fun _ h' o' => Inv h' ((o', splice pos 0 (srep n (Some c)) l) :: R)) (Keep o l R).
Proof.
  intros I Gl Hc Hp Hn. pose proof (len_ok _ _ _ _ I) as LO.
  unfold insert_n_at. eapply guard_keep; [exact I|]. apply spec_size. rewrite (size_ok _ _ _ _ I).
  apply spec_assert; [apply andb_true_intro; split; apply Z.leb_le; lia|].
  eapply spec_bnd; [eapply expand_spec; [exact I|lia|lia]|]. intros q h' o' (u & I' & Lu & _ & _).
  eapply begin_then; [exact I'|]. intros h2 o2 I2 U _.
  assert (RD : read (ptr_add (data o2) pos) (slen l - pos) h2 o2 = Ret (piece pos (slen l - pos) l) h2 o2).
  { rewrite (own_read _ _ _ _ pos (slen l - pos) I2) by (slens; lia). f_equal. lists. }
  destruct (move_own _ _ _ _ _ h2 o2 (l ++ u) R (pos + n) _ _ _ I2 (or_introl U) RD) as (h3 & o3 & W & I3 & D3 & _ & U3 & _);
    [slens; lia|apply good_piece; exact Gl|lia|slens; lia|].
  eapply spec_eq; [exact W|]. rewrite <- (data_eq o2 o3 D3).
  destruct (fill_own _ _ _ _ _ h3 o3 _ R pos n c I3 (or_introl (U3 U)) Hc) as (h4 & o4 & W4 & I4 & _); [lia|lia|slens; lia|].
  eapply spec_ret_eq; [exact W4|]. cbv beta. rewrite insert_list in I4 by (slens; lia). exact I4.
Qed.
Lemma insert_spec h o l R pos p n x : Inv h ((o, l) :: R) -> src R p n x -> good l -> good x -> 0 <= pos <= slen l -> n < limit ->
  spec (insert dbg arena mal pos p n) h o (fun _ h' o' => Inv h' ((o', splice pos 0 x l) :: R)) (Bad R).
Proof.
  intros I S Gl G Hp Hn. unfold insert. apply spec_size. rewrite (size_ok _ _ _ _ I). unfold enforce.
  replace (pos <=? slen l) with true by (symmetry; apply Z.leb_le; lia). apply spec_bret.
  eapply begin_then; [exact I|]. intros h' o' I' U _.
  eapply spec_bnd; [eapply spec_Keep_Bad; [exact Gl|eapply insert_at_spec; eassumption]|]. intros a h2 o2 I2. apply spec_ret. exact I2.
Qed.
Lemma insert_range_ok h o l R pos p n : Inv h ((o, l) :: R) -> slen l < pos -> insert dbg arena mal pos p n h o = Thr OutOfRange h o.
Proof.
  intros I H. unfold insert, bnd at 1, size_m, bnd at 1, this, ret. rewrite (size_ok _ _ _ _ I).
  destruct (Z.leb_spec pos (slen l)); [lia|reflexivity].
Qed.
Lemma insert_n_spec h o l R pos n c : Inv h ((o, l) :: R) -> good l -> is_char c -> 0 <= pos <= slen l -> 0 <= n < limit ->
  spec (insert_n dbg arena mal pos n c) h o (fun _ h' o' => Inv h' ((o', splice pos 0 (srep n (Some c)) l) :: R)) (Bad R).
Proof.
  intros I Gl Hc Hp Hn. unfold insert_n. apply spec_size. rewrite (size_ok _ _ _ _ I). unfold enforce.
  replace (pos <=? slen l) with true by (symmetry; apply Z.leb_le; lia). apply spec_bret.
  eapply begin_then; [exact I|]. intros h' o' I' U _. eapply spec_Keep_Bad; [exact Gl|eapply insert_n_at_spec; eassumption].
Qed.
Lemma insert_n_range_ok h o l R pos n c : Inv h ((o, l) :: R) -> slen l < pos -> insert_n dbg arena mal pos n c h o = Thr OutOfRange h o.
Proof.
  intros I H. unfold insert_n, bnd at 1, size_m, bnd at 1, this, ret. rewrite (size_ok _ _ _ _ I).
  destruct (Z.leb_spec pos (slen l)); [lia|reflexivity].
Qed.
Lemma append_range_spec h o l R p n x : Inv h ((o, l) :: R) -> src R p n x -> good l -> good x -> n < limit ->
  spec (append_range dbg arena mal p n) h o (fun _ h' o' => Inv h' ((o', l ++ x) :: R)) (Bad R).
Proof.
  intros I S Gl G Hn. unfold append_range. eapply begin_then; [exact I|]. intros h' o' I' U _.
  apply spec_size. rewrite (size_ok _ _ _ _ I'). pose proof (len_ok _ _ _ _ I').
  eapply spec_Keep_Bad; [exact Gl|]. eapply spec_imp; [eapply insert_at_spec; try eassumption; lia| |intros ? ? ? X0; exact X0].
  intros a h2 o2 I2. cbv beta in I2. replace (l ++ x) with (splice (slen l) 0 x l); [exact I2|].
  unfold splice. rewrite stake_all by lia. unfold sdrop. rewrite skipn_all2 by (unfold slen; lia). rewrite app_nil_r. reflexivity.
Qed.
Lemma push_all_spec R l2 : Forall is_char l2 -> forall h o l, Inv h ((o, l) :: R) -> good l ->
  spec (push_all dbg arena mal l2) h o (fun _ h' o' => Inv h' ((o', l ++ map Some l2) :: R)) (Bad R).
Proof.
  induction 1 as [|c r Hc _ IH]; intros h o l I G; cbn [push_all].
  - apply spec_ret. cbn [map]. rewrite app_nil_r. exact I.
  - eapply spec_bnd; [eapply spec_Keep_Bad; [exact G|eapply push_back_spec; eassumption]|]. intros a h' o' I'. cbv beta in I'.
    eapply spec_imp; [apply (IH h' o' (l ++ [Some c]) I')| |intros ? ? ? X0; exact X0].
    + rewrite good_app. split; [exact G|]. constructor; [exists c; auto|constructor].
    + intros u h2 o2 I2. cbv beta in I2. rewrite <- app_assoc in I2. exact I2.
Qed.
End S.
End Wide.
