(** Several strings: every step keeps the invariant and computes the values of the specification. *)
Require Import ZArith List Bool Lia Permutation.
From Verif Require Import Base BaseProofs StrSpec StrModel StrStatements StrProofs StrProofs2 StrProofs3 StrProofs4 StrProofs5 StrProofs6 StrProofs7.
Import ListNotations.
Open Scope Z_scope.

Notation vals := (list (option (list Z))).

Section Wide.
Context {ChT : CharType}.

(** ** Lists of objects and values *)

Fixpoint zipS (cs : list (option core)) (ss : vals) : pairs :=
  match cs, ss with
  | Some c :: cs', Some l :: ss' => (c, map Some l) :: zipS cs' ss'
  | _ :: cs', _ :: ss' => zipS cs' ss'
  | _, _ => []
  end.
Definition alike (x : option core) (y : option (list Z)) : Prop :=
  match x, y with Some _, Some _ => True | None, None => True | _, _ => False end.

Lemma sget_nil {A} i : sget (@nil (option A)) i = None. Proof. unfold sget. destruct i; reflexivity. Qed.
Lemma sget_cons_0 {A} (x : option A) l : sget (x :: l) O = x. Proof. reflexivity. Qed.
Lemma sget_cons_S {A} (x : option A) l i : sget (x :: l) (S i) = sget l i. Proof. reflexivity. Qed.
Ltac sg := repeat match goal with
  | H : context [sget (_ :: _) O] |- _ => rewrite sget_cons_0 in H
  | H : context [sget (_ :: _) (S _)] |- _ => rewrite sget_cons_S in H end.
Lemma sset_same {A} i (x : A) l : sget l i = Some x -> sset i (Some x) l = l.
Proof.
  revert i. induction l as [|y l IH]; intros [|i] H; cbn [sset]; try reflexivity.
  - rewrite sget_cons_0 in H. congruence.
  - rewrite sget_cons_S in H. rewrite (IH _ H). reflexivity.
Qed.
Lemma sset_twice {A} i (x y : A) l : sset i x (sset i y l) = sset i x l.
Proof. revert i. induction l as [|z l IH]; intros [|i]; cbn [sset]; try reflexivity. rewrite IH. reflexivity. Qed.
Lemma sget_sset_eq {A} i (x : option A) l y : sget l i = Some y -> sget (sset i x l) i = x.
Proof. revert i. induction l as [|z l IH]; intros [|i] H; cbn [sset]; try (rewrite sget_nil in H; discriminate); [reflexivity|]. apply IH. exact H. Qed.
Lemma sget_sset_neq {A} i j (x : option A) l : i <> j -> sget (sset i x l) j = sget l j.
Proof.
  revert i j. induction l as [|z l IH]; intros [|i] [|j] H; cbn [sset]; try reflexivity; try congruence.
  rewrite !sget_cons_S. apply IH. congruence.
Qed.
Lemma alike_sget cs ss i : Forall2 alike cs ss -> alike (sget cs i) (sget ss i).
Proof.
  intros F. revert i. induction F as [|x y cs ss A F IH]; intros i; [rewrite !sget_nil; exact I|].
  destruct i as [|i]; [exact A|]. rewrite !sget_cons_S. apply IH.
Qed.
Lemma alike_length cs ss : Forall2 alike cs ss -> length cs = length ss.
Proof. induction 1; cbn; congruence. Qed.
Lemma alike_sset cs ss i x y : alike x y -> Forall2 alike cs ss -> Forall2 alike (sset i x cs) (sset i y ss).
Proof.
  intros A F. revert i. induction F as [|x' y' cs ss A' F IH]; intros [|i]; cbn [sset]; constructor; auto.
Qed.
Lemma alike_obj cs ss i l : Forall2 alike cs ss -> sget ss i = Some l -> exists c, sget cs i = Some c.
Proof. intros F E. pose proof (alike_sget _ _ i F) as A. rewrite E in A. destruct (sget cs i) as [c|]; [eauto|contradiction]. Qed.
Lemma alike_app cs ss x y : Forall2 alike cs ss -> alike x y -> Forall2 alike (cs ++ [x]) (ss ++ [y]).
Proof. intros F A. apply Forall2_app; [exact F|]. constructor; [exact A|constructor]. Qed.
Lemma zip_app cs ss x y : Forall2 alike cs ss ->
  zipS (cs ++ [x]) (ss ++ [y]) = zipS cs ss ++ match x, y with Some c, Some l => [(c, map Some l)] | _, _ => [] end.
Proof.
  intros F. induction F as [|x' y' cs ss A F IH]; cbn [app zipS].
  - destruct x, y; reflexivity.
  - rewrite IH. destruct x', y'; reflexivity.
Qed.
Lemma zip_in cs ss i c l : sget cs i = Some c -> sget ss i = Some l -> In (c, map Some l) (zipS cs ss).
Proof.
  revert ss i. induction cs as [|x cs IH]; intros ss i H1 H2; [rewrite sget_nil in H1; discriminate|].
  destruct ss as [|y ss]; [rewrite sget_nil in H2; discriminate|]. destruct i as [|i].
  - sg. subst. left. reflexivity.
  - sg. cbn [zipS]. pose proof (IH ss i H1 H2). destruct x, y; try assumption. right. assumption.
Qed.
(** One object and the others. *)
Lemma focus cs ss i c l : Forall2 alike cs ss -> sget cs i = Some c -> sget ss i = Some l ->
  exists R, Permutation (zipS cs ss) ((c, map Some l) :: R) /\
    (forall c' l', Permutation (zipS (sset i (Some c') cs) (sset i (Some l') ss)) ((c', map Some l') :: R)) /\
    Permutation (zipS (sset i None cs) (sset i None ss)) R /\
    (forall j c' l', j <> i -> sget cs j = Some c' -> sget ss j = Some l' -> In (c', map Some l') R).
Proof.
  intros F. revert i. induction F as [|x y cs ss A F IH]; intros i H1 H2; [rewrite sget_nil in H1; discriminate|].
  destruct i as [|i].
  - sg. subst. exists (zipS cs ss). cbn [zipS sset]. split; [reflexivity|]. split; [reflexivity|]. split; [reflexivity|].
    intros [|j] c' l' NE X Y; [congruence|]. sg. eapply zip_in; eassumption.
  - sg. destruct (IH i H1 H2) as (R & P1 & P2 & P3 & P4). cbn [zipS sset].
    destruct x as [c0|], y as [l0|]; try contradiction.
    + exists ((c0, map Some l0) :: R). split; [rewrite P1; apply perm_swap|]. split; [intros c' l'; rewrite P2; apply perm_swap|].
      split; [rewrite P3; reflexivity|]. intros [|j] c' l' NE X Y; [sg; left; congruence|].
      sg. right. eapply P4; try eassumption. congruence.
    + exists R. split; [exact P1|]. split; [exact P2|]. split; [exact P3|].
      intros [|j] c' l' NE X Y; [sg; discriminate|]. sg. eapply P4; try eassumption. congruence.
Qed.
Lemma bytes_sset i l ss : Forall is_char l -> (forall j x, sget ss j = Some x -> Forall is_char x) ->
  forall j x, sget (sset i (Some l) ss) j = Some x -> Forall is_char x.
Proof.
  intros B H. revert i. induction ss as [|y ss IH]; intros [|i] [|j] x X; cbn [sset] in X; try (rewrite sget_nil in X; discriminate).
  - rewrite sget_cons_0 in X. congruence.
  - rewrite sget_cons_S in X. apply (H (S j) x). exact X.
  - apply (H O x). exact X.
  - rewrite sget_cons_S in X. eapply (IH (fun j' x' => H (S j') x')). exact X.
Qed.
Lemma bytes_none i ss : (forall j x, sget ss j = Some x -> Forall is_char x) ->
  forall j x, sget (sset i None ss) j = Some x -> Forall is_char x.
Proof.
  intros H. revert i. induction ss as [|y ss IH]; intros [|i] [|j] x X; cbn [sset] in X; try (rewrite sget_nil in X; discriminate).
  - rewrite sget_cons_0 in X. discriminate.
  - rewrite sget_cons_S in X. apply (H (S j) x). exact X.
  - apply (H O x). exact X.
  - rewrite sget_cons_S in X. eapply (IH (fun j' x' => H (S j') x')). exact X.
Qed.
Lemma sget_snoc {A} (ss : list (option A)) y j : sget (ss ++ [y]) j = if (j =? length ss)%nat then y else sget ss j.
Proof.
  revert j. induction ss as [|x ss IH]; intros [|j]; try reflexivity; cbn [app].
  - rewrite sget_cons_S, sget_nil. reflexivity.
  - rewrite !sget_cons_S. apply IH.
Qed.
Lemma sset_comm {A} i j (x y : A) l : i <> j -> sset i x (sset j y l) = sset j y (sset i x l).
Proof.
  revert i j. induction l as [|z l IH]; intros [|i] [|j] H; cbn [sset]; try reflexivity; [congruence|]. rewrite IH by congruence. reflexivity.
Qed.
Lemma map_Some_inj (a b : list Z) : map Some a = map Some b -> a = b.
Proof. revert b. induction a as [|x a IH]; intros [|y b] E; try discriminate; [reflexivity|]. injection E as -> E. rewrite (IH _ E). reflexivity. Qed.

Section S.
Variables (dbg arena : bool) (mal : nat -> Z -> bool) (ar : Z).
Notation INV N := (StrProofs2.Inv dbg arena mal ar N).

Record World (N : Z) (h : heap) (cs : list (option core)) (ss : vals) : Prop := {
  w_inv : INV N h (zipS cs ss);
  w_alike : Forall2 alike cs ss;
  w_bytes : forall j x, sget ss j = Some x -> Forall is_char x }.
Notation W N s ss := (World N (s_heap s) (s_objs s) ss).

Lemma Inv_mono N N' h R : N <= N' < 2 ^ 63 -> INV N h R -> INV N' h R.
Proof.
  intros H I. destruct I as [I1 I2 I3 I4 I5 I6 I7]. constructor; try assumption; [lia|].
  intros b k B L. destruct (I6 b k B L) as (X & Y). split; [exact X|]. destruct (bk_kind k); [exact Y|]. destruct Y. split; [lia|assumption].
Qed.
Lemma World_mono N N' h cs ss : N <= N' < 2 ^ 63 -> World N h cs ss -> World N' h cs ss.
Proof. intros H [I A B]. constructor; try assumption. eapply Inv_mono; eassumption. Qed.
Lemma World_clean N h cs ss : World N h cs ss -> World N (clean h) cs ss.
Proof. intros [I A B]. constructor; try assumption. eapply Inv_blocks; [|exact I]. reflexivity. Qed.

Lemma World_init N : mal_sane mal -> ar_ok dbg arena ar -> 1 <= N < 2 ^ 63 -> World N (s_heap s_init) (s_objs s_init) [].
Proof.
  intros MS AO HN. constructor.
  - constructor; cbn; try assumption; try contradiction; try lia.
    intros b k E. exfalso. unfold blk in E. cbn in E. destruct b as [|[]|]; destruct (Z.to_nat _); discriminate.
  - constructor.
  - intros [|j] x; discriminate.
Qed.
(** What the client sees follows from the invariant. *)
Lemma rep_reads h c l : rep h c (map Some l) -> reads h c l.
Proof.
  intros RP. pose proof (rep_size _ _ _ RP) as SZ. rewrite slen_map in SZ. split; [exact SZ|]. split.
  - unfold value. pose proof (read_own h c (map Some l) 0 (size c) RP) as X. rewrite ptr_add0, slen_map, SZ in X. pose proof (slen_nonneg l). rewrite SZ, X by lia.
    unfold piece, sdrop. cbn [Z.to_nat skipn]. rewrite stake_all by (rewrite slen_map; lia). reflexivity.
  - unfold after_last. rewrite (read_term _ _ _ RP). reflexivity.
Qed.
Lemma World_sees N s ss : W N s ss -> sees s ss.
Proof.
  intros [I A B]. split; [apply alike_length; exact A|]. intros i. pose proof (alike_sget _ _ i A) as X.
  destruct (sget (s_objs s) i) as [c|] eqn:Ec, (sget ss i) as [l|] eqn:El; try exact X.
  apply rep_reads. apply (i_rep _ _ _ _ _ _ _ I c (map Some l)). eapply zip_in; eassumption.
Qed.
Lemma sees_fun s ss ss' : sees s ss -> sees s ss' -> ss = ss'.
Proof.
  intros (L & H) (L' & H'). apply (nth_ext _ _ None None); [congruence|]. intros i Hi.
  specialize (H i). specialize (H' i). unfold sget in *.
  rewrite (nth_error_nth' ss None Hi) in H. rewrite (nth_error_nth' ss' None) in H' by congruence.
  destruct (match nth_error (s_objs s) i with Some x => x | None => None end) as [c|], (nth i ss None) as [l|], (nth i ss' None) as [l'|]; try contradiction; [|reflexivity].
  destruct H as (_ & V & _), H' as (_ & V' & _). rewrite V in V'. injection V' as V'. rewrite (map_Some_inj _ _ V'). reflexivity.
Qed.

Lemma refs_le N h R c l k r : INV N h R -> In (c, l) R -> heapy c = true -> blk h (c_data c) = Some k -> bk_kind k = Counted r -> r + 1 <= N + 1.
Proof.
  intros I X Hh Bk Ck. destruct (i_rep _ _ _ _ _ _ _ I c l X) as (RP & _). destruct (rep_heapy _ _ _ RP Hh) as (k' & cap & B' & L' & _).
  assert (k' = k) as -> by congruence. destruct (i_blk _ _ _ _ _ _ _ I _ _ Bk L') as (_ & Y). rewrite Ck in Y. lia.
Qed.
(** ** The pieces a step is made of *)
Definition fine (N : Z) (good_end : sys -> Prop) (bad_end : sys -> Prop) (r : sout) : Prop :=
  match r with
  | SRet s' => good_end s'
  | SThr e s' => e = BadAlloc /\ h_refused (s_heap s') = true /\ (h_rfail (s_heap s') = false -> bad_end s')
  | STerm h => h_refused h = true
  | SAFail => False
  | SUB h => h_rfail h = true
  end.

Lemma on_obj_fine N s ss i c l m l' : W N s ss -> sget (s_objs s) i = Some c -> sget ss i = Some l -> Forall is_char l' ->
  (forall R, INV N (s_heap s) ((c, map Some l) :: R) -> goods R ->
     (forall j c' x, j <> i -> sget (s_objs s) j = Some c' -> sget ss j = Some x -> In (c', map Some x) R) ->
     spec m (s_heap s) c (fun (_ : unit) h' c' => INV N h' ((c', map Some l') :: R)) (Bad dbg arena mal ar N R)) ->
  fine N (fun s' => W N s' (sset i (Some l') ss)) (fun s' => exists x, Forall is_char x /\ W N s' (sset i (Some x) ss)) (on_obj s i m).
Proof.
  intros [I A B] Ec El Bl H. destruct (focus _ _ i c l A Ec El) as (R & P1 & P2 & P3 & P4).
  assert (IR : INV N (s_heap s) ((c, map Some l) :: R)) by (eapply Inv_perm; [exact P1|exact I]).
  assert (GR : goods R).
  { intros o x X. assert (Y : In (o, x) (zipS (s_objs s) ss)) by (eapply Permutation_in; [symmetry; exact P1|right; exact X]).
    clear - Y B. revert ss B Y. induction (s_objs s) as [|c cs IH]; intros ss B Y; [destruct Y|]. destruct ss as [|y ss]; [destruct c; destruct Y|].
    assert (B' : forall j z, sget ss j = Some z -> Forall is_char z) by (intros j z E; apply (B (S j)); exact E).
    cbn [zipS] in Y. destruct c, y; try (eapply IH; eassumption). destruct Y as [Y|Y]; [|eapply IH; eassumption].
    injection Y as <- <-. apply good_map. apply (B O). reflexivity. }
  specialize (H R IR GR P4). unfold on_obj. rewrite Ec. unfold spec in H.
  destruct (m (s_heap s) c) as [a h' c'|e h' c'|h'| |h']; cbn [fine s_heap s_objs]; try exact H.
  - constructor.
    + eapply Inv_perm; [symmetry; apply P2|exact H].
    + apply alike_sset; [exact Logic.I|exact A].
    + apply bytes_sset; assumption.
  - destruct H as (-> & F & X). split; [reflexivity|]. split; [exact F|]. intros RF.
    destruct X as [(x & Gx & Ix)|(_ & RF' & _)]; [|congruence]. destruct (good_inv _ Gx) as (v & -> & Bv). exists v. split; [exact Bv|]. constructor.
    + eapply Inv_perm; [symmetry; apply P2|exact Ix].
    + apply alike_sset; [exact Logic.I|exact A].
    + apply bytes_sset; assumption.
Qed.
Lemma on_obj_throw s i c m e : sget (s_objs s) i = Some c -> m (s_heap s) c = Thr e (s_heap s) c -> on_obj s i m = SThr e s.
Proof. intros E T. unfold on_obj. rewrite E, T, (sset_same _ _ _ E). destruct s. reflexivity. Qed.

Lemma World_goods N h cs ss : World N h cs ss -> goods (zipS cs ss).
Proof.
  intros [_ _ B] o x Y. revert ss B Y. induction cs as [|c cs IH]; intros ss B Y; [destruct Y|]. destruct ss as [|y ss]; [destruct c; destruct Y|].
  assert (B' : forall j z, sget ss j = Some z -> Forall is_char z) by (intros j z E; apply (B (S j)); exact E).
  cbn [zipS] in Y. destruct c, y; try (eapply IH; eassumption). destruct Y as [Y|Y]; [|eapply IH; eassumption].
  injection Y as <- <-. apply good_map. apply (B O). reflexivity.
Qed.
Lemma World_new N h cs ss c l : World N h cs ss -> forall h', INV N h' ((c, map Some l) :: zipS cs ss) -> Forall is_char l ->
  World N h' (cs ++ [Some c]) (ss ++ [Some l]).
Proof.
  intros [I A B] h' I' Bl. constructor.
  - rewrite zip_app by exact A. eapply Inv_perm; [apply Permutation_cons_append|exact I'].
  - apply alike_app; [exact A|exact Logic.I].
  - intros j x. rewrite sget_snoc. destruct (j =? length ss)%nat; [congruence|apply B].
Qed.
Lemma World_none N h cs ss : World N h cs ss -> forall h', INV N h' (zipS cs ss) -> World N h' (cs ++ [None]) (ss ++ [None]).
Proof.
  intros [I A B] h' I'. constructor.
  - rewrite zip_app by exact A. rewrite app_nil_r. exact I'.
  - apply alike_app; [exact A|exact Logic.I].
  - intros j x. rewrite sget_snoc. destruct (j =? length ss)%nat; [congruence|apply B].
Qed.
Lemma new_obj_fine N s ss m l' : W N s ss -> Forall is_char l' ->
  spec m (s_heap s) (blank ar) (fun (_ : unit) h' c' => INV N h' ((c', map Some l') :: zipS (s_objs s) ss))
    (fun e h' _ => unbuilt dbg arena mal ar N (zipS (s_objs s) ss) e h') ->
  fine N (fun s' => W N s' (ss ++ [Some l'])) (fun s' => W N s' (ss ++ [None])) (new_obj s ar m).
Proof.
  intros X Bl H. unfold new_obj. unfold spec in H. destruct (m (s_heap s) (blank ar)) as [a h' c'|e h' c'|h'| |h']; cbn [fine s_heap s_objs]; try exact H.
  - eapply World_new; eassumption.
  - destruct H as (-> & F & I'). split; [reflexivity|]. split; [exact F|]. intros _. eapply World_none; eassumption.
Qed.
Lemma new_obj_throw s al m e : m (s_heap s) (blank al) = Thr e (s_heap s) (blank al) \/ (exists c, m (s_heap s) (blank al) = Thr e (s_heap s) c) ->
  new_obj s al m = SThr e {| s_heap := s_heap s; s_objs := s_objs s ++ [None] |}.
Proof. intros [T|(c & T)]; unfold new_obj; rewrite T; reflexivity. Qed.
Lemma move_out_fine N s ss j c l : W N s ss -> sget (s_objs s) j = Some c -> sget ss j = Some l ->
  exists s', move_out dbg s j = SRet s' /\ W N s' (sset j (Some []) ss ++ [Some l]).
Proof.
  intros [I A B] Ec El. destruct (focus _ _ j c l A Ec El) as (R & P1 & P2 & P3 & P4).
  assert (IR : INV N (s_heap s) ((c, map Some l) :: R)) by (eapply Inv_perm; [exact P1|exact I]).
  destruct (Inv_head _ _ _ _ _ _ _ _ _ IR) as (_ & Ac).
  unfold move_out. rewrite Ec. unfold reset. rewrite set_small_ok by lia.
  set (c1 := set_unit (set_unit c max_small (max_small - 0)) 0 0).
  assert (S1 : small_rep c1 []). { apply small_rep_of; [lia|reflexivity|]. intros. lia. }
  eexists. split; [reflexivity|].
  assert (I1 : INV N (s_heap s) ((c, map Some l) :: (c1, []) :: R)).
  { apply Inv_swap. apply Inv_new_small; [exact IR|exact S1|unfold c1; rewrite !set_unit_al; exact Ac|reflexivity]. }
  constructor; cbn [s_heap s_objs].
  - rewrite zip_app by (apply alike_sset; [exact Logic.I|exact A]). eapply Inv_perm; [apply Permutation_cons_append|].
    eapply Inv_perm; [|exact I1]. apply perm_skip. symmetry. apply (P2 c1 []).
  - apply alike_app; [apply alike_sset; [exact Logic.I|exact A]|exact Logic.I].
  - intros j0 x. rewrite sget_snoc. destruct (j0 =? length (sset j (Some []) ss))%nat.
    + intros X. injection X as <-. exact (B _ _ El).
    + apply bytes_sset; [constructor|exact B].
Qed.
Lemma then_move_fine N ss j l l' r : sget ss j = Some l ->
  fine N (fun s' => W N s' (sset j (Some l') ss)) (fun s' => exists x, Forall is_char x /\ W N s' (sset j (Some x) ss)) r ->
  fine N (fun s' => W N s' (sset j (Some []) ss ++ [Some l'])) (fun s' => exists x, Forall is_char x /\ W N s' (sset j (Some x) ss ++ [None]))
    (then_move dbg r j).
Proof.
  intros El H. destruct r as [s'|e s'|h'| |h']; cbn [then_move]; try exact H.
  - cbn [fine] in H. pose proof (sget_sset_eq j (Some l') ss l El) as E1. destruct (alike_obj _ _ _ _ (w_alike _ _ _ _ H) E1) as (c & Ec).
    destruct (move_out_fine N s' _ j c l' H Ec E1) as (s2 & -> & W2). cbn [fine]. rewrite sset_twice in W2. exact W2.
  - destruct H as (-> & F & X). cbn [fine s_heap s_objs]. split; [reflexivity|]. split; [exact F|]. intros RF. destruct (X RF) as (x & Bx & Wx).
    exists x. split; [exact Bx|]. eapply World_none; [exact Wx|exact (w_inv _ _ _ _ Wx)].
Qed.
Lemma destroy_fine N s ss i c l : W N s ss -> sget (s_objs s) i = Some c -> sget ss i = Some l ->
  exists h', destroy dbg arena c (s_heap s) c = Ret tt h' c /\ World N h' (sset i None (s_objs s)) (sset i None ss).
Proof.
  intros [I A B] Ec El. destruct (focus _ _ i c l A Ec El) as (R & P1 & P2 & P3 & P4).
  assert (IR : INV N (s_heap s) ((c, map Some l) :: R)) by (eapply Inv_perm; [exact P1|exact I]).
  destruct (destroy_ok _ _ _ _ _ _ _ _ _ c IR) as (h' & E & I' & _). exists h'. split; [exact E|]. constructor.
  - eapply Inv_perm; [symmetry; exact P3|exact I'].
  - apply alike_sset; [exact Logic.I|exact A].
  - apply bytes_none. exact B.
Qed.
Lemma swap_fine N s ss i j a la b lb : W N s ss -> sget (s_objs s) i = Some a -> sget ss i = Some la ->
  sget (s_objs s) j = Some b -> sget ss j = Some lb ->
  World N (s_heap s) (sset j (Some (set_ml b a)) (sset i (Some (set_ml a b)) (s_objs s))) (sset j (Some la) (sset i (Some lb) ss)).
Proof.
  intros X Ea Ela Eb Elb. pose proof X as [I A B].
  assert (Aa : c_al a = ar) by (apply (i_rep _ _ _ _ _ _ _ I a (map Some la)); eapply zip_in; eassumption).
  assert (Ab : c_al b = ar) by (apply (i_rep _ _ _ _ _ _ _ I b (map Some lb)); eapply zip_in; eassumption).
  rewrite !set_ml_eq by congruence.
  destruct (Nat.eq_dec i j) as [->|NE].
  { assert (a = b) as <- by congruence. assert (la = lb) as <- by congruence. rewrite !sset_twice, !sset_same by assumption. exact X. }
  destruct (focus _ _ j b lb A Eb Elb) as (R & P1 & P2 & _ & _).
  assert (A2 : Forall2 alike (sset j (Some a) (s_objs s)) (sset j (Some la) ss)) by (apply alike_sset; [exact Logic.I|exact A]).
  destruct (focus _ _ i a la A2) as (R2 & Q1 & Q2 & _ & _); try (rewrite sget_sset_neq by congruence; assumption).
  rewrite (sset_comm j i), (sset_comm j i) by congruence. constructor.
  - eapply Inv_perm; [symmetry; apply Q2|]. eapply Inv_perm; [apply perm_skip|eapply Inv_perm; [exact P1|exact I]].
    apply (Permutation_cons_inv (a := (a, map Some la))). rewrite <- Q1. symmetry. apply P2.
  - apply alike_sset; [exact Logic.I|exact A2].
  - apply bytes_sset; [exact (B _ _ Elb)|]. apply bytes_sset; [exact (B _ _ Ela)|exact B].
Qed.
Lemma assign_move_fine N s ss i j a la b lb : W N s ss -> sget (s_objs s) i = Some a -> sget ss i = Some la ->
  sget (s_objs s) j = Some b -> sget ss j = Some lb -> i <> j ->
  exists h' b1, destroy dbg arena a (s_heap s) a = Ret tt h' a /\ reset dbg h' b = Ret tt h' b1 /\
    World N h' (sset j (Some b1) (sset i (Some b) (s_objs s))) (sset j (Some []) (sset i (Some lb) ss)).
Proof.
  intros [I A B] Ea Ela Eb Elb NE.
  assert (Ab : c_al b = ar) by (apply (i_rep _ _ _ _ _ _ _ I b (map Some lb)); eapply zip_in; eassumption).
  set (b1 := set_unit (set_unit b max_small (max_small - 0)) 0 0).
  assert (S1 : small_rep b1 []). { apply small_rep_of; [lia|reflexivity|]. intros. lia. }
  destruct (focus _ _ j b lb A Eb Elb) as (R & P1 & P2 & _ & _).
  assert (A2 : Forall2 alike (sset j (Some b1) (s_objs s)) (sset j (Some []) ss)) by (apply alike_sset; [exact Logic.I|exact A]).
  destruct (focus _ _ i a la A2) as (R2 & Q1 & Q2 & _ & _); try (rewrite sget_sset_neq by congruence; assumption).
  assert (I1 : INV N (s_heap s) ((a, map Some la) :: (b, map Some lb) :: R2)).
  { assert (I0 : INV N (s_heap s) ((b1, []) :: (b, map Some lb) :: R)).
    { apply Inv_new_small; [eapply Inv_perm; [exact P1|exact I]|exact S1|unfold b1; rewrite !set_unit_al; exact Ab|reflexivity]. }
    eapply Inv_perm; [|exact I0]. rewrite perm_swap. symmetry. rewrite perm_swap. apply perm_skip. rewrite <- Q1. apply (P2 b1 []). }
  destruct (destroy_ok _ _ _ _ _ _ _ _ _ a I1) as (h' & E & I' & _).
  exists h', b1. split; [exact E|]. split; [unfold reset; rewrite set_small_ok by lia; reflexivity|].
  rewrite (sset_comm j i), (sset_comm j i) by congruence. constructor.
  - eapply Inv_perm; [symmetry; apply Q2|exact I'].
  - apply alike_sset; [exact Logic.I|exact A2].
  - apply bytes_sset; [exact (B _ _ Elb)|]. apply bytes_sset; [constructor|exact B].
Qed.

(** ** Arguments *)
Lemma src_rep h S c l off n : rep h c l -> In (c, l) S -> 0 <= off -> 0 <= n -> off + n <= slen l ->
  src S (export c (ptr_add (data c) off)) n (piece off n l).
Proof.
  intros RP X H1 H2 H3. split; [assumption|]. split; [apply slen_piece; assumption|]. destruct (heapy c) eqn:H.
  - rewrite (data_heap _ H). cbn [ptr_add export Z.add]. split; [assumption|]. exists c, l. auto.
  - rewrite (data_small _ H). cbn [ptr_add export Z.add].
    destruct (small_ext c l off n (rep_small _ _ _ RP H) H1 H2 H3) as (A & B). split; [exact A|symmetry; exact B].
Qed.
Lemma src_rep0 h S c l : rep h c l -> In (c, l) S -> src S (str c) (slen l) l.
Proof.
  intros RP X. pose proof (src_rep h S c l 0 (slen l) RP X) as E. rewrite ptr_add0, piece_all in E. apply E; pose proof (slen_nonneg l); lia.
Qed.
Definition others (s : sys) (ss : vals) (i : nat) (R : pairs) : Prop :=
  forall j c' x, j <> i -> sget (s_objs s) j = Some c' -> sget ss j = Some x -> In (c', map Some x) R.
Lemma Forall_firstn {A} (P : A -> Prop) n l : Forall P l -> Forall P (firstn n l).
Proof. rewrite !Forall_forall. intros H x X. apply H. rewrite <- (firstn_skipn n l). apply in_or_app. auto. Qed.
Lemma Forall_skipn {A} (P : A -> Prop) n l : Forall P l -> Forall P (skipn n l).
Proof. rewrite !Forall_forall. intros H x X. apply H. rewrite <- (firstn_skipn n l). apply in_or_app. auto. Qed.
Lemma bytes_piece p n l : Forall is_char l -> Forall is_char (piece p n l).
Proof. intros H. apply Forall_firstn, Forall_skipn. exact H. Qed.
Lemma bytes_splice p n x l : Forall is_char l -> Forall is_char x -> Forall is_char (splice p n x l).
Proof. intros. unfold splice. rewrite !Forall_app. split; [apply Forall_firstn; assumption|]. split; [assumption|apply Forall_skipn; assumption]. Qed.
Lemma bytes_srep n c : is_char c -> Forall is_char (srep n c).
Proof. intros H. unfold srep. apply Forall_forall. intros x X. apply repeat_spec in X. subst. exact H. Qed.

Lemma resolve_ok N s ss i c l a x : W N s ss -> sget (s_objs s) i = Some c -> sget ss i = Some l ->
  arg_val ss (Some a) = Some x -> arg_ok a ->
  exists p n, resolve s i (Some a) = Some (p, n) /\ n < limit /\ Forall is_char x /\
    forall R, INV N (s_heap s) ((c, map Some l) :: R) -> others s ss i R ->
      asrc c (map Some l) R p n (map Some x) /\ (foreign i a -> src R p n (map Some x)).
Proof.
  intros X Ec El V OK. pose proof X as [I A B]. destruct a as [y|j off m]; cbn [arg_val resolve arg_ok] in *.
  - injection V as ->. destruct OK as (Bx & Lx). exists (PExt (map Some x)), (slen x). split; [reflexivity|]. split; [exact Lx|]. split; [exact Bx|].
    intros R _ _. split; [apply asrc_src|intros _]; apply src_ext.
  - destruct (sget ss j) as [lj|] eqn:Elj; [|discriminate].
    destruct (Z.leb_spec 0 off), (Z.leb_spec 0 m), (Z.leb_spec (off + m) (slen lj)); try discriminate. cbn [andb] in V. injection V as <-.
    destruct (alike_obj _ _ _ _ A Elj) as (cj & Ecj). rewrite Ecj.
    destruct (i_rep _ _ _ _ _ _ _ I cj (map Some lj)) as (RP & _); [eapply zip_in; eassumption|].
    pose proof (rep_bound _ _ _ RP) as LO. rewrite slen_map in LO.
    exists (if (i =? j)%nat then ptr_add (data cj) off else export cj (ptr_add (data cj) off)), m.
    split; [reflexivity|]. split; [lia|]. split; [apply bytes_piece; exact (B _ _ Elj)|].
    intros R IR OT. rewrite map_piece. destruct (Nat.eqb_spec i j) as [<-|NE].
    + assert (cj = c) as -> by congruence. assert (lj = l) as -> by congruence. split; [|intros F; exfalso; apply F; reflexivity].
      eapply asrc_own; [exact IR|assumption|assumption|rewrite slen_map; assumption].
    + assert (S : src R (export cj (ptr_add (data cj) off)) m (piece off m (map Some lj))).
      { eapply src_rep; [exact RP|apply (OT j); [congruence|exact Ecj|exact Elj]|assumption|assumption|rewrite slen_map; assumption]. }
      split; [apply asrc_src; exact S|intros _; exact S].
Qed.
End S.
End Wide.
