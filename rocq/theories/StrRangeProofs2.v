(** Ranges of forward iterators: the calls. *)
Require Import ZArith List Bool Lia Permutation.
From Verif Require Import Base BaseProofs StrSpec StrModel StrStatements StrProofs StrProofs2 StrProofs3 StrProofs4 StrProofs5 StrProofs6 StrProofs7 StrQuiet StrProofs8 StrProofs9 StrProofs10 StrProofs11 StrProofs12 StrProofs13 StrProofs14 StrStreamProofs StrCases StrOwnStatements StrOwnProofs StrRangeModel StrRangeSpec StrRangeProofs.
Import ListNotations.
Open Scope Z_scope.

Lemma sset_sset {A} i (x y : A) l : sset i x (sset i y l) = sset i x l.
Proof. revert i. induction l as [|z l IH]; intros [|i]; cbn [sset]; try reflexivity. rewrite IH. reflexivity. Qed.
Lemma sset_same {A} i (x : A) l : sget l i = Some x -> sset i (Some x) l = l.
Proof. revert i. induction l as [|z l IH]; intros [|i] E; cbn [sset]; try reflexivity. - cbv in E. congruence. - rewrite IH; [reflexivity|exact E]. Qed.

Lemma splice_tail {A} (x l : list A) : splice (slen l) 0 x l = l ++ x.
Proof. unfold splice, stake, sdrop, slen. rewrite Z.add_0_r, Nat2Z.id, firstn_all, skipn_all, app_nil_r. reflexivity. Qed.
Lemma splice_all {A} (x l : list A) : splice 0 (slen l) x l = x.
Proof. unfold splice, stake, sdrop, slen. rewrite Z.add_0_l, Nat2Z.id, skipn_all, app_nil_r. reflexivity. Qed.
(** ** Cells as functions of the text *)
Definition fcell (ss : list (option (list Z))) (i : nat) (c : cell) : list (option Z) -> option Z :=
  match c with
  | Char v => fun _ => Some v
  | CharOf j k => if Nat.eqb i j then fun l => lget l k else fun _ => shown ss c
  end.
Lemma shown_own ss i k l v : sget ss i = Some l -> shown ss (CharOf i k) = Some v -> 0 <= k < slen l /\ lget (map Some l) k = Some v.
Proof.
  intros E. cbn [shown]. rewrite E. destruct (Z.ltb_spec k 0); [discriminate|]. intros H'. pose proof (nth_error_Some l (Z.to_nat k)) as Q.
  rewrite H' in Q. assert (Z.to_nat k < length l)%nat by (apply Q; discriminate). split; [unfold slen; lia|]. unfold lget. apply nth_error_nth.
  apply map_nth_error. exact H'.
Qed.
Lemma fcell_now ss i c l v : sget ss i = Some l -> shown ss c = Some v -> fcell ss i c (map Some l) = Some v.
Proof.
  intros E H. destruct c as [x|j k]; cbn [fcell]; [exact H|]. destruct (Nat.eqb_spec i j) as [<-|NE]; [|exact H].
  exact (proj2 (shown_own _ _ _ _ _ E H)).
Qed.
Lemma fcell_set ss i c x : fcell (sset i x ss) i c = fcell ss i c.
Proof.
  destruct c as [v|j k]; [reflexivity|]. cbn [fcell]. destruct (Nat.eqb_spec i j) as [<-|NE]; [reflexivity|].
  cbn [shown]. rewrite sget_sset_neq by congruence. reflexivity.
Qed.
Lemma one_by_one_wr i cs : forall ss pos l ss', sget ss i = Some l -> one_by_one i ss pos cs = Some ss' ->
  exists l', ss' = sset i (Some l') ss /\ wr pos (map (fcell ss i) cs) (map Some l) = map Some l'.
Proof.
  induction cs as [|c r IH]; intros ss pos l ss' El E; cbn [one_by_one map wr] in *.
  - injection E as <-. exists l. split; [symmetry; apply sset_same; exact El|reflexivity].
  - rewrite El in E. destruct (shown ss c) as [v|] eqn:Ev; [|discriminate].
    destruct (IH (sset i (Some (splice pos 1 [v] l)) ss) (pos + 1) (splice pos 1 [v] l) ss') as (l' & -> & W); [eapply sget_sset_eq; exact El|exact E|].
    exists l'. rewrite sset_sset. split; [reflexivity|]. rewrite (fcell_now _ _ _ _ _ El Ev). rewrite map_splice in W. rewrite <- W. f_equal.
    apply map_ext. intros c'. symmetry. apply fcell_set.
Qed.

Section Wide.
Context {ChT : CharType}.
Section W.
Variables (dbg arena : bool) (mal : nat -> Z -> bool) (ar : Z).
Hypotheses (MS : mal_sane mal) (AO : ar_ok dbg arena ar).
Notation World := (StrProofs8.World dbg arena mal ar).
Notation W M s ss := (World M (s_heap s) (s_objs s) ss).
Notation INV := (StrProofs2.Inv dbg arena mal ar).
Notation reach := (StrStatements.reach dbg arena mal ar).
Notation cleaned s := {| s_heap := clean (s_heap s); s_objs := s_objs s |}.

Lemma reach_run n s ss i c l l' (m : M unit) : reach n s -> short n -> sees s ss -> sget (s_objs s) i = Some c -> sget ss i = Some l -> Forall is_char l' ->
  (forall R, INV (Z.of_nat n + 1) (clean (s_heap s)) ((c, map Some l) :: R) -> good (map Some l) -> others (cleaned s) ss i R ->
     spec m (clean (s_heap s)) c (fun _ h' o' => INV (Z.of_nat n + 1) h' ((o', map Some l') :: R)) (StrProofs6.Bad dbg arena mal ar (Z.of_nat n + 1) R)) ->
  gives (on_obj (cleaned s) i m) (sset i (Some l') ss).
Proof.
  intros H SH SE Ec El BL' HS. pose proof (world_of dbg arena mal ar MS AO n s ss H SH SE) as Ws. pose proof (World_clean _ _ _ _ _ _ _ _ Ws) as Wc.
  pose proof (on_outcome dbg arena mal ar (Z.of_nat n + 1) (SOn i (UAssign (Chars l'))) (cleaned s) ss i c l l' m Wc Ec El) as Y.
  assert (BL : Forall is_char l) by (exact (w_bytes _ _ _ _ _ _ _ _ Ws _ _ El)).
  assert (Z : outcome dbg arena mal ar (Z.of_nat n + 1) (SOn i (UAssign (Chars l'))) (cleaned s) ss (on_obj (cleaned s) i m)).
  { apply Y; [exact BL'|cbn [s_apply arg_of arg_val]; rewrite El; left; reflexivity|reflexivity|reflexivity|].
    intros R' IR' GR' OT. apply HS; [exact IR'|apply good_map; exact BL|exact OT]. }
  unfold outcome in Z. unfold gives. destruct (on_obj (cleaned s) i _) as [s'|e s'|h'| |h']; try exact Z.
  - destruct Z as (ss' & Z1 & Z2). cbn [s_apply arg_of arg_val] in Z1. rewrite El in Z1. destruct Z1 as [E|[]]. injection E as <-. eapply World_sees. exact Z2.
  - destruct e; try exact Z; [apply Z|]. destruct Z as ((ss' & Z1 & _) & _). cbn [s_apply arg_of arg_val] in Z1. rewrite El in Z1. destruct Z1 as [E|[]]. discriminate E.
Qed.

(** ** Where the characters of the range are *)
Definition valid (ss : list (option (list Z))) (c : cell) : Prop := char_cell c /\ shown ss c <> None.
Lemma cell_ok N s ss i o l c v : W N s ss -> sget (s_objs s) i = Some o -> sget ss i = Some l -> char_cell c -> shown ss c = Some v ->
  exists p, cell_ptr s i c = Some p /\ is_char v /\
    forall R, INV N (s_heap s) ((o, map Some l) :: R) -> others s ss i R ->
      asrc o (map Some l) R p 1 [Some v] /\ fetch R o (slen l) p (fcell ss i c) /\ (outside i c -> src R p 1 [Some v]).
Proof.
  intros X Eo El CC SV.
  assert (KV : arg_val ss (Some (match c with Char v => Chars [v] | CharOf j k => Piece j k 1 end)) = Some [v]).
  { destruct c as [y|j k]; cbn [shown arg_val] in *; [congruence|]. destruct (sget ss j) as [lj|] eqn:Ej; [|discriminate].
    destruct (Z.ltb_spec k 0); [discriminate|]. destruct (Z.leb_spec 0 k); [|lia]. assert (Hl : (Z.to_nat k < length lj)%nat) by (apply nth_error_Some; congruence).
    destruct (Z.leb_spec (k + 1) (slen lj)); [|unfold slen in *; lia]. cbn [andb Z.leb]. f_equal. unfold piece, stake, sdrop.
    destruct (nth_error_split lj (Z.to_nat k) SV) as (l1 & l2 & -> & L1). rewrite <- L1, skipn_app, skipn_all, Nat.sub_diag. reflexivity. }
  assert (KO : arg_ok (match c with Char v => Chars [v] | CharOf j k => Piece j k 1 end)).
  { destruct c as [y|j k]; cbn [arg_ok]; [|exact I]. split; [constructor; [exact CC|constructor]|]. unfold limit. destruct ChT; reflexivity. }
  destruct (resolve_ok dbg arena mal ar N s ss i o l _ [v] X Eo El KV KO) as (p & n & RS & _ & BV & F).
  assert (IV : is_char v) by (inversion BV; assumption).
  assert (EP : cell_ptr s i c = Some p /\ n = 1).
  { destruct c as [y|j k]; cbn [resolve cell_ptr] in *; [injection RS as <- <-; split; reflexivity|].
    destruct (sget (s_objs s) j); [|discriminate]. injection RS as <- <-. split; reflexivity. }
  destruct EP as (EP & ->). exists p. split; [exact EP|]. split; [exact IV|]. intros R IR OT. destruct (F R IR OT) as (A & S).
  split; [exact A|]. destruct c as [y|j k].
  - split; [|intros _; apply S; exact Logic.I]. cbn [fcell]. cbn [shown] in SV. injection SV as ->. constructor; [apply S; exact Logic.I|]. exists v. auto.
  - cbn [fcell outside]. destruct (Nat.eqb_spec i j) as [<-|NE].
    + split; [|intros Q; contradiction Q; reflexivity]. cbn [cell_ptr] in EP. rewrite Eo, Nat.eqb_refl in EP. injection EP as <-. constructor.
      exact (proj1 (shown_own _ _ _ _ _ El SV)).
    + assert (SS : src R p 1 [Some v]) by (apply S; cbn; congruence). split; [|intros _; exact SS]. rewrite SV. constructor; [exact SS|]. exists v. auto.
Qed.
Lemma cells_ok N s ss i o l : W N s ss -> sget (s_objs s) i = Some o -> sget ss i = Some l -> forall cs x, Forall char_cell cs -> shows ss cs x ->
  exists ps, cell_ptrs s i cs = Some ps /\ Forall is_char x /\
    forall R, INV N (s_heap s) ((o, map Some l) :: R) -> others s ss i R ->
      Forall2 (fun p v => asrc o (map Some l) R p 1 [v] /\ isb v) ps (map Some x) /\ Forall2 (fetch R o (slen l)) ps (map (fcell ss i) cs) /\
      (Forall (outside i) cs -> outer R ps (map Some x)).
Proof.
  intros X Eo El. unfold shows. induction cs as [|c r IH]; intros [|v x] C S; try discriminate S; cbn [cell_ptrs map] in *.
  - exists []. split; [reflexivity|]. split; [constructor|]. intros R _ _. repeat split; constructor.
  - injection S as S1 S2. inversion C; subst. destruct (cell_ok N s ss i o l c v X Eo El) as (p & -> & B & F); [assumption|assumption|].
    destruct (IH x) as (ps & -> & Bx & F2); [assumption|assumption|]. exists (p :: ps). split; [reflexivity|]. split; [constructor; assumption|].
    intros R IR OT. destruct (F R IR OT) as (A1 & A2 & A3). destruct (F2 R IR OT) as (B1 & B2 & B3).
    split; [constructor; [split; [exact A1|exists v; auto]|exact B1]|]. split; [constructor; assumption|].
    intros O. inversion O; subst. constructor; [split; [apply A3; assumption|exists v; auto]|apply B3; assumption].
Qed.

(** ** The range shows what it showed before *)
Lemma pin_all N h o l R : INV N h ((o, l) :: R) -> ~ unique h o ->
  exists R', (forall p n x, asrc o l R p n x -> src R' p n x) /\ INV N h ((o, l) :: R') /\
    (forall h' x, INV N h' (x :: R') -> INV N h' (x :: R)) /\ (forall h', INV N h' R' -> INV N h' R).
Proof.
  intros I NU. destruct (unique_dec _ _ _ _ _ _ _ _ _ I) as [U|(k & cap & r & HR & K & Hr)]; [destruct (NU U)|].
  destruct (pin_shared _ _ _ _ _ h R o l k cap r I HR K Hr) as (o' & R' & C0 & X & H' & Ed & I' & C1 & C2).
  exists R'. split; [|auto]. intros p n x A. pose proof (heap_heapy _ _ _ _ _ HR) as H.
  destruct A as [(N0 & Lx & S)|(H2 & _)]; [|congruence]. split; [exact N0|]. split; [exact Lx|].
  destruct p as [y|b off|e]; [contradiction| |exact S]. destruct S as (O0 & oj & lj & Y & Hj & Eb & Le & E). split; [exact O0|].
  destruct Y as [Y|Y].
  - injection Y as <- <-. exists o', l. split; [exact X|]. split; [exact H'|]. split; [congruence|auto].
  - exists oj, lj. auto.
Qed.
Lemma run_fop_outer N h o l R f ps x l' : INV N h ((o, map Some l) :: R) -> outer R ps (map Some x) -> good (map Some l) -> slen x < limit ->
  f_apply f x l = Some l' ->
  spec (run_fop dbg arena mal f ps) h o (fun _ h' o' => INV N h' ((o', map Some l') :: R)) (StrProofs6.Bad dbg arena mal ar N R).
Proof.
  intros I X G L FA. destruct f as [pos| |pos n1|]; cbn [run_fop f_apply] in *.
  - destruct (Z.leb_spec 0 pos), (Z.leb_spec pos (slen l)); try discriminate. injection FA as <-. unfold insert_fwd. eapply begin_then; [exact I|]. intros h' o' I' U _.
    rewrite map_splice. eapply spec_Keep_Bad; [exact G|]. eapply insert_cells_spec; [exact I'|exact X|exact G|rewrite slen_map; lia|rewrite slen_map; exact L].
  - injection FA as <-. unfold append_fwd. eapply begin_then; [exact I|]. intros h' o' I' U _. apply spec_size. rewrite (size_ok _ _ _ _ _ _ _ _ _ I').
    replace (map Some (l ++ x)) with (splice (slen (map Some l)) 0 (map Some x) (map Some l)) by (rewrite map_app; apply splice_tail).
    eapply spec_Keep_Bad; [exact G|]. eapply insert_cells_spec; [exact I'|exact X|exact G|pose proof (slen_nonneg (map Some l)); lia|rewrite slen_map; exact L].
  - destruct (Z.leb_spec 0 pos), (Z.leb_spec 0 n1), (Z.leb_spec (pos + n1) (slen l)); try discriminate. injection FA as <-. unfold replace_fwd. eapply begin_then; [exact I|]. intros h' o' I' U _.
    rewrite map_splice. eapply replace_cells_spec; [exact I'|exact U|exact X|exact G|lia|lia|rewrite slen_map; lia|rewrite slen_map; exact L].
  - injection FA as <-. unfold assign_fwd. eapply begin_then; [exact I|]. intros h' o' I' U _. apply spec_size. rewrite (size_ok _ _ _ _ _ _ _ _ _ I').
    pose proof (slen_nonneg (map Some l)). replace (map Some x) with (splice 0 (slen (map Some l)) (map Some x) (map Some l)) by apply splice_all.
    eapply replace_cells_spec; [exact I'|exact U|exact X|exact G|lia|lia|lia|rewrite slen_map; exact L].
Qed.
Lemma f_chars f x l l' : Forall is_char x -> Forall is_char l -> f_apply f x l = Some l' -> Forall is_char l'.
Proof.
  intros X L. destruct f as [pos| |pos n1|]; cbn [f_apply]; try destruct (_ && _); try discriminate; intros E; injection E as <-;
    [apply bytes_splice; assumption|apply Forall_app; auto|apply bytes_splice; assumption|assumption].
Qed.
Lemma reach_fwd n s ss i c l f cs x l' : reach n s -> short n -> sees s ss -> sget (s_objs s) i = Some c -> sget ss i = Some l ->
  Forall char_cell cs -> shows ss cs x -> slen x < limit -> Forall (outside i) cs \/ is_shared (s_heap s) c = Ret true (s_heap s) c ->
  f_apply f x l = Some l' -> gives (fstep dbg arena mal s i f cs) (sset i (Some l') ss).
Proof.
  intros H SH SE Ec El CC SW L CASE FA. pose proof (World_clean _ _ _ _ _ _ _ _ (world_of dbg arena mal ar MS AO n s ss H SH SE)) as Wc.
  assert (BL : Forall is_char l) by (exact (w_bytes _ _ _ _ _ _ _ _ Wc _ _ El)).
  destruct (cells_ok (Z.of_nat n + 1) (cleaned s) ss i c l Wc Ec El cs x CC SW) as (ps & EP & BX & F).
  unfold fstep. change {| h_blocks := h_blocks (s_heap s); h_calls := h_calls (s_heap s); h_refused := false; h_rfail := h_rfail (s_heap s) |} with (clean (s_heap s)). cbv zeta. rewrite EP.
  eapply reach_run; try eassumption; [exact (f_chars f x l l' BX BL FA)|]. intros R IR G OT. destruct (F R IR OT) as (F1 & _ & F3).
  destruct CASE as [O|SHD]; [eapply run_fop_outer; [exact IR|apply F3; exact O|exact G|exact L|exact FA]|].
  destruct (Inv_head _ _ _ _ _ _ _ _ _ IR) as (RP & _).
  destruct (pin_all _ _ _ _ _ IR (shared_not_unique _ _ _ RP (shared_clean _ _ _ SHD))) as (R' & S & I' & C1 & C2).
  eapply spec_imp; [eapply run_fop_outer; [exact I'| |exact G|exact L|exact FA]| |].
  - eapply Forall2_impl; [|exact F1]. intros p v (A & B). split; [apply S; exact A|exact B].
  - intros a h' o' X. cbv beta in X. apply C1. exact X.
  - intros e h' o' (E1 & E2 & [(l2 & G' & X)|(E3 & E4 & E5 & X)]); (split; [exact E1|]; split; [exact E2|]); [left; eauto|right; auto].
Qed.

(** ** In place *)
Lemma one_by_one_chars i cs : forall ss pos ss', Forall char_cell cs -> (forall j x, sget ss j = Some x -> Forall is_char x) ->
  one_by_one i ss pos cs = Some ss' -> forall j x, sget ss' j = Some x -> Forall is_char x.
Proof.
  induction cs as [|c r IH]; intros ss pos ss' CC B E; cbn [one_by_one] in E; [injection E as <-; exact B|]. inversion CC as [|? ? C1 C2]; subst.
  destruct (sget ss i) as [l|] eqn:El; [|discriminate]. destruct (shown ss c) as [v|] eqn:Ev; [|discriminate].
  assert (BV : is_char v).
  { destruct c as [y|j k]; cbn [shown char_cell] in *; [congruence|]. destruct (sget ss j) as [lj|] eqn:Ej; [|discriminate]. destruct (k <? 0); [discriminate|].
    eapply Forall_forall; [exact (B _ _ Ej)|]. eapply nth_error_In. exact Ev. }
  eapply IH; [exact C2| |exact E]. intros j x Ex. destruct (Nat.eq_dec j i) as [->|NE].
  - rewrite (sget_sset_eq _ _ _ _ El) in Ex. injection Ex as <-. apply bytes_splice; [exact (B _ _ El)|constructor; [exact BV|constructor]].
  - rewrite sget_sset_neq in Ex by congruence. exact (B _ _ Ex).
Qed.
Definition place (f : fop) (l : list Z) : option (Z * Z) :=
  match f with FReplace pos n1 => Some (pos, n1) | FAssign => Some (0, slen l) | _ => None end.
Lemma reach_over n s ss i c l pos n1 f cs x ss' l1 : reach n s -> short n -> sees s ss -> sget (s_objs s) i = Some c -> sget ss i = Some l ->
  Forall char_cell cs -> shows ss cs x -> is_shared (s_heap s) c = Ret false (s_heap s) c ->
  place f l = Some (pos, n1) -> 0 <= pos -> pos + n1 <= slen l -> slen cs <= n1 ->
  one_by_one i ss pos cs = Some ss' -> sget ss' i = Some l1 ->
  gives (fstep dbg arena mal s i f cs) (sset i (Some (splice (pos + slen cs) (n1 - slen cs) [] l1)) ss).
Proof.
  intros H SH SE Ec El CC SW SHD PL Hp Hl Hn OB E1. pose proof (World_clean _ _ _ _ _ _ _ _ (world_of dbg arena mal ar MS AO n s ss H SH SE)) as Wc.
  destruct (cells_ok (Z.of_nat n + 1) (cleaned s) ss i c l Wc Ec El cs x CC SW) as (ps & EP & BX & F).
  assert (BL : forall j y, sget ss j = Some y -> Forall is_char y) by (intros j y Ej; exact (w_bytes _ _ _ _ _ _ _ _ Wc _ _ Ej)).
  pose proof (one_by_one_chars i cs ss pos ss' CC BL OB i l1 E1) as B1.
  destruct (one_by_one_wr i cs ss pos l ss' El OB) as (l2 & -> & WR). rewrite (sget_sset_eq _ _ _ _ El) in E1. injection E1 as ->.
  unfold fstep. change {| h_blocks := h_blocks (s_heap s); h_calls := h_calls (s_heap s); h_refused := false; h_rfail := h_rfail (s_heap s) |} with (clean (s_heap s)). cbv zeta. rewrite EP.
  eapply reach_run; try eassumption; [apply bytes_splice; [exact B1|constructor]|]. intros R IR G OT. destruct (F R IR OT) as (_ & F2 & _).
  pose proof (unshared_unique _ _ _ _ _ _ _ _ _ IR (shared_clean _ _ _ SHD)) as U.
  assert (LF : slen (map (fcell ss i) cs) = slen cs) by apply slen_map.
  assert (K : spec (replace_cells dbg arena mal pos n1 ps) (clean (s_heap s)) c (fun _ h' o' => INV (Z.of_nat n + 1) h' ((o', map Some (splice (pos + slen cs) (n1 - slen cs) [] l1)) :: R)) (StrProofs6.Bad dbg arena mal ar (Z.of_nat n + 1) R)).
  { rewrite map_splice, <- WR, <- LF. cbn [map]. eapply replace_cells_in_place; try assumption; rewrite ?slen_map; try assumption. }
  destruct f as [p0| |p0 n0|]; try discriminate PL; injection PL as <- <-; cbn [run_fop].
  - unfold replace_fwd. eapply begin_then; [exact IR|]. intros h' o' I' U' SAME. destruct (SAME U) as (-> & ->). exact K.
  - unfold assign_fwd. eapply begin_then; [exact IR|]. intros h' o' I' U' SAME. destruct (SAME U) as (-> & ->).
    apply spec_size. rewrite (size_ok _ _ _ _ _ _ _ _ _ I'), slen_map. exact K.
Qed.
Definition spot (f : fop) (l : list Z) : option Z := match f with FInsert pos => Some pos | FAppend => Some (slen l) | _ => None end.
Lemma reach_opened n s ss i c l pos u f cs x ss' : reach n s -> short n -> sees s ss -> sget (s_objs s) i = Some c -> sget ss i = Some l ->
  Forall char_cell cs -> shows ss cs x -> has_room dbg arena (s_heap s) c (slen l + slen cs) -> slen cs < limit ->
  spot f l = Some pos -> 0 <= pos <= slen l -> slen u = slen cs -> Forall is_char u ->
  one_by_one i (sset i (Some (opened pos u l)) ss) pos cs = Some ss' ->
  gives (fstep dbg arena mal s i f cs) ss'.
Proof.
  intros H SH SE Ec El CC SW RM Ln SP Hp Lu BU OB. pose proof (World_clean _ _ _ _ _ _ _ _ (world_of dbg arena mal ar MS AO n s ss H SH SE)) as Wc.
  destruct (cells_ok (Z.of_nat n + 1) (cleaned s) ss i c l Wc Ec El cs x CC SW) as (ps & EP & BX & F).
  assert (BL : forall j y, sget ss j = Some y -> Forall is_char y) by (intros j y Ej; exact (w_bytes _ _ _ _ _ _ _ _ Wc _ _ Ej)).
  assert (E0 : sget (sset i (Some (opened pos u l)) ss) i = Some (opened pos u l)) by (eapply sget_sset_eq; exact El).
  destruct (one_by_one_wr i cs _ pos _ ss' E0 OB) as (l1 & -> & WR). rewrite sset_sset in *.
  assert (B1 : Forall is_char l1).
  { eapply (one_by_one_chars i cs _ pos _ CC); [|exact OB|eapply sget_sset_eq; exact El]. intros j y Ej. destruct (Nat.eq_dec j i) as [->|NE].
    - rewrite E0 in Ej. injection Ej as <-. apply bytes_splice; [apply Forall_app; split; [exact (BL _ _ El)|exact BU]|apply Forall_skipn; exact (BL _ _ El)].
    - rewrite sget_sset_neq in Ej by congruence. exact (BL _ _ Ej). }
  unfold fstep. change {| h_blocks := h_blocks (s_heap s); h_calls := h_calls (s_heap s); h_refused := false; h_rfail := h_rfail (s_heap s) |} with (clean (s_heap s)). cbv zeta. rewrite EP.
  eapply reach_run; try eassumption. intros R IR G OT. destruct (F R IR OT) as (_ & F2 & _).
  pose proof (unshared_unique _ _ _ _ _ _ _ _ _ IR (shared_clean _ _ _ (proj1 RM))) as U.
  assert (LF : slen (map (fcell ss i) cs) = slen cs) by apply slen_map.
  assert (K : spec (insert_cells dbg arena mal pos ps) (clean (s_heap s)) c (fun _ h' o' => INV (Z.of_nat n + 1) h' ((o', map Some l1) :: R)) (StrProofs6.Bad dbg arena mal ar (Z.of_nat n + 1) R)).
  { rewrite <- WR. replace (map (fcell (sset i (Some (opened pos u l)) ss) i) cs) with (map (fcell ss i) cs) by (apply map_ext; intros c'; symmetry; apply fcell_set).
    replace (map Some (opened pos u l)) with (gap pos (map Some u) (map Some l)) by (unfold gap, opened; rewrite map_splice, map_app, !slen_map; unfold sdrop; rewrite skipn_map; reflexivity).
    eapply spec_Keep_Bad; [exact G|]. eapply insert_cells_in_place; try assumption; rewrite ?slen_map; try assumption; try lia.
    exact (has_room_fits _ _ _ _ _ RM). }
  destruct f as [p0| |p0 n0|]; try discriminate SP; injection SP as <-; cbn [run_fop].
  - unfold insert_fwd. eapply begin_then; [exact IR|]. intros h' o' I' U' SAME. destruct (SAME U) as (-> & ->). exact K.
  - unfold append_fwd. eapply begin_then; [exact IR|]. intros h' o' I' U' SAME. destruct (SAME U) as (-> & ->).
    apply spec_size. rewrite (size_ok _ _ _ _ _ _ _ _ _ I'), slen_map. exact K.
Qed.
End W.
End Wide.
