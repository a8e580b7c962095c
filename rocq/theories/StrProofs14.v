(** Single calls on strings of an execution. *)
Require Import ZArith List Bool Lia Permutation.
From Verif Require Import Base BaseProofs StrSpec StrModel StrStatements StrProofs StrProofs2 StrProofs3 StrProofs4 StrProofs5 StrProofs6 StrProofs7 StrQuiet StrProofs8 StrProofs9 StrProofs10 StrProofs11 StrProofs12 StrProofs13.
Import ListNotations.
Open Scope Z_scope.


Section Wide.
Context {ChT : CharType}.

Lemma sset_len {A} (x : A) l : forall i, length (sset i x l) = length l.
Proof. induction l as [|y l IH]; intros [|i]; cbn [sset length]; auto. Qed.

Lemma own_arg ss i l off k : sget ss i = Some l -> 0 <= off -> 0 <= k -> off + k <= slen l -> arg_val ss (Some (Piece i off k)) = Some (piece off k l).
Proof.
  intros El H1 H2 H3. cbn [arg_val]. rewrite El. destruct (Z.leb_spec 0 off), (Z.leb_spec 0 k), (Z.leb_spec (off + k) (slen l)); try lia. reflexivity.
Qed.

Section S.
Variables (dbg arena : bool) (mal : nat -> Z -> bool) (ar : Z).
Hypotheses (MS : mal_sane mal) (AO : ar_ok dbg arena ar).
Notation World := (StrProofs8.World dbg arena mal ar).
Notation W M s ss := (World M (s_heap s) (s_objs s) ss).
Notation reach := (StrStatements.reach dbg arena mal ar).
Notation step := (StrStatements.step dbg arena mal ar).
Notation cleaned s := {| s_heap := clean (s_heap s); s_objs := s_objs s |}.

Lemma reach_on n s ss i l o x l' : reach n s -> short n -> sees s ss -> sget ss i = Some l ->
  arg_val ss (arg_of o) = Some x -> u_apply o x l = Val l' -> uop_ok ar i l o -> gives (step s (SOn i o)) (sset i (Some l') ss).
Proof.
  intros H SH SE El Ex V OK.
  assert (AP : s_apply (SOn i o) ss = [SVal (sset i (Some l') ss)]) by (cbn [s_apply]; rewrite El; cbn [with_]; rewrite Ex; cbn [with_]; rewrite V; reflexivity).
  assert (AL : allowed ar ss (SOn i o)).
  { split; [rewrite AP; discriminate|]. cbn [sop_ok]. intros l0 E0. rewrite El in E0. injection E0 as <-. exact OK. }
  pose proof (reach_step dbg arena mal ar n s ss _ MS AO H SH SE AL) as Y. unfold step_ok in Y. rewrite AP in Y. unfold gives.
  destruct (step s (SOn i o)) as [s'|e s'|h'| |h']; try exact Y.
  - destruct Y as (ss' & [E|[]] & SE'). injection E as <-. exact SE'.
  - destruct e; try exact Y; try apply Y. destruct Y as ((ss' & [E|[]] & _) & _). discriminate E.
Qed.
Lemma reach_on_range n s ss i l o x : reach n s -> short n -> sees s ss -> sget ss i = Some l ->
  arg_val ss (arg_of o) = Some x -> u_apply o x l = Range -> step s (SOn i o) = SThr OutOfRange (cleaned s).
Proof.
  intros H SH SE El Ex V. pose proof (world_of dbg arena mal ar MS AO n s ss H SH SE) as Ws. pose proof (World_clean _ _ _ _ _ _ _ _ Ws) as Wc.
  destruct (alike_obj _ _ _ _ (w_alike _ _ _ _ _ _ _ _ Ws) El) as (c & Ec). destruct (focus _ _ i c l (w_alike _ _ _ _ _ _ _ _ Ws) Ec El) as (R & P1 & _).
  assert (RV : exists p m, resolve (cleaned s) i (arg_of o) = Some (p, m)).
  { destruct (arg_of o) as [[y|j off k]|]; cbn [resolve]; try (eexists; eexists; reflexivity). cbn [arg_val] in Ex. destruct (sget ss j) as [lj|] eqn:Elj; [|discriminate].
    destruct (alike_obj _ _ _ _ (w_alike _ _ _ _ _ _ _ _ Ws) Elj) as (cj & Ecj). cbn [s_objs]. rewrite Ecj. eexists; eexists; reflexivity. }
  destruct RV as (p & m & RV). unfold StrStatements.step. cbn [sstep]. rewrite RV. eapply on_obj_throw; [exact Ec|].
  eapply run_uop_range; [eapply Inv_perm; [exact P1|exact (w_inv _ _ _ _ _ _ _ _ Wc)]|exact V].
Qed.
Lemma reach_substr n s ss j l p k : reach n s -> short n -> sees s ss -> sget ss j = Some l -> size_t p -> size_t k ->
  if p <=? slen l then gives (step s (SSubstr j p k)) (ss ++ [Some (piece p k l)]) /\ gives (step s (SSub j p k)) (ss ++ [Some (piece p k l)]) /\
                       gives (step s (SSubstrMove j p k)) (sset j (Some []) ss ++ [Some (piece p k l)])
  else step s (SSubstr j p k) = SThr OutOfRange {| s_heap := clean (s_heap s); s_objs := s_objs s ++ [None] |} /\
       step s (SSubstrMove j p k) = SThr OutOfRange {| s_heap := clean (s_heap s); s_objs := s_objs s ++ [None] |}.
Proof.
  intros H SH SE El Hp Hk.
  assert (GN : forall o ss', p <= slen l -> (o = SSubstr j p k \/ o = SSub j p k \/ o = SSubstrMove j p k) -> s_apply o ss = [SVal ss'] -> gives (step s o) ss').
  { intros o ss' Hp' Ho AP. assert (AL : allowed ar ss o).
    { split; [rewrite AP; discriminate|]. destruct Ho as [->|[->| ->]]; split; assumption. }
    pose proof (reach_step dbg arena mal ar n s ss _ MS AO H SH SE AL) as Y. unfold step_ok in Y. rewrite AP in Y. unfold gives.
    destruct (step s o) as [s'|e s'|h'| |h']; try exact Y.
    - destruct Y as (ss1 & [E|[]] & SE'). injection E as <-. exact SE'.
    - destruct e; try exact Y; try apply Y. destruct Y as ((ss1 & [E|[]] & _) & _). discriminate E. }
  destruct (Z.leb_spec p (slen l)) as [L|L].
  - assert (IN : in_size p l = true) by (apply Z.leb_le; exact L).
    split; [|split]; (apply GN; [exact L|auto|]; cbn [s_apply]; rewrite El; cbn [with_]; rewrite IN; reflexivity).
  - pose proof (world_of dbg arena mal ar MS AO n s ss H SH SE) as Ws. destruct (alike_obj _ _ _ _ (w_alike _ _ _ _ _ _ _ _ Ws) El) as (c & Ec).
    destruct (world_rep dbg arena mal ar _ s ss j c Ws Ec) as (l0 & El0 & RP & _). rewrite El in El0. injection El0 as <-.
    pose proof (rep_size _ _ _ RP) as SZ. rewrite slen_map in SZ. assert (LE : (p <=? size c) = false) by (apply Z.leb_gt; lia).
    unfold StrStatements.step. cbn [sstep obj s_objs]. unfold obj. cbn [s_objs s_heap]. rewrite Ec. split.
    + unfold new_obj, bnd, enforce. rewrite LE. reflexivity.
    + rewrite (on_obj_throw (cleaned s) j c _ OutOfRange Ec); [reflexivity|]. unfold bnd at 1. unfold size_m, this, bnd at 1, ret at 1. unfold bnd at 1, enforce. rewrite LE. reflexivity.
Qed.

(** Inserting a piece of the string itself: in place and from not behind the
    position, or when the string is shared. *)
Lemma reach_insert_own n s ss i c l pos off k : reach n s -> short n -> sees s ss -> sget (s_objs s) i = Some c -> sget ss i = Some l ->
  0 <= off <= pos -> pos <= slen l -> 0 <= k -> off + k <= slen l ->
  is_shared (s_heap s) c = Ret true (s_heap s) c \/ has_room dbg arena (s_heap s) c (slen l + k) ->
  gives (step s (SOn i (UInsert pos (Piece i off k)))) (sset i (Some (splice pos 0 (piece off k l) l)) ss).
Proof.
  intros H SH SE Ec El Ho Hp Hk Hl RM. pose proof (world_of dbg arena mal ar MS AO n s ss H SH SE) as Ws. pose proof (World_clean _ _ _ _ _ _ _ _ Ws) as Wc.
  destruct (focus _ _ i c l (w_alike _ _ _ _ _ _ _ _ Ws) Ec El) as (R & P1 & _).
  unfold StrStatements.step. cbn [sstep arg_of resolve s_objs]. rewrite Ec, Nat.eqb_refl. cbn [run_uop].
  pose proof (on_outcome dbg arena mal ar (Z.of_nat n + 1) (SOn i (UAssign (Chars (splice pos 0 (piece off k l) l)))) (cleaned s) ss i c l (splice pos 0 (piece off k l) l)
    (insert dbg arena mal pos (ptr_add (data c) off) k) Wc Ec El) as Y.
  assert (BL : Forall is_char l) by (exact (w_bytes _ _ _ _ _ _ _ _ Ws _ _ El)).
  assert (Z : outcome dbg arena mal ar (Z.of_nat n + 1) (SOn i (UAssign (Chars (splice pos 0 (piece off k l) l)))) (cleaned s) ss (on_obj (cleaned s) i (insert dbg arena mal pos (ptr_add (data c) off) k))).
  { apply Y; [apply bytes_splice; [exact BL|apply bytes_piece; exact BL]|cbn [s_apply arg_of arg_val]; rewrite El; left; reflexivity|reflexivity|reflexivity|].
    intros R' IR' GR' _. rewrite map_splice, map_piece. eapply insert_own_spec; try exact IR'; try (rewrite ?slen_map; lia); [apply good_map; exact BL|].
    intros U. rewrite slen_map. destruct RM as [SHD|RM]; [exfalso|exact (has_room_fits _ _ _ _ _ RM)].
    destruct (Inv_head _ _ _ _ _ _ _ _ _ IR') as (RP & _). pose proof (unique_shared _ _ _ RP U) as X.
    assert (E : is_shared (s_heap s) c = Ret false (s_heap s) c).
    { revert X. unfold is_shared, bnd, this. destruct (category c =? is_large); [|reflexivity]. unfold refs. change (blk (s_heap (cleaned s)) (c_data c)) with (blk (s_heap s) (c_data c)).
      destruct (blk (s_heap s) (c_data c)) as [kk|]; [|discriminate]. destruct (bk_live kk); [|discriminate]. destruct (bk_kind kk); [discriminate|]. cbn. intros E. injection E as E. rewrite E. reflexivity. }
    rewrite E in SHD. discriminate SHD. }
  unfold outcome in Z. unfold gives. destruct (on_obj (cleaned s) i _) as [s'|e s'|h'| |h']; try exact Z.
  - destruct Z as (ss' & Z1 & Z2). cbn [s_apply arg_of arg_val] in Z1. rewrite El in Z1. destruct Z1 as [E|[]]. injection E as <-. eapply World_sees. exact Z2.
  - destruct e; try exact Z; [apply Z|]. destruct Z as ((ss' & Z1 & _) & _). cbn [s_apply arg_of arg_val] in Z1. rewrite El in Z1. destruct Z1 as [E|[]]. discriminate E.
Qed.

(** ** operator+ *)
Lemma reach_plus n s ss o v : reach n s -> short n -> sees s ss -> concat_val o ss = Some v -> sop_ok ar ss o ->
  match step s o with
  | SRet s' => exists ss1, sees s' (ss1 ++ [Some v]) /\ length ss1 = length ss /\ forall i, moved o <> Some i -> sget ss1 i = sget ss i
  | SThr BadAlloc s' => h_refused (s_heap s') = true
  | STerm h => h_refused h = true
  | SUB h => h_rfail h = true
  | _ => False
  end.
Proof.
  intros H SH SE CV OK.
  assert (AP : s_apply o ss <> [] /\ forall r, In r (s_apply o ss) -> exists ss1, r = SVal (ss1 ++ [Some v]) /\ length ss1 = length ss /\ forall i, moved o <> Some i -> sget ss1 i = sget ss i).
  { assert (K : forall j ll, length (sset j (ll : option (list Z)) ss) = length ss) by (intros; apply sset_len).
    assert (Q : forall j ll i, Some j <> Some i -> sget (sset j (ll : option (list Z)) ss) i = sget ss i) by (intros j ll i NE; apply sget_sset_neq; congruence).
    destruct o; cbn [concat_val] in CV; try discriminate; cbn [s_apply moved];
      repeat match type of CV with context [sget ss ?j] => destruct (sget ss j) eqn:?; try discriminate end; injection CV as <-; cbn [with_ app];
      (split; [discriminate|]); intros r HI; cbn [In] in HI;
      repeat match goal with X : _ \/ _ |- _ => destruct X as [X|X] | X : False |- _ => destruct X end; subst r; eexists; (split; [reflexivity|]); auto. }
  destruct AP as (A1 & A2). assert (AL : allowed ar ss o) by (split; assumption).
  pose proof (reach_step dbg arena mal ar n s ss _ MS AO H SH SE AL) as Y. unfold step_ok in Y.
  destruct (step s o) as [s'|e s'|h'| |h']; try exact Y.
  - destruct Y as (ss' & I & SE'). destruct (A2 _ I) as (ss1 & E & Z1 & Z2). injection E as ->. eauto.
  - destruct e; try exact Y; try apply Y. destruct Y as ((ss' & I & _) & _). destruct (A2 _ I) as (ss1 & E & _). discriminate E.
Qed.

Lemma then_move_quiet s j c m : sget (s_objs s) j = Some c -> quiet m (s_heap s) c any ->
  match then_move dbg (on_obj s j m) j with
  | SRet s' => same (s_heap s) (s_heap s') /\ exists objs c', s_objs s' = objs ++ [Some c'] /\ stay c c'
  | SThr _ s' => same (s_heap s) (s_heap s')
  | STerm h' | SUB h' => same (s_heap s) h'
  | SAFail => True
  end.
Proof.
  intros Ec Q. pose proof (on_obj_quiet s j c m Ec Q) as Y. destruct (on_obj s j m) as [s1|e s1|h1| |h1]; cbn [then_move s_heap]; try exact Y.
  destruct Y as (S & c' & Ec' & T). unfold move_out. rewrite Ec'. unfold reset. rewrite set_small_ok by lia. cbn [s_heap s_objs].
  split; [exact S|]. eexists; eexists. split; [reflexivity|exact T].
Qed.
(** A moved left operand with room is used without asking for memory. *)
Lemma reach_plus_moved n s ss o j c v : reach n s -> short n -> sees s ss -> concat_val o ss = Some v -> sop_ok ar ss o ->
  moved_left o = Some j -> sget (s_objs s) j = Some c -> has_room dbg arena (s_heap s) c (slen v) ->
  exists s' ss1 objs c', step s o = SRet s' /\ sees s' (ss1 ++ [Some v]) /\ (forall i, i <> j -> sget ss1 i = sget ss i) /\
    no_request (s_heap s) (s_heap s') /\ s_objs s' = objs ++ [Some c'] /\ (category c <> is_small -> c_data c' = c_data c).
Proof.
  intros H SH SE CV OK MV Ec RM. pose proof (world_of dbg arena mal ar MS AO n s ss H SH SE) as Ws. pose proof (World_clean _ _ _ _ _ _ _ _ Ws) as Wc.
  destruct (reach_world dbg arena mal ar n s MS AO H SH) as (RF & _).
  pose proof (reach_plus n s ss o v H SH SE CV OK) as Y. pose proof (has_room_fits _ _ _ _ _ RM) as FT.
  assert (Q : match step s o with
    | SRet s' => same (clean (s_heap s)) (s_heap s') /\ exists objs c', s_objs s' = objs ++ [Some c'] /\ stay c c'
    | SThr _ s' => same (clean (s_heap s)) (s_heap s') | STerm h' | SUB h' => same (clean (s_heap s)) h' | SAFail => True end).
  { assert (SZ : forall k d, sget (s_objs s) k = Some d -> exists l, sget ss k = Some l /\ size d = slen l).
    { intros k d Ed. destruct (world_rep dbg arena mal ar _ s ss k d Ws Ed) as (l0 & El0 & RP & _). exists l0. split; [exact El0|]. rewrite (rep_size _ _ _ RP). apply slen_map. }
    assert (OB : forall k l, sget ss k = Some l -> exists d, sget (s_objs s) k = Some d /\ size d = slen l).
    { intros k l El. destruct (alike_obj _ _ _ _ (w_alike _ _ _ _ _ _ _ _ Ws) El) as (d & Ed). exists d. split; [exact Ed|]. destruct (SZ k d Ed) as (l0 & El0 & Z). congruence. }
    destruct (SZ j c Ec) as (la & Ela & _). destruct (focus _ _ j c la (w_alike _ _ _ _ _ _ _ _ Ws) Ec Ela) as (R & P1 & _).
    assert (IR : StrProofs2.Inv dbg arena mal ar (Z.of_nat n + 1) (clean (s_heap s)) ((c, map Some la) :: R)) by (eapply Inv_perm; [exact P1|exact (w_inv _ _ _ _ _ _ _ _ Wc)]).
    unfold StrStatements.step. destruct o; try discriminate MV; injection MV as ->; cbn [concat_val] in CV; rewrite Ela in CV; cbn [sstep]; unfold obj; cbn [s_objs s_heap].
    - destruct (sget ss k) as [lb|] eqn:Elb; [|discriminate]. injection CV as <-. rewrite slen_app in FT. destruct (OB k lb Elb) as (d & Ed & Sd). rewrite Ec, Ed.
      apply (then_move_quiet (cleaned s) j c); [exact Ec|]. eapply append_str_quiet; [exact IR|rewrite Sd; apply slen_nonneg|]. rewrite slen_map, Sd. exact FT.
    - destruct (sget ss k) as [lb|] eqn:Elb; [|discriminate]. injection CV as <-. rewrite slen_app in FT. destruct (OB k lb Elb) as (d & Ed & Sd). rewrite Ec, Ed.
      apply (then_move_quiet (cleaned s) j c); [exact Ec|]. eapply append_str_quiet; [exact IR|rewrite Sd; apply slen_nonneg|]. rewrite slen_map, Sd. exact FT.
    - injection CV as <-. rewrite slen_app in FT. rewrite Ec. apply (then_move_quiet (cleaned s) j c); [exact Ec|]. eapply append_quiet; [exact IR|apply slen_nonneg|]. rewrite slen_map. exact FT.
    - injection CV as <-. rewrite slen_app in FT. rewrite Ec. apply (then_move_quiet (cleaned s) j c); [exact Ec|]. eapply push_back_quiet; [exact IR|]. rewrite slen_map. exact FT. }
  destruct (step s o) as [s'|e s'|h'| |h'].
  - destruct Y as (ss1 & Y1 & Y2 & Y3). destruct Q as ((Q1 & _) & objs & c' & Q2 & Q3). exists s', ss1, objs, c'. split; [reflexivity|]. split; [exact Y1|]. split; [|split; [exact Q1|split; [exact Q2|]]].
    + intros i NE. apply Y3. destruct o; try discriminate MV; injection MV as ->; cbn [moved]; congruence.
    + intros NS. apply Q3. unfold heapy. destruct (Z.eqb_spec (category c) is_small); [contradiction|reflexivity].
  - destruct e; try contradiction. destruct Q as (_ & Q & _). rewrite Y in Q. discriminate Q.
  - destruct Q as (_ & Q & _). rewrite Y in Q. discriminate Q.
  - contradiction.
  - destruct Q as (_ & _ & Q & _). rewrite Y in Q. cbn [clean h_rfail] in Q. rewrite RF in Q. discriminate Q.
Qed.

(** ** Representation of new strings *)
Lemma step_new_kind s l s' : slen l < limit -> step s (SNew l) = SRet s' ->
  exists c, s_objs s' = s_objs s ++ [Some c] /\ category c = kind_for dbg arena (slen l).
Proof.
  intros L E. unfold StrStatements.step in E. cbn [sstep] in E. unfold new_obj in E. cbn [s_heap s_objs] in E.
  destruct (init_core dbg arena mal (PExt (map Some l)) (slen l) (clean (s_heap s)) (blank ar)) as [u h1 c| | | |] eqn:E1; try discriminate.
  injection E as <-. exists c. split; [reflexivity|]. eapply init_kind; [|exact E1]. pose proof (slen_nonneg l). lia.
Qed.
Lemma reach_kinds n s i c : reach n s -> short n -> sget (s_objs s) i = Some c ->
  category c = is_small /\ size c <= max_small \/ category c = is_medium /\ size c = c_size c \/ category c = is_large /\ size c = c_size c.
Proof.
  intros H SH Ec. destruct (reach_world dbg arena mal ar n s MS AO H SH) as (_ & ss & Ws). destruct (world_rep dbg arena mal ar _ s ss i c Ws Ec) as (l & El & RP & _).
  pose proof (rep_size _ _ _ RP) as SZ. destruct RP as [S|(k & cap & HR)].
  - left. split; [exact (small_cat _ (small_heapy _ _ S))|]. rewrite SZ. apply S.
  - right. pose proof (heap_cat _ _ _ _ _ HR) as CT. assert (CS : size c = c_size c) by (rewrite SZ; destruct HR as (_ & _ & _ & E & _); congruence).
    rewrite CT. destruct (bk_kind k); auto.
Qed.
End S.
End Wide.
