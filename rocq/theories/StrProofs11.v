(** Consequences of the invariant: holders of blocks, capacity, appending in place. *)
Require Import ZArith List Bool Lia Permutation.
From Verif Require Import Base BaseProofs StrSpec StrModel StrStatements StrProofs StrProofs2 StrProofs3 StrProofs4 StrProofs5 StrProofs6 StrProofs7 StrQuiet StrProofs8 StrProofs9 StrProofs10.
Import ListNotations.
Open Scope Z_scope.


Section Wide.
Context {ChT : CharType}.

Section S.
Variables (dbg arena : bool) (mal : nat -> Z -> bool) (ar N : Z).
Notation INV := (StrProofs2.Inv dbg arena mal ar N).
Notation World := (StrProofs8.World dbg arena mal ar).
Notation W M s ss := (World M (s_heap s) (s_objs s) ss).
Notation fits := (StrQuiet.fits dbg arena).

(** ** Memory *)
Lemma holders_owners b cs ss : Forall2 alike cs ss ->
  slen (filter (fun x => match x with Some c => holds b c | None => false end) cs) = owners b (zipS cs ss).
Proof.
  unfold owners. induction 1 as [|x y cs ss E H IH]; [reflexivity|]. destruct x as [c|], y as [l|]; try contradiction; cbn [filter zipS fst]; [|exact IH].
  change (owns b c) with (holds b c). destruct (holds b c); [rewrite !slen_cons, IH; reflexivity|exact IH].
Qed.
Lemma world_blocks s ss b k : W N s ss -> blk (s_heap s) b = Some k -> bk_live k = true ->
  bk_res k = ar /\
  match bk_kind k with
  | Plain => if ar =? 0 then holders s b = 1 else holders s b <= 1
  | Counted r => 0 <= r <= N /\ if ar =? 0 then holders s b = r /\ 1 <= r else holders s b <= r
  end.
Proof. intros [I A B] Bk L. unfold holders. rewrite (holders_owners b _ _ A). exact (i_blk _ _ _ _ _ _ _ I b k Bk L). Qed.
Lemma world_rep s ss i c : W N s ss -> sget (s_objs s) i = Some c -> exists l, sget ss i = Some l /\ rep (s_heap s) c (map Some l) /\ c_al c = ar.
Proof.
  intros [I A B] Ec. pose proof (alike_sget _ _ i A) as X. rewrite Ec in X. destruct (sget ss i) as [l|] eqn:El; [|contradiction]. exists l. split; [reflexivity|].
  apply (i_rep _ _ _ _ _ _ _ I c (map Some l)). eapply zip_in; eassumption.
Qed.
Lemma world_live s ss i c : W N s ss -> sget (s_objs s) i = Some c -> category c <> is_small ->
  exists k, blk (s_heap s) (c_data c) = Some k /\ bk_live k = true /\ bk_res k = c_al c.
Proof.
  intros X Ec H. destruct (world_rep s ss i c X Ec) as (l & El & RP & Al). destruct (rep_heapy _ _ _ RP) as (k & cap & HR).
  { unfold heapy. destruct (Z.eqb_spec (category c) is_small); [contradiction|reflexivity]. }
  destruct HR as (Bk & L & _). exists k. split; [exact Bk|]. split; [exact L|]. destruct (world_blocks s ss _ k X Bk L) as (E & _). congruence.
Qed.
Lemma holders_none s b : (forall i, sget (s_objs s) i = None) -> holders s b = 0.
Proof.
  unfold holders. intros H. induction (s_objs s) as [|x cs IH]; [reflexivity|]. pose proof (H O) as H0. cbn in H0. subst x. cbn [filter]. apply IH.
  intros i. exact (H (S i)).
Qed.
Lemma world_empty s ss b k : W N s ss -> ar = 0 -> (forall i, sget (s_objs s) i = None) -> blk (s_heap s) b = Some k -> bk_live k = false.
Proof.
  intros X EA H Bk. destruct (bk_live k) eqn:L; [|reflexivity]. destruct (world_blocks s ss b k X Bk L) as (_ & Y). rewrite (holders_none s b H), EA in Y. cbn [Z.eqb] in Y.
  destruct (bk_kind k); [discriminate|]. lia.
Qed.
Lemma world_capacity s ss i c : W N s ss -> sget (s_objs s) i = Some c ->
  exists cap, capacity (s_heap s) c = Ret cap (s_heap s) c /\ size c <= cap /\ room (s_heap s) c (cap + 1).
Proof.
  intros X Ec. destruct (world_rep s ss i c X Ec) as (l & El & RP & Al). pose proof (rep_size _ _ _ RP) as SZ. unfold room. destruct RP as [S|(k & cap & HR)].
  - pose proof (small_heapy _ _ S) as Hs. exists max_small. split; [apply capacity_small; exact Hs|]. rewrite (data_small _ Hs), SZ. destruct S as (L & _). split; [exact L|lia].
  - pose proof (heap_heapy _ _ _ _ _ HR) as Hh. pose proof (heap_bound _ _ _ _ _ HR) as Hb. eexists. split; [eapply capacity_heap; exact HR|]. rewrite (data_heap _ Hh), SZ.
    destruct HR as (Bk & L & Ln & _). split; [destruct (bk_kind k); [lia|destruct (1 <? r); lia]|]. exists k. split; [exact Bk|]. split; [exact L|].
    destruct (bk_kind k); [lia|destruct (1 <? r); lia].
Qed.

(** ** reserve *)
Lemma world_reserve s ss i c l n s' : W N s ss -> sget (s_objs s) i = Some c -> sget ss i = Some l -> 0 <= n < 2 * limit ->
  on_obj s i (reserve dbg arena mal n) = SRet s' ->
  exists c' cap, sget (s_objs s') i = Some c' /\ capacity (s_heap s') c' = Ret cap (s_heap s') c' /\ n <= cap /\ is_shared (s_heap s') c' = Ret false (s_heap s') c'.
Proof.
  intros [I A B] Ec El Hn E. destruct (focus _ _ i c l A Ec El) as (R & P1 & _).
  assert (IR : INV (s_heap s) ((c, map Some l) :: R)) by (eapply Inv_perm; [exact P1|exact I]).
  pose proof (reserve_spec dbg arena mal ar N (s_heap s) c (map Some l) R n IR Hn) as SP. unfold on_obj in E. rewrite Ec in E. unfold spec in SP.
  destruct (reserve dbg arena mal n (s_heap s) c) as [a h' c'|e h' c'|h'| |h']; try discriminate. injection E as <-. destruct SP as (RD & GR).
  destruct (ready_capacity _ _ _ _ _ _ _ _ _ _ RD) as (cap & C & HC). exists c', cap. cbn [s_heap s_objs].
  split; [eapply sget_sset_eq; exact Ec|]. split; [exact C|]. split; [exact HC|].
  unfold is_shared, bnd, this. destruct RD as [(_ & k & cap' & HR & SO & _)|(_ & Hs & _)].
  - rewrite (heap_cat _ _ _ _ _ HR). destruct HR as (Bk & L & _). destruct SO as [K|K]; rewrite K; [reflexivity|]. cbn. unfold refs. rewrite Bk, L, K. reflexivity.
  - rewrite (small_cat _ Hs). reflexivity.
Qed.

(** ** Appending in place *)
Lemma run_uop_quiet h c l R o p n x l' i : INV h ((c, map Some l) :: R) -> uop_ok ar i l o -> u_apply o x l = Val l' -> appends o ->
  (arg_of o <> None -> n = slen x) -> fits h c (slen l') -> quiet (run_uop dbg arena mal o p n) h c any.
Proof.
  intros I OK V AP HA F. destruct o; try contradiction; cbn [u_apply run_uop arg_of uop_ok] in *; injection V as <-; rewrite ?slen_app in F.
  - rewrite HA by discriminate. eapply append_quiet; [exact I|apply slen_nonneg|]. rewrite slen_map. exact F.
  - destruct OK as ((H0 & _) & _). rewrite slen_srep in F by exact H0. eapply append_n_quiet; [exact I|exact H0|]. rewrite slen_map. exact F.
  - eapply push_back_quiet; [exact I|]. rewrite slen_map. exact F.
Qed.
Lemma on_obj_quiet s i c m : sget (s_objs s) i = Some c -> quiet m (s_heap s) c any ->
  match on_obj s i m with
  | SRet s' => same (s_heap s) (s_heap s') /\ exists c', sget (s_objs s') i = Some c' /\ stay c c'
  | SThr _ s' => same (s_heap s) (s_heap s')
  | STerm h' | SUB h' => same (s_heap s) h'
  | SAFail => True
  end.
Proof.
  intros Ec Q. unfold on_obj. rewrite Ec. unfold quiet in Q. destruct (m (s_heap s) c); cbn [s_heap s_objs]; try exact Q; try apply Q.
  destruct Q as (S & T & _). split; [exact S|]. eexists. split; [eapply sget_sset_eq; exact Ec|exact T].
Qed.
End S.
End Wide.
