(** What the invariant means for executions, as stated in PropString.v. *)
Require Import ZArith List Bool Lia Permutation.
From Verif Require Import Base BaseProofs StrSpec StrModel StrStatements StrProofs StrProofs2 StrProofs3 StrProofs4 StrProofs5 StrProofs6 StrProofs7 StrQuiet StrProofs8 StrProofs9 StrProofs10 StrProofs11.
Import ListNotations.
Open Scope Z_scope.


Section Wide.
Context {ChT : CharType}.

Section S.
Variables (dbg arena : bool) (mal : nat -> Z -> bool) (ar : Z).
Hypotheses (MS : mal_sane mal) (AO : ar_ok dbg arena ar).
Notation World := (StrProofs8.World dbg arena mal ar).
Notation W M s ss := (World M (s_heap s) (s_objs s) ss).
Notation reach := (StrStatements.reach dbg arena mal ar).
Notation step := (StrStatements.step dbg arena mal ar).

Lemma world_of n s ss : reach n s -> short n -> sees s ss -> W (Z.of_nat n + 1) s ss.
Proof.
  intros H SH SE. destruct (reach_world dbg arena mal ar n s MS AO H SH) as (_ & ss0 & Ws).
  rewrite <- (sees_fun s ss0 ss (World_sees _ _ _ _ _ _ _ Ws) SE). exact Ws.
Qed.
Lemma reach_sees n s : reach n s -> short n -> exists ss, sees s ss.
Proof. intros H SH. destruct (reach_world dbg arena mal ar n s MS AO H SH) as (_ & ss & Ws). exists ss. eapply World_sees. exact Ws. Qed.

(** ** Memory *)
Lemma reach_refs n s b k : ar = 0 -> reach n s -> short n -> blk (s_heap s) b = Some k -> bk_live k = true ->
  match bk_kind k with Plain => holders s b = 1 | Counted r => holders s b = r end.
Proof.
  intros EA H SH Bk L. destruct (reach_world dbg arena mal ar n s MS AO H SH) as (_ & ss & Ws). destruct (world_blocks _ _ _ _ _ _ _ _ _ Ws Bk L) as (_ & Y).
  rewrite EA in Y; cbn [Z.eqb] in Y; destruct (bk_kind k); [exact Y|apply Y].
Qed.
Lemma reach_live n s i c : reach n s -> short n -> sget (s_objs s) i = Some c -> category c <> is_small ->
  exists k, blk (s_heap s) (c_data c) = Some k /\ bk_live k = true /\ bk_res k = c_al c.
Proof.
  intros H SH Ec C. destruct (reach_world dbg arena mal ar n s MS AO H SH) as (_ & ss & Ws). eapply world_live; eassumption.
Qed.
Lemma reach_no_leak n s b k : ar = 0 -> reach n s -> short n -> (forall i, sget (s_objs s) i = None) -> blk (s_heap s) b = Some k -> bk_live k = false.
Proof.
  intros EA H SH E Bk. destruct (reach_world dbg arena mal ar n s MS AO H SH) as (_ & ss & Ws). eapply world_empty; eassumption.
Qed.
Lemma reach_capacity n s i c : reach n s -> short n -> sget (s_objs s) i = Some c ->
  exists cap, capacity (s_heap s) c = Ret cap (s_heap s) c /\ size c <= cap /\ room (s_heap s) c (cap + 1) /\ after_last (s_heap s) c = Some 0.
Proof.
  intros H SH Ec. destruct (reach_world dbg arena mal ar n s MS AO H SH) as (_ & ss & Ws).
  destruct (world_capacity _ _ _ _ _ _ _ _ _ Ws Ec) as (cap & C & L & R). exists cap. split; [exact C|]. split; [exact L|]. split; [exact R|].
  pose proof (World_sees _ _ _ _ _ _ _ Ws) as (_ & SE). specialize (SE i). rewrite Ec in SE. destruct (sget ss i); [apply SE|contradiction].
Qed.

(** ** Capacity *)
Lemma reach_reserve n s ss i l m s' : reach n s -> short n -> sees s ss -> sget ss i = Some l -> 0 <= m < 2 * limit ->
  step s (SOn i (UReserve m)) = SRet s' ->
  sees s' ss /\ exists c cap, sget (s_objs s') i = Some c /\ capacity (s_heap s') c = Ret cap (s_heap s') c /\ m <= cap /\ is_shared (s_heap s') c = Ret false (s_heap s') c.
Proof.
  intros H SH SE El Hm ST. split.
  - assert (AL : allowed ar ss (SOn i (UReserve m))).
    { split; [cbn [s_apply arg_of arg_val u_apply]; rewrite El; discriminate|]. cbn [sop_ok uop_ok]. intros _ _. exact Hm. }
    pose proof (reach_step dbg arena mal ar n s ss _ MS AO H SH SE AL) as Y. rewrite ST in Y. cbn [step_ok s_apply arg_of arg_val u_apply] in Y. rewrite El in Y. cbn [with_] in Y.
    destruct Y as (ss' & [E|[]] & SE'). injection E as <-. rewrite (sset_same _ _ _ El) in SE'. exact SE'.
  - pose proof (world_of n s ss H SH SE) as Ws. pose proof (World_clean _ _ _ _ _ _ _ _ Ws) as Wc. destruct (alike_obj _ _ _ _ (w_alike _ _ _ _ _ _ _ _ Ws) El) as (c & Ec).
    unfold StrStatements.step in ST. cbn [sstep arg_of resolve run_uop] in ST.
    exact (world_reserve dbg arena mal ar (Z.of_nat n + 1) {| s_heap := clean (s_heap s); s_objs := s_objs s |} ss i c l m s' Wc Ec El Hm ST).
Qed.

Lemma clean_shared h c : is_shared h c = Ret false h c -> is_shared (clean h) c = Ret false (clean h) c.
Proof.
  unfold is_shared, bnd, this. destruct (category c =? is_large); [|reflexivity]. unfold refs. change (blk (clean h) (c_data c)) with (blk h (c_data c)).
  destruct (blk h (c_data c)) as [k|]; [|discriminate]. destruct (bk_live k); [|discriminate]. destruct (bk_kind k); [discriminate|]. cbn. intros E. injection E as E. rewrite E. reflexivity.
Qed.
Lemma clean_capacity h c cap : capacity h c = Ret cap h c -> capacity (clean h) c = Ret cap (clean h) c.
Proof.
  unfold capacity, bnd, this. destruct (category c =? is_small); [intros E; injection E as <-; reflexivity|].
  destruct (category c =? is_large); [|destruct (category c =? is_medium); [intros E; injection E as <-; reflexivity|discriminate]].
  unfold refs. change (blk (clean h) (c_data c)) with (blk h (c_data c)).
  destruct (blk h (c_data c)) as [k|]; [|discriminate]. destruct (bk_live k); [|discriminate]. destruct (bk_kind k); [discriminate|]. cbn. intros E. injection E as E. rewrite E. reflexivity.
Qed.
Lemma has_room_fits h c m : has_room dbg arena h c m -> fits dbg arena (clean h) c m.
Proof.
  intros (S & (cap & C & L) & O). split; [apply clean_shared; exact S|]. split; [exists cap; split; [apply clean_capacity; exact C|exact L]|].
  destruct O as [O|O]; [left; exact O|right]. unfold heapy. destruct (Z.eqb_spec (category c) is_small); [contradiction|reflexivity].
Qed.
Lemma reach_append n s ss i c l o x l' : reach n s -> short n -> sees s ss -> sget (s_objs s) i = Some c -> sget ss i = Some l ->
  allowed ar ss (SOn i o) -> appends o -> arg_val ss (arg_of o) = Some x -> u_apply o x l = Val l' -> has_room dbg arena (s_heap s) c (slen l') ->
  exists s' c', step s (SOn i o) = SRet s' /\ sees s' (sset i (Some l') ss) /\ no_request (s_heap s) (s_heap s') /\
    sget (s_objs s') i = Some c' /\ (category c <> is_small -> c_data c' = c_data c).
Proof.
  intros H SH SE Ec El AL AP Ex V RM. pose proof (world_of n s ss H SH SE) as Ws. destruct (reach_world dbg arena mal ar n s MS AO H SH) as (RF & _).
  pose proof (World_clean _ _ _ _ _ _ _ _ Ws) as Wc. pose proof (reach_step dbg arena mal ar n s ss _ MS AO H SH SE AL) as Y.
  destruct AL as (_ & OK). cbn [sop_ok] in OK. specialize (OK l El).
  pose proof Wc as [I A B]. destruct (focus _ _ i c l A Ec El) as (R & P1 & _).
  set (sc := {| s_heap := clean (s_heap s); s_objs := s_objs s |}) in *.
  assert (RV : exists p m, resolve sc i (arg_of o) = Some (p, m) /\ (arg_of o <> None -> m = slen x)).
  { destruct (arg_of o) as [a|] eqn:Ea; [|exists (PExt []), 0; split; [reflexivity|congruence]].
    assert (OA : arg_ok a) by (destruct o; try contradiction; try discriminate; injection Ea as <-; exact OK).
    destruct (resolve_ok dbg arena mal ar _ sc ss i c l a x Wc Ec El Ex OA) as (p & m & E1 & _ & _ & Z). exists p, m. split; [exact E1|]. intros _.
    destruct a as [y|j off k]; cbn [arg_val resolve] in Ex, E1.
    - injection Ex as <-. injection E1 as <- <-. reflexivity.
    - destruct (sget ss j) as [lj|] eqn:Elj; [|discriminate]. destruct (Z.leb_spec 0 off), (Z.leb_spec 0 k), (Z.leb_spec (off + k) (slen lj)); try discriminate.
      cbn [andb] in Ex. injection Ex as <-. destruct (sget (s_objs sc) j); [|discriminate]. injection E1 as _ <-. symmetry. apply slen_piece; assumption. }
  destruct RV as (p & m & E1 & Hm).
  assert (IR : StrProofs2.Inv dbg arena mal ar (Z.of_nat n + 1) (s_heap sc) ((c, map Some l) :: R)) by (eapply Inv_perm; [exact P1|exact I]).
  pose proof (run_uop_quiet dbg arena mal ar _ (s_heap sc) c l R o p m x l' i IR OK V AP Hm (has_room_fits _ _ _ RM)) as Q.
  pose proof (on_obj_quiet sc i c _ Ec Q) as Z.
  assert (ST : step s (SOn i o) = on_obj sc i (run_uop dbg arena mal o p m)).
  { unfold StrStatements.step. fold sc. cbn [sstep]. rewrite E1. reflexivity. }
  rewrite ST in Y. rewrite ST. destruct (on_obj sc i (run_uop dbg arena mal o p m)) as [s'|e s'|h'| |h']; cbn [step_ok] in Y.
  - destruct Z as ((Z1 & Z2 & Z3 & _) & c' & Ec' & T). exists s', c'. split; [reflexivity|]. split; [|split; [exact Z1|split; [exact Ec'|]]].
    + destruct Y as (ss' & E & SE'). cbn [s_apply] in E. rewrite El in E. cbn [with_] in E. rewrite Ex in E. cbn [with_] in E. rewrite V in E. destruct E as [E|[]]. injection E as <-. exact SE'.
    + intros NS. apply T. unfold heapy. destruct (Z.eqb_spec (category c) is_small); [contradiction|reflexivity].
  - destruct Z as (Z1 & Z2 & Z3 & _). destruct e; try contradiction.
    + destruct Y as (F & _). rewrite F in Z2. discriminate Z2.
    + destruct Y as ((ss' & E & _) & _). cbn [s_apply] in E. rewrite El in E. cbn [with_] in E. rewrite Ex in E. cbn [with_] in E. rewrite V in E. destruct E as [E|[]]. discriminate E.
  - destruct Z as (_ & Z2 & _). rewrite Y in Z2. discriminate Z2.
  - contradiction.
  - destruct Z as (_ & _ & Z3 & _). rewrite Y in Z3. cbn [sc s_heap clean h_rfail] in Z3. rewrite RF in Z3. discriminate Z3.
Qed.

(** ** data() *)
Lemma reach_poke n s ss i c l k v : reach n s -> short n -> sees s ss -> sget (s_objs s) i = Some c -> sget ss i = Some l ->
  is_shared (s_heap s) c = Ret false (s_heap s) c -> 0 <= k < slen l -> is_char v ->
  exists s', poke_obj s i k v = SRet s' /\ sees s' (sset i (Some (splice k 1 [v] l)) ss).
Proof.
  intros H SH SE Ec El NS Hk Bv. pose proof (world_of n s ss H SH SE) as Ws. pose proof Ws as [I A B]. destruct (focus _ _ i c l A Ec El) as (R & P1 & P2 & _).
  assert (IR : StrProofs2.Inv dbg arena mal ar (Z.of_nat n + 1) (s_heap s) ((c, map Some l) :: R)) by (eapply Inv_perm; [exact P1|exact I]).
  assert (U : unique (s_heap s) c).
  { destruct (Inv_head _ _ _ _ _ _ _ _ _ IR) as (RP & _). destruct RP as [S|(b & cap & HR)]; [left; eapply small_heapy; exact S|right].
    pose proof (heap_cat _ _ _ _ _ HR) as CT. exists b. split; [apply HR|]. unfold is_shared, bnd, this in NS. rewrite CT in NS. destruct (bk_kind b) as [|r] eqn:K; [left; reflexivity|right].
    cbn [is_large Z.eqb Pos.eqb] in NS. rewrite (refs_ok _ _ _ _ _ _ c HR K) in NS. injection NS as NS. apply Z.ltb_ge in NS.
    pose proof (refs_bound _ _ _ _ _ _ _ _ _ _ _ _ IR HR K). f_equal. lia. }
  destruct (write_own _ _ _ _ _ (s_heap s) c (map Some l) R k [Some v] IR (or_introl U)) as (h2 & o2 & E & I2 & _); try lia.
  { constructor; [exists v; auto|constructor]. }
  { change (slen [Some v]) with 1. rewrite slen_map. lia. }
  change (slen [Some v]) with 1 in I2.
  exists {| s_heap := h2; s_objs := sset i (Some o2) (s_objs s) |}. unfold poke_obj, on_obj. rewrite Ec. unfold poke, bnd, this. rewrite E. split; [reflexivity|].
  eapply World_sees. constructor; cbn [s_heap s_objs].
  - eapply Inv_perm; [symmetry; apply P2|]. rewrite map_splice. exact I2.
  - apply alike_sset; [exact Logic.I|exact A].
  - apply bytes_sset; [|exact B]. apply bytes_splice; [exact (B _ _ El)|constructor; [exact Bv|constructor]].
Qed.
End S.

(** ** Arena strings never get into undefined behaviour *)
Lemma arena_step dbg mal ar n s ss o : mal_sane mal -> ar_ok dbg true ar -> reach dbg true mal ar n s -> short n -> sees s ss -> allowed ar ss o ->
  match step dbg true mal ar s o with
  | SRet s' | SThr _ s' => h_rfail (s_heap s') = false
  | STerm _ => True
  | SAFail | SUB _ => False
  end.
Proof.
  intros MS AO H SH SE AL. pose proof (reach_step dbg true mal ar n s ss o MS AO H SH SE AL) as Y.
  destruct (reach_world dbg true mal ar n s MS AO H SH) as (RF & _).
  pose proof (scalm_step dbg mal ar {| s_heap := clean (s_heap s); s_objs := s_objs s |} o) as Z. fold (step dbg true mal ar s o) in Z.
  destruct (step dbg true mal ar s o) as [s'|e s'|h'| |h']; cbn [step_ok scalm s_heap clean h_rfail] in *; try exact Logic.I; try contradiction; congruence.
Qed.
End Wide.
