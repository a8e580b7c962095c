(** stdb_vector: every object constructed is destroyed, forgotten, or still in a buffer. *)
Require Import ZArith List Bool Lia.
From Verif Require Import Base BaseProofs VecSpec VecModel VecStatements VecProofs VecProofs2 VecProofs3 VecProofs4.
Import ListNotations.
Open Scope Z_scope.

Definition bal (a : acct) : Z := n_con a - n_des a - n_lost a - n_gone a.
Definition occupied (c : cell) : bool := match c with Raw => false | _ => true end.
Definition objs (b : buf) : Z := count_cells occupied (b_at b) (Z.to_nat (b_len b)).
Definition oobjs (ob : option buf) : Z := match ob with Some b => objs b | None => 0 end.
Definition vobjs (v : vec) : Z := match v with Vec b _ _ => oobjs b | Broken => 0 end.
Definition ovobjs (ov : option vec) : Z := match ov with Some v => vobjs v | None => 0 end.
Definition sobjs (l : list (option vec)) : Z := fold_right (fun x t => ovobjs x + t) 0 l.

Lemma count_ext p f g n : (forall j, 0 <= j < Z.of_nat n -> f j = g j) -> count_cells p f n = count_cells p g n.
Proof.
  induction n as [|n IH]; intros H; [reflexivity|]. cbn [count_cells]. rewrite H by lia. rewrite IH; [reflexivity|].
  intros; apply H; lia.
Qed.
Lemma count_set p f i c n : 0 <= i < Z.of_nat n ->
  count_cells p (fun j => if j =? i then c else f j) n = count_cells p f n - b2 (p (f i)) + b2 (p c).
Proof.
  induction n as [|n IH]; intros H; [lia|]. cbn [count_cells]. destruct (Z.eqb_spec (Z.of_nat n) i) as [E|E].
  - subst i. rewrite (count_ext p _ f); [lia|]. intros j Hj. destruct (Z.eqb_spec j (Z.of_nat n)); [lia|reflexivity].
  - rewrite IH by lia. lia.
Qed.
Lemma count_split f n : count_cells occupied f n = count_cells is_live f n + count_cells is_moved f n.
Proof. induction n as [|n IH]; [reflexivity|]. cbn [count_cells]. rewrite IH. destruct (f (Z.of_nat n)); cbn [occupied is_live is_moved b2]; lia. Qed.
Lemma objs_set b i c : 0 <= i < b_len b -> objs (set b i c) = objs b - b2 (occupied (b_at b i)) + b2 (occupied c).
Proof. intros H. unfold objs. cbn [set b_at b_len]. apply count_set. lia. Qed.

Section K.
Variable k : kind.
Variable sz : Z.
Variable dbg : bool.
Hypothesis CK : counted k = true.

Lemma not_reloc : is_relocatable k = false. Proof. destruct k; cbn in *; congruence. Qed.

Lemma get_inv b i c : get b i = Ok c -> 0 <= i < b_len b /\ c = b_at b i.
Proof.
  unfold get. destruct (Z.leb_spec 0 i), (Z.ltb_spec i (b_len b)); cbn; intros E; try discriminate.
  injection E as <-. split; [lia|reflexivity].
Qed.

(** One step of inverting a computation. *)
Ltac st := match goal with
  | H : bind ?m _ = Ok _ |- _ => let E := fresh "E" in destruct m as [?x| |] eqn:E; cbn [bind] in H; [|discriminate H|discriminate H]
  | H : Ok _ = Ok _ |- _ => injection H as ?; subst
  | H : Undef = Ok _ |- _ => discriminate H
  | H : AssertFail = Ok _ |- _ => discriminate H
  | H : (if ?c then _ else _) = Ok _ |- _ => let E := fresh "C" in destruct c eqn:E
  | p : _ * _ |- _ => destruct p
  | H : match ?x with _ => _ end = Ok _ |- _ => let E := fresh "X" in destruct x eqn:E
  end.

Lemma construct_bal b a i v b' a' : construct k b a i v = Ok (b', a') -> bal a' - objs b' = bal a - objs b.
Proof.
  unfold construct. rewrite CK. intros H. st. st. apply get_inv in E as [R ->].
  rewrite objs_set by exact R. unfold bal; cbn. destruct (b_at b i); cbn; lia.
Qed.
Lemma kill_bal b a i b' a' : kill k b a i = Ok (b', a') -> bal a' - objs b' = bal a - objs b.
Proof.
  unfold kill. rewrite CK. intros H.
  assert (H' : (do c <- get b i;
      match c with
      | Raw => Undef
      | _ => Ok (set b i Raw, {| n_con := n_con a; n_des := n_des a + 1; n_lost := n_lost a; n_gone := n_gone a |})
      end) = Ok (b', a')) by (destruct k; try discriminate CK; exact H).
  clear H. st. apply get_inv in E as [R ->]. destruct (b_at b i) eqn:EC; try discriminate; st;
    rewrite objs_set by exact R; rewrite EC; unfold bal; cbn; lia.
Qed.
Lemma store_objs b i v b' : store k b i v = Ok b' -> objs b' = objs b.
Proof.
  unfold store. intros H. destruct (get b i) as [c| |] eqn:E; try discriminate. apply get_inv in E as [R ->]. cbn [bind] in H.
  assert (exists x, b_at b i = Live x) as [x E] by (destruct k, (b_at b i); try discriminate; eauto).
  rewrite E in H. assert (b' = set b i (Live v)) by (destruct k; congruence). subst b'.
  rewrite objs_set by exact R. rewrite E. cbn. lia.
Qed.
Lemma destroy_range_bal : forall n b a i b' a', destroy_range k b a i n = Ok (b', a') -> bal a' - objs b' = bal a - objs b.
Proof.
  induction n as [|n IH]; intros b a i b' a' H; cbn in H.
  - st. lia.
  - repeat st. apply kill_bal in E. apply IH in H. lia.
Qed.
Lemma free_bal ob a : bal (free_buf k ob a) = bal a - oobjs ob.
Proof.
  unfold free_buf. destruct ob as [b|]; [|cbn; lia]. rewrite CK. cbn [oobjs]. unfold objs. rewrite count_split.
  unfold bal; cbn [n_con n_des n_lost n_gone]. lia.
Qed.
Local Opaque free_buf.
Lemma fill_bal : forall n b a i r d b' a', fill_loop k b a i n r d = Ok (b', a') -> bal a' - objs b' = bal a - objs b.
Proof.
  induction n as [|n IH]; intros b a i r d b' a' H; cbn in H.
  - st. lia.
  - repeat st. apply construct_bal in E0. apply IH in H. lia.
Qed.
Lemma write_bal : forall l b a i b' a', write_list k b a i l = Ok (b', a') -> bal a' - objs b' = bal a - objs b.
Proof.
  induction l as [|v l IH]; intros b a i b' a' H; cbn in H.
  - st. lia.
  - repeat st. apply construct_bal in E. apply IH in H. lia.
Qed.
Lemma cref_bal ob a f l r d ob' a' : construct_range_with_cref k dbg ob a f l r d = Ok (ob', a') -> bal a' - oobjs ob' = bal a - oobjs ob.
Proof.
  unfold construct_range_with_cref. intros H. repeat st; cbn [oobjs]; try lia.
  match goal with Q : fill_loop _ _ _ _ _ _ _ = _ |- _ => apply fill_bal in Q; lia end.
Qed.
Lemma iter_bal ob a i l ob' a' : copy_from_iterator k dbg ob a i l = Ok (ob', a') -> bal a' - oobjs ob' = bal a - oobjs ob.
Proof.
  unfold copy_from_iterator. intros H.
  destruct ob as [b|].
  - assert (H' : (do _ <- assert dbg true; do _ <- assert dbg (negb match l with [] => true | _ => false end);
       do (b1, a1) <- write_list k b a i l; Ok (Some b1, a1)) = Ok (ob', a')).
    { destruct k; cbn in CK; try discriminate CK; exact H. }
    clear H. repeat st. cbn [oobjs]. match goal with Q : write_list _ _ _ _ _ = _ |- _ => apply write_bal in Q; lia end.
  - destruct l; repeat st; cbn; lia.
Qed.
Lemma copy_loop_bal src : forall n b a i b' a', copy_loop k src b a i n = Ok (b', a') -> bal a' - objs b' = bal a - objs b.
Proof.
  induction n as [|n IH]; intros b a i b' a' H; cbn in H.
  - st. lia.
  - repeat st. apply construct_bal in E0. apply IH in H. lia.
Qed.
Lemma copy_range_bal src b a n b' a' : copy_range k dbg src b a n = Ok (b', a') -> bal a' - objs b' = bal a - objs b.
Proof.
  unfold copy_range. intros H. st.
  assert (H' : copy_loop k src b a 0 (Z.to_nat n) = Ok (b', a')) by (destruct k; cbn in CK; try discriminate CK; exact H).
  eapply copy_loop_bal; exact H'.
Qed.
Lemma copy_value_bal b a i v b' a' : copy_value k b a i v = Ok (b', a') -> bal a' - objs b' = bal a - objs b.
Proof. unfold copy_value. rewrite not_reloc. apply construct_bal. Qed.
Lemma read_inv b i v : read b i = Ok v -> 0 <= i < b_len b /\ b_at b i = Live v.
Proof. unfold read. intros H. st. apply get_inv in E as [R ->]. destruct (b_at b i); try discriminate. st. auto. Qed.
Lemma transfer_bal s d a i j s' d' a' : transfer k s d a i j = Ok (s', d', a') ->
  bal a' - objs s' - objs d' = bal a - objs s - objs d.
Proof.
  unfold transfer. intros H. st. st. st. apply construct_bal in E0. apply read_inv in E as [R1 R2].
  pose proof CK as CK'. destruct k eqn:EK in H, CK'; cbn in CK'; try discriminate CK'.
  - st. rewrite objs_set by exact R1. rewrite R2. cbn [occupied b2]. lia.
  - st. lia.
  - rewrite <- EK in H. st. st. apply kill_bal in E. st. lia.
Qed.
Lemma transfer_loop_bal : forall n s d a i s' d' a', transfer_loop k s d a i n = Ok (s', d', a') ->
  bal a' - objs s' - objs d' = bal a - objs s - objs d.
Proof.
  induction n as [|n IH]; intros s d a i s' d' a' H; cbn in H.
  - st. lia.
  - repeat st. apply transfer_bal in E. apply IH in H. lia.
Qed.
Lemma move_wo_bal s d a n s' d' a' : move_range_without_overlap k s d a n = Ok (s', d', a') ->
  bal a' - objs s' - objs d' = bal a - objs s - objs d.
Proof. unfold move_range_without_overlap. rewrite not_reloc. apply transfer_loop_bal. Qed.
Lemma shift_one_bal b a i j b' a' : shift_one k b a i j = Ok (b', a') -> bal a' - objs b' = bal a - objs b.
Proof.
  unfold shift_one. intros H. st. apply read_inv in E as [R1 R2].
  pose proof CK as CK'. destruct k eqn:EK in H, CK'; cbn in CK'; try discriminate CK'; rewrite <- EK in H.
  - apply construct_bal in H. rewrite objs_set in H by exact R1. rewrite R2 in H. cbn [occupied b2] in H. lia.
  - apply construct_bal in H. exact H.
  - st. st. apply construct_bal in E. apply kill_bal in H. lia.
Qed.
Lemma shift_up_bal : forall n b a d s b' a', shift_up k b a d s n = Ok (b', a') -> bal a' - objs b' = bal a - objs b.
Proof.
  induction n as [|n IH]; intros b a d s b' a' H; cbn in H.
  - st. lia.
  - repeat st. apply shift_one_bal in E. apply IH in H. lia.
Qed.
Lemma shift_down_bal : forall n b a d s b' a', shift_down k b a d s n = Ok (b', a') -> bal a' - objs b' = bal a - objs b.
Proof.
  induction n as [|n IH]; intros b a d s b' a' H; cbn [shift_down] in H.
  - st. lia.
  - repeat st. apply shift_one_bal in E. apply IH in H. lia.
Qed.
Lemma move_forward_bal b a d s e b' a' : move_forward k dbg b a d s e = Ok (b', a') -> bal a' - objs b' = bal a - objs b.
Proof.
  unfold move_forward, move_range_forward. rewrite not_reloc. intros H. repeat st. eapply shift_up_bal; eassumption.
Qed.
Lemma move_backward_bal b a d s e b' a' : move_backward k dbg b a d s e = Ok (b', a') -> bal a' - objs b' = bal a - objs b.
Proof.
  unfold move_backward. rewrite not_reloc. intros H. repeat st. eapply shift_down_bal; eassumption.
Qed.
Lemma open_gap_bal b a p n s b' a' : open_gap k dbg b a p n s = Ok (b', a') -> bal a' - objs b' = bal a - objs b.
Proof. unfold open_gap. intros H. st; [eapply move_forward_bal|eapply move_backward_bal]; eassumption. Qed.
Lemma open_gap1_bal b a p s b' a' : open_gap1 k dbg b a p s = Ok (b', a') -> bal a' - objs b' = bal a - objs b.
Proof. unfold open_gap1. intros H. st; [eapply move_backward_bal|eapply move_forward_bal]; eassumption. Qed.
Lemma client_bal ob a i l ob' a' : client_write k ob a i l = Ok (ob', a') -> bal a' - oobjs ob' = bal a - oobjs ob.
Proof.
  unfold client_write. intros H. destruct l; [st; lia|]. st. destruct ob; [|discriminate]. cbn in E. st.
  repeat st. apply write_bal in E0. cbn [oobjs]. lia.
Qed.
Lemma destroy_bal ob n a a' : core_destroy k ob n a = Ok a' -> bal a' = bal a - oobjs ob.
Proof.
  unfold core_destroy. intros H. destruct ob as [b|].
  - repeat st. apply destroy_range_bal in E. rewrite free_bal. cbn [oobjs]. lia.
  - assert (a' = a) by (destruct k; cbn in CK; try discriminate CK; destruct (0 <? n); congruence). subst. cbn; lia.
Qed.
Lemma clear_bal ob n c a ob' a' : core_clear k dbg ob n c a = Ok (ob', a') -> bal a' - oobjs ob' = bal a - oobjs ob.
Proof.
  unfold core_clear. intros H. st. destruct ob as [b|].
  - repeat st. apply destroy_range_bal in E0. cbn [oobjs]. lia.
  - assert (a' = a /\ ob' = None) by (destruct k; cbn in CK; try discriminate CK; destruct (0 <? n); split; congruence).
    destruct H0 as [-> ->]. lia.
Qed.
Lemma erase_bal test : forall n b a s d e b' a' r, erase_loop k test b a s d e n = Ok (b', a', r) -> bal a' - objs b' = bal a - objs b.
Proof.
  induction n as [|n IH]; intros b a s d e b' a' r H; cbn [erase_loop] in H.
  - st. lia.
  - rewrite not_reloc in H. st. st. st.
    + repeat st. apply kill_bal in E1. apply IH in H. lia.
    + repeat st; apply IH in H; try lia. match goal with Q : shift_one _ _ _ _ _ = _ |- _ => apply shift_one_bal in Q; lia end.
Qed.

Section M.
Variable mal : Z -> bool.

Lemma malloc_objs n b : malloc sz mal n = Some b -> objs b = 0.
Proof.
  unfold malloc. destruct (mal (mul64 n sz)); [|discriminate]. intros E; injection E as <-.
  unfold objs. apply count_none. reflexivity.
Qed.
Lemma malloc_oobjs n : oobjs (malloc sz mal n) = 0.
Proof. destruct (malloc sz mal n) eqn:E; [apply malloc_objs in E; exact E|reflexivity]. Qed.

Lemma rwm_bal p a o n ob f a' : realloc_with_move k sz dbg mal p a o n = Ok (Some (ob, f, a')) -> bal a' - oobjs ob = bal a - oobjs p.
Proof.
  unfold realloc_with_move. intros H. destruct p as [b|].
  - st. destruct (malloc sz mal n) as [nb|] eqn:EM; [|discriminate]. repeat st. apply malloc_objs in EM.
    apply move_wo_bal in E0. rewrite free_bal. cbn [oobjs]. lia.
  - st. st. rewrite malloc_oobjs. cbn. lia.
Qed.
Lemma rwod_bal b s c a n v a' ok : realloc_with_old_data k sz dbg mal b s c a n = Ok (v, a', ok) -> bal a' - vobjs v = bal a - oobjs b.
Proof.
  unfold realloc_with_old_data. intros H. st. st. destruct x0 as [[[nb f] a1]|].
  - st. apply rwm_bal in E0. cbn [vobjs]. exact E0.
  - st. reflexivity.
Qed.
Lemma reb_bal b s c a n r v a' o : realloc_and_emplace_back k sz dbg mal b s c a n r = Ok (v, a', o) -> bal a' - vobjs v = bal a - oobjs b.
Proof.
  unfold realloc_and_emplace_back, allocate. intros H. destruct (malloc sz mal n) as [nb|] eqn:EM.
  - apply malloc_objs in EM. repeat st; cbn [vobjs oobjs];
      match goal with Q : construct _ _ _ _ _ = _ |- _ => apply construct_bal in Q end;
      try match goal with Q : move_range_without_overlap _ _ _ _ _ = _ |- _ => apply move_wo_bal in Q end;
      rewrite ?free_bal; cbn [oobjs]; lia.
  - repeat st. rewrite free_bal. unfold after_failed_allocate. destruct b; cbn; lia.
Qed.
Lemma rdod_bal b s a n ob a' : realloc_drop_old_data k sz dbg mal b s a n = Ok (ob, a') -> bal a' = bal a - oobjs b /\ oobjs ob = 0.
Proof.
  unfold realloc_drop_old_data, allocate. intros H. repeat st. apply destroy_bal in E. split; [exact E|].
  apply malloc_oobjs.
Qed.
Lemma grow_bal sf b s c a o n b' s' c' a' t m : grow_for k sz dbg mal sf b s c a o n = Ok (b', s', c', a', t, m) ->
  bal a' - oobjs b' = bal a - oobjs b.
Proof.
  unfold grow_for. intros H.
  repeat st; try lia; match goal with Q : realloc_with_old_data _ _ _ _ _ _ _ _ _ = _ |- _ => apply rwod_bal in Q; exact Q end.
Qed.

Ltac use := repeat match goal with
  | H : construct k _ _ _ _ = Ok _ |- _ => apply construct_bal in H
  | H : copy_value k _ _ _ _ = Ok _ |- _ => apply copy_value_bal in H
  | H : kill k _ _ _ = Ok _ |- _ => apply kill_bal in H
  | H : store k _ _ _ = Ok _ |- _ => apply store_objs in H
  | H : destroy_range k _ _ _ _ = Ok _ |- _ => apply destroy_range_bal in H
  | H : construct_range_with_cref k _ _ _ _ _ _ _ = Ok _ |- _ => apply cref_bal in H
  | H : copy_from_iterator k _ _ _ _ _ = Ok _ |- _ => apply iter_bal in H
  | H : copy_range k _ _ _ _ _ = Ok _ |- _ => apply copy_range_bal in H
  | H : move_forward k _ _ _ _ _ _ = Ok _ |- _ => apply move_forward_bal in H
  | H : open_gap k _ _ _ _ _ _ = Ok _ |- _ => apply open_gap_bal in H
  | H : open_gap1 k _ _ _ _ _ = Ok _ |- _ => apply open_gap1_bal in H
  | H : client_write k _ _ _ _ = Ok _ |- _ => apply client_bal in H
  | H : core_destroy k _ _ _ = Ok _ |- _ => apply destroy_bal in H
  | H : core_clear k _ _ _ _ _ = Ok _ |- _ => apply clear_bal in H
  | H : erase_loop k _ _ _ _ _ _ _ = Ok _ |- _ => apply erase_bal in H
  | H : realloc_with_old_data k _ _ _ _ _ _ _ _ = Ok _ |- _ => apply rwod_bal in H
  | H : realloc_and_emplace_back k _ _ _ _ _ _ _ _ _ = Ok _ |- _ => apply reb_bal in H
  | H : realloc_drop_old_data k _ _ _ _ _ _ _ = Ok _ |- _ => apply rdod_bal in H as [? ?]
  | H : grow_for k _ _ _ _ _ _ _ _ _ _ = Ok _ |- _ => apply grow_bal in H
  | H : need ?b = Ok ?x |- _ => destruct b; [cbn in H; injection H as ?; subst|discriminate H]
  end.

Lemma run_uop_bal v a o v' a' r : run_uop k sz dbg mal v a o = Ok (v', a', r) -> bal a' - vobjs v' = bal a - vobjs v.
Proof.
  intros H. destruct v as [b size cap|]; [|discriminate].
  destruct o; cbn [run_uop lift] in H; unfold lift, full in H; repeat st; use; cbn [vobjs oobjs] in *;
    try lia; try (unfold after_failed_allocate; destruct b; cbn in *; lia).
Qed.

Lemma sobjs_app l m : sobjs (l ++ m) = sobjs l + sobjs m.
Proof. induction l as [|x l IH]; cbn; [reflexivity|]. unfold sobjs in *. lia. Qed.
Lemma sobjs_upd i x y : forall l, nth_error l i = Some y -> sobjs (vupd i x l) = sobjs l - ovobjs y + ovobjs x.
Proof.
  induction i as [|i IH]; intros [|z l] E; cbn in *; try discriminate.
  - injection E as ->. lia.
  - specialize (IH l E). unfold sobjs in *. lia.
Qed.
Lemma vget_inv s i v : vget s i = Ok v -> nth_error (vs s) i = Some (Some v).
Proof. unfold vget. destruct (nth_error (vs s) i) as [[w|]|]; congruence. Qed.
Lemma vupd_nth_other i j x : i <> j -> forall l, nth_error (vupd i x l) j = nth_error l j.
Proof.
  revert j. induction i as [|i IH]; intros j N [|y l]; cbn; try reflexivity; destruct j as [|j]; cbn; try reflexivity; try congruence.
  apply IH; congruence.
Qed.

Lemma vupd_same i x : forall l, nth_error l i = Some x -> vupd i x l = l.
Proof. induction i as [|i IH]; intros [|y l] E; cbn in *; try discriminate; [congruence|]. rewrite IH; auto. Qed.
Lemma vupd_idem i x y : forall l, vupd i x (vupd i y l) = vupd i x l.
Proof. induction i as [|i IH]; intros [|z l]; cbn; try reflexivity. rewrite IH; reflexivity. Qed.
Lemma sobjs_upd2 i j x y v w l : i <> j -> nth_error l i = Some v -> nth_error l j = Some w ->
  sobjs (vupd j y (vupd i x l)) = sobjs l - ovobjs v - ovobjs w + ovobjs x + ovobjs y.
Proof.
  intros N H1 H2. rewrite (sobjs_upd j y w) by (rewrite vupd_nth_other by exact N; exact H2).
  rewrite (sobjs_upd i x v) by exact H1. lia.
Qed.

Ltac gv := repeat match goal with H : vget _ _ = Ok _ |- _ => apply vget_inv in H end.
Ltac upd := repeat match goal with H : nth_error (vs ?s) ?i = Some (Some ?v) |- context [sobjs (vupd ?i ?x (vs ?s))] =>
    rewrite (sobjs_upd i x (Some v) (vs s) H) end.

Theorem vstep_bal s o s' r : vstep k sz dbg mal s o = Ok (s', r) ->
  bal (vacct s') - sobjs (vs s') = bal (vacct s) - sobjs (vs s).
Proof.
  intros H. destruct o as [|n|n x|l|j|j|i j|i j|i j|i|i u]; cbn [vstep] in H; unfold vpush, allocate in H.
  - st. cbn [vs vacct]. rewrite sobjs_app. cbn. lia.
  - repeat st; use; cbn [vs vacct]; rewrite sobjs_app; cbn [sobjs fold_right ovobjs vobjs oobjs] in *; try lia.
    apply malloc_objs in X. lia.
  - repeat st; use; cbn [vs vacct]; rewrite sobjs_app; cbn [sobjs fold_right ovobjs vobjs oobjs] in *; try lia.
    apply malloc_objs in X. lia.
  - repeat st; use; cbn [vs vacct]; rewrite sobjs_app; cbn [sobjs fold_right ovobjs vobjs oobjs] in *; try lia.
    apply malloc_objs in X. lia.
  - repeat st; use; cbn [vs vacct]; rewrite sobjs_app; cbn [sobjs fold_right ovobjs vobjs oobjs] in *; try lia.
    match goal with X : malloc _ _ _ = Some _ |- _ => apply malloc_objs in X end. lia.
  - repeat st. gv. cbn [vs vacct]. rewrite sobjs_app. upd. cbn. lia.
  - repeat st; try reflexivity; gv; use; cbn [vs vacct]; upd; cbn [ovobjs vobjs oobjs] in *; try lia.
    + match goal with X : malloc _ _ _ = Some _ |- _ => apply malloc_objs in X end. lia.
    + unfold after_failed_allocate. destruct b; cbn in *; lia.
  - repeat st; try reflexivity; gv; use; cbn [vs vacct].
    apply Nat.eqb_neq in C. erewrite sobjs_upd2 by eassumption. cbn. lia.
  - st. st. st. gv. cbn [vs vacct]. destruct (Nat.eq_dec i j) as [->|N].
    + rewrite E in E0. injection E0 as <-. rewrite vupd_idem. upd. lia.
    + erewrite sobjs_upd2 by eassumption. cbn. lia.
  - st. destruct x as [b size cap|].
    + st. st. gv. use. cbn [vs vacct]. upd. cbn. lia.
    + exfalso. clear -CK H. destruct k; cbn in CK; discriminate.
  - repeat st. gv. apply run_uop_bal in E0. cbn [vs vacct]. upd. cbn [ovobjs]. lia.
Qed.
End M.

Lemma vreach_bal s ss : vreach k sz dbg s ss -> bal (vacct s) = sobjs (vs s).
Proof.
  induction 1 as [|s ss mal o s' r ss' r' H IH MS AL VA ST|s ss mal o s' x H IH MS AL VA ST UB].
  - reflexivity.
  - apply vstep_bal in ST. lia.
  - apply vstep_bal in ST. lia.
Qed.
End K.

(** With copyable-only elements, only elements are in the buffers. *)
Lemma count_prefix p f : forall n m, (m <= n)%nat -> (forall j, 0 <= j < Z.of_nat m -> p (f j) = true) ->
  (forall j, Z.of_nat m <= j < Z.of_nat n -> p (f j) = false) -> count_cells p f n = Z.of_nat m.
Proof.
  induction n as [|n IH]; intros m L H1 H2.
  - replace m with O by lia. reflexivity.
  - cbn [count_cells]. destruct (Nat.eq_dec m (S n)) as [->|].
    + rewrite H1 by lia. rewrite (IH n); [cbn [b2]; lia|lia|intros; apply H1; lia|intros; lia].
    + rewrite H2 by lia. rewrite (IH m); [cbn [b2]; lia|lia|exact H1|intros; apply H2; lia].
Qed.
Lemma vrep_objs sz v l : vrep KCopy sz v l -> vobjs v = len l.
Proof.
  destruct v as [b size cap|]; [|contradiction]. intros (Hs & Hc & Hb & HB). pose proof (len_nonneg l). cbn [vobjs].
  destruct b as [b|]; cbn [oobjs].
  - destruct HB as (C0 & BL & BV & BS). unfold objs. rewrite (count_prefix _ _ _ (Z.to_nat size)); [lia|lia| |].
    + intros j Hj. rewrite BV by lia. reflexivity.
    + intros j Hj. specialize (BS j ltac:(lia)). cbn in BS. rewrite BS. reflexivity.
  - lia.
Qed.
Definition total_len (ss : list (option (list Z))) : Z :=
  fold_right (fun x t => match x with Some l => len l | None => 0 end + t) 0 ss.
Lemma srep_objs sz s ss : srep KCopy sz s ss -> sobjs (vs s) = total_len ss.
Proof.
  unfold srep. induction 1 as [|x y l l' OR H IH]; [reflexivity|]. cbn. unfold sobjs, total_len in *. rewrite IH. f_equal.
  unfold orep in OR. destruct x, y; try contradiction; [|reflexivity]. cbn. eapply vrep_objs; exact OR.
Qed.
