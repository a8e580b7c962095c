(** stdb_vector with throwing element constructors: the calls. *)
Require Import ZArith List Bool Lia.
From Verif Require Import Base BaseProofs VecSpec VecModel VecStatements VecProofs VecProofs2 VecProofs3
  VecThrowModel VecThrowStatements VecThrowProofs.
Import ListNotations.
Open Scope Z_scope.

Section K.
Variable k : kind.
Variable sz : Z.
Variable dbg : bool.
Hypothesis CK : counted k = true.

Section Agree.
Variable mal : Z -> bool.
Ltac step := first
  [ reflexivity
  | match goal with x : _ * _ |- _ => destruct x end
  | match goal with |- bind ?m _ = bind ?m _ => destruct m; cbn [bind] end
  | match goal with |- (if ?c then _ else _) = bind (if ?c then _ else _) _ => destruct c end
  | match goal with |- (match ?c with _ => _ end) = bind (match ?c with _ => _ end) _ => destruct c end ].
Ltac go := repeat (rewrite ?bind_assoc; cbn [bind of_outc negb]; step).

Lemma emplace_back_agrees b size cap a n r left : (1 <= left)%nat ->
  emplace_back_t k sz dbg mal b size cap a n r left = as_before (realloc_and_emplace_back k sz dbg mal b size cap a n r).
Proof. destruct left; [lia|reflexivity]. Qed.

Lemma put_agrees b s c a pos r moved left : (1 <= left)%nat ->
  put_t k dbg b s c a pos r moved left =
  as_before (do f <- full dbg s c;
          do _ <- assert dbg (negb f);
          do bf <- need b;
          do (b2, a2) <- (if pos =? s then Ok (bf, a) else open_gap1 k dbg bf a pos s);
          do x <- read_ref (if moved then None else Some b2) r;
          do (b3, a3) <- construct k b2 a2 pos x;
          Ok (Vec (Some b3) (s + 1) c, a3, Done pos)).
Proof.
  intros H. unfold put_t, as_before. go. rewrite new_t_all by lia. go.
Qed.

Lemma resize_agrees b size cap a n r d left : n - size <= Z.of_nat left -> size <= n ->
  (forall v1 a1, (if cap <? n then realloc_with_old_data k sz dbg mal b size cap a n else Ok (Vec b size cap, a, true)) = Ok (v1, a1, true) ->
     vsize v1 = Ok size) ->
  resize_t k sz dbg mal b size cap a n r d left =
  as_before (do (v1, a1, ok) <- (if cap <? n then realloc_with_old_data k sz dbg mal b size cap a n else Ok (Vec b size cap, a, true));
            if negb ok then Ok (v1, a1, Threw) else
            match v1 with
            | Broken => Undef
            | Vec b1 s1 c1 => do (b2, a2) <- construct_range_with_cref k dbg b1 a1 s1 n r d; Ok (Vec b2 n c1, a2, Done 0)
            end).
Proof.
  intros H HS HV. unfold resize_t, as_before. rewrite ?bind_assoc.
  destruct (if cap <? n then _ else _) as [[[v1 a1] ok]| |]; cbn [bind]; try reflexivity.
  destruct ok; cbn [negb]; [|reflexivity]. specialize (HV v1 a1 eq_refl). destruct v1 as [b1 s1 c1|]; [|reflexivity].
  cbn in HV. injection HV as ->. rewrite cref_t_all by lia. go.
Qed.
Lemma realloc_size b size cap a n v1 a1 : 0 <= size ->
  realloc_with_old_data k sz dbg mal b size cap a n = Ok (v1, a1, true) -> size <= n -> (b = None -> size = 0) -> vsize v1 = Ok size.
Proof.
  intros H0. unfold realloc_with_old_data, realloc_with_move. destruct (assert dbg _); cbn [bind]; try discriminate.
  destruct b as [b|].
  - destruct (assert dbg _); cbn [bind]; try discriminate. destruct (malloc _ _ _) as [nb|]; [|discriminate].
    destruct (move_range_without_overlap _ _ _ _ _) as [[[x y] z]| |]; cbn [bind]; try discriminate.
    intros E S _. injection E as <- _. cbn. f_equal. lia.
  - destruct (assert dbg _); cbn [bind]; try discriminate. intros E S N. injection E as <- _. cbn. f_equal. rewrite N; auto.
Qed.

Lemma trun_agrees left v l a o : vrep k sz v l -> needs (len l) o <= Z.of_nat left ->
  trun k sz dbg mal left v a o = as_before (run_uop k sz dbg mal v a o).
Proof.
  intros R H. destruct v as [b size cap|]; [|destruct R]. pose proof R as (Hs & Hc & Hb & HB). pose proof (len_nonneg l) as LN.
  assert (BN : b = None -> size = 0) by (intros ->; lia).
  destruct o; cbn [trun run_uop needs] in *; unfold as_before; rewrite <- ?Hs in H; try reflexivity.
  - go; rewrite cref_t_all by lia; go.
  - unfold len in H. go; rewrite from_iter_t_all by (assumption || lia); go.
  - go; [rewrite emplace_back_agrees by lia; unfold as_before; go; destruct o; reflexivity|].
    rewrite new_t_all by lia. rewrite copy_value_construct by exact CK. go.
  - go; [rewrite emplace_back_agrees by lia; reflexivity|]. rewrite new_t_all by lia. go.
  - destruct (Z.ltb_spec size n); [|reflexivity]. apply resize_agrees; [lia|lia|].
    intros v1 a1. destruct (cap <? n); intros E; [eapply realloc_size; eauto; lia|injection E as <- _; reflexivity].
  - destruct (Z.ltb_spec size n); [|reflexivity]. apply resize_agrees; [lia|lia|].
    intros v1 a1. destruct (cap <? n); intros E; [eapply realloc_size; eauto; lia|injection E as <- _; reflexivity].
  - go. rewrite put_agrees by lia. unfold as_before. go. rewrite copy_value_construct by exact CK. go.
  - go. rewrite cref_t_all by lia. go.
  - unfold len in H. go. rewrite from_iter_t_all by (assumption || lia). go.
  - go. rewrite put_agrees by lia. unfold as_before. go.
Qed.
End Agree.
End K.
