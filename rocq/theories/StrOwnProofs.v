(** Inserting a piece of a string into itself: what happens in every case. *)
Require Import ZArith List Bool Lia Permutation.
From Verif Require Import Base BaseProofs StrSpec StrModel StrStatements StrOwnStatements StrProofs StrProofs2 StrProofs3 StrProofs4 StrProofs5 StrProofs6 StrProofs7 StrQuiet StrProofs8 StrProofs9 StrProofs10 StrProofs11 StrProofs12 StrProofs13 StrProofs14 StrStreamProofs StrCases StrGrowStatements StrGrowProofs.
Import ListNotations.
Open Scope Z_scope.


Section Wide.
Context {ChT : CharType}.

Lemma taken_list (l u : list (option Z)) pos off n : 0 <= pos <= slen l -> 0 <= off -> 0 <= n -> off + n <= slen l -> slen u = n ->
  piece off n (splice (pos + n) (slen l - pos) (piece pos (slen l - pos) l) (l ++ u)) = taken pos off n l.
Proof.
  intros. unfold taken. destruct (Z_le_gt_dec off pos).
  - replace (Z.max 0 (Z.min n (pos + n - off))) with n by lia. rewrite Z.sub_diag. replace (piece (off + n - n) 0 l) with (@nil (option Z)) by reflexivity. rewrite app_nil_r. lists.
  - destruct (Z_le_gt_dec (off - pos) n).
    + replace (Z.max 0 (Z.min n (pos + n - off))) with (pos + n - off) by lia. lists.
    + replace (Z.max 0 (Z.min n (pos + n - off))) with 0 by lia. lists.
Qed.
Lemma taken_front {A} (l : list A) pos off n : 0 <= off <= pos -> 0 <= n -> taken pos off n l = piece off n l.
Proof. intros. unfold taken. replace (Z.max 0 (Z.min n (pos + n - off))) with n by lia. rewrite Z.sub_diag. replace (piece (off + n - n) 0 l) with (@nil A) by reflexivity. apply app_nil_r. Qed.
Lemma slen_taken {A} (l : list A) pos off n : 0 <= pos -> 0 <= off -> 0 <= n -> off + n <= slen l -> slen (taken pos off n l) = n.
Proof. intros. unfold taken. set (m := Z.max 0 (Z.min n (pos + n - off))). assert (0 <= m <= n) by lia. assert (0 <= off + m - n) by lia. slens; lia. Qed.
Lemma good_taken l pos off n : good l -> good (taken pos off n l).
Proof. intros G. apply good_app. split; apply good_piece; exact G. Qed.
Lemma map_taken {A B} (f : A -> B) pos off n l : map f (taken pos off n l) = taken pos off n (map f l).
Proof. unfold taken. rewrite map_app, !map_piece. reflexivity. Qed.
Lemma bytes_taken pos off n l : Forall is_char l -> Forall is_char (taken pos off n l).
Proof. intros B. apply Forall_app. split; apply bytes_piece; exact B. Qed.

(** ** In place, and with another holder of the block *)
Section S.
Variables (dbg arena : bool) (mal : nat -> Z -> bool) (ar N : Z).
Notation INV := (StrProofs2.Inv dbg arena mal ar N).
Notation fits := (StrQuiet.fits dbg arena).
Lemma insert_at_taken h o l R pos off n : INV h ((o, l) :: R) -> good l -> unique h o -> 0 <= pos <= slen l -> 0 <= off -> 0 <= n -> off + n <= slen l ->
  fits h o (slen l + n) ->
  spec (insert_at dbg arena mal pos (ptr_add (data o) off) n) h o (fun _ h' o' => INV h' ((o', splice pos 0 (taken pos off n l) l) :: R)) (StrProofs3.Keep dbg arena mal ar N o l R).
Proof.
  intros I Gl U Hp Ho Hn Hl F. pose proof (len_ok _ _ _ _ _ _ _ _ _ I) as LO.
  unfold insert_at. eapply guard_keep; [exact I|]. apply spec_size. rewrite (size_ok _ _ _ _ _ _ _ _ _ I).
  apply spec_assert; [apply andb_true_intro; split; apply Z.leb_le; lia|].
  eapply spec_bnd; [apply spec_quiet; [eapply expand_spec; [exact I|lia|lia]|eapply expand_quiet; [exact I|lia|exact F]]|].
  intros q h' o' ((u & I' & Lu & _ & _) & SM & ST & _ & HE).
  pose proof (data_stay _ _ ST HE) as DE. pose proof (unique_same _ _ _ _ U SM ST HE) as U'.
  eapply begin_then; [exact I'|]. intros h2 o2 I2 U2 SE. destruct (SE U') as (-> & ->). clear SE.
  assert (RD : read (ptr_add (data o') pos) (slen l - pos) h' o' = Ret (piece pos (slen l - pos) l) h' o').
  { rewrite (own_read _ _ _ _ _ _ _ _ _ pos (slen l - pos) I2) by (slens; lia). f_equal. lists. }
  destruct (move_own _ _ _ _ _ h' o' (l ++ u) R (pos + n) _ _ _ I2 (or_introl U2) RD) as (h3 & o3 & W & I3 & D3 & _ & U3 & _);
    [slens; lia|apply good_piece; exact Gl|lia|slens; lia|].
  eapply spec_eq; [exact W|]. rewrite <- DE, <- !(data_eq o' o3 D3).
  pose proof (own_read _ _ _ _ _ _ _ _ _ off n I3 ltac:(lia) ltac:(lia) ltac:(slens; lia)) as RD3. rewrite taken_list in RD3 by lia.
  pose proof (slen_taken l pos off n ltac:(lia) Ho Hn Hl) as LT.
  destruct (move_own _ _ _ _ _ h3 o3 _ R pos _ n _ I3 (or_introl (U3 U2)) RD3) as (h4 & o4 & W4 & I4 & _); [exact LT|apply good_taken; exact Gl|lia|slens; lia|].
  eapply spec_ret_eq; [exact W4|]. cbv beta. rewrite insert_list in I4 by (slens; lia). exact I4.
Qed.
Lemma insert_taken_spec h o l R pos off n : INV h ((o, l) :: R) -> good l -> unique h o -> 0 <= pos <= slen l -> 0 <= off -> 0 <= n -> off + n <= slen l ->
  fits h o (slen l + n) ->
  spec (insert dbg arena mal pos (ptr_add (data o) off) n) h o (fun _ h' o' => INV h' ((o', splice pos 0 (taken pos off n l) l) :: R)) (StrProofs6.Bad dbg arena mal ar N R).
Proof.
  intros I Gl U Hp Ho Hn Hl F. pose proof (len_ok _ _ _ _ _ _ _ _ _ I) as LO.
  unfold insert. apply spec_size. rewrite (size_ok _ _ _ _ _ _ _ _ _ I). unfold enforce.
  replace (pos <=? slen l) with true by (symmetry; apply Z.leb_le; lia). apply spec_bret.
  eapply begin_then; [exact I|]. intros h' o' I' U' SE. destruct (SE U) as (-> & ->).
  eapply spec_bnd; [eapply spec_Keep_Bad; [exact Gl|eapply insert_at_taken; try eassumption; auto]|]. intros a h2 o2 I2. apply spec_ret. exact I2.
Qed.
Lemma insert_shared_spec h o l R pos off n : INV h ((o, l) :: R) -> good l -> ~ unique h o -> 0 <= pos <= slen l -> 0 <= off -> 0 <= n -> off + n <= slen l ->
  spec (insert dbg arena mal pos (ptr_add (data o) off) n) h o (fun _ h' o' => INV h' ((o', splice pos 0 (piece off n l) l) :: R)) (StrProofs6.Bad dbg arena mal ar N R).
Proof.
  intros I Gl NU Hp Ho Hn Hl. pose proof (len_ok _ _ _ _ _ _ _ _ _ I) as LO.
  assert (AS : asrc o l R (ptr_add (data o) off) n (piece off n l)) by (eapply asrc_own; [exact I|lia|lia|lia]).
  destruct (asrc_pin _ _ _ _ _ _ _ _ _ _ _ _ I AS) as [U|(R' & S & I' & _ & C1 & C2)]; [destruct (NU U)|].
  eapply spec_imp; [eapply insert_spec; [exact I'|exact S|exact Gl|apply good_piece; exact Gl|lia|lia]| |].
  - intros a h' o' X. cbv beta in X. apply C1. exact X.
  - intros e h' o' (E1 & E2 & [(l' & G' & X)|(E3 & E4 & E5 & X)]); (split; [exact E1|]; split; [exact E2|]); [left; eauto|right; auto].
Qed.
Lemma shared_clean h o b : is_shared h o = Ret b h o -> is_shared (clean h) o = Ret b (clean h) o.
Proof.
  unfold is_shared, bnd, this. destruct (category o =? is_large); [|unfold ret; congruence]. unfold refs. change (blk (clean h) (c_data o)) with (blk h (c_data o)).
  destruct (blk h (c_data o)) as [kk|]; [|discriminate]. destruct (bk_live kk); [|discriminate]. destruct (bk_kind kk); [discriminate|]. unfold ret. congruence.
Qed.
Lemma capacity_clean h o c : capacity h o = Ret c h o -> capacity (clean h) o = Ret c (clean h) o.
Proof.
  unfold capacity, bnd, this. destruct (category o =? is_small); [unfold ret; congruence|]. destruct (category o =? is_large).
  - unfold refs. change (blk (clean h) (c_data o)) with (blk h (c_data o)).
    destruct (blk h (c_data o)) as [kk|]; [|discriminate]. destruct (bk_live kk); [|discriminate]. destruct (bk_kind kk); [discriminate|]. unfold ret. congruence.
  - destruct (category o =? is_medium); [unfold ret; congruence|discriminate].
Qed.
Lemma shared_not_unique h o l : rep h o l -> is_shared h o = Ret true h o -> ~ unique h o.
Proof. intros RP SHD U. rewrite (unique_shared _ _ _ RP U) in SHD. discriminate SHD. Qed.
Lemma unshared_unique h R o l : INV h ((o, l) :: R) -> is_shared h o = Ret false h o -> unique h o.
Proof.
  intros I E. destruct (Inv_head _ _ _ _ _ _ _ _ _ I) as ([S|(k & cap & HR)] & _); [left; eapply small_heapy; exact S|]. right. exists k.
  pose proof HR as (Bk & L & _). split; [exact Bk|]. unfold is_shared, bnd, this in E. rewrite (heap_cat _ _ _ _ _ HR) in E.
  destruct (bk_kind k) as [|r] eqn:KD; [left; reflexivity|right]. cbn in E. unfold refs in E. rewrite Bk, L, KD in E. unfold ret in E. injection E as E.
  pose proof (refs_bound _ _ _ _ _ _ _ _ _ _ _ _ I HR KD). apply Z.ltb_ge in E. f_equal. lia.
Qed.
End S.
Section W.
Variables (dbg arena : bool) (mal : nat -> Z -> bool) (ar : Z).
Hypotheses (MS : mal_sane mal) (AO : ar_ok dbg arena ar).
Notation World := (StrProofs8.World dbg arena mal ar).
Notation W M s ss := (World M (s_heap s) (s_objs s) ss).
Notation reach := (StrStatements.reach dbg arena mal ar).
Notation step := (StrStatements.step dbg arena mal ar).
Notation cleaned s := {| s_heap := clean (s_heap s); s_objs := s_objs s |}.
Lemma reach_own n s ss i c l pos off k l' : reach n s -> short n -> sees s ss -> sget (s_objs s) i = Some c -> sget ss i = Some l -> Forall is_char l' ->
  (forall R, StrProofs2.Inv dbg arena mal ar (Z.of_nat n + 1) (clean (s_heap s)) ((c, map Some l) :: R) -> good (map Some l) ->
     spec (insert dbg arena mal pos (ptr_add (data c) off) k) (clean (s_heap s)) c
       (fun _ h' o' => StrProofs2.Inv dbg arena mal ar (Z.of_nat n + 1) h' ((o', map Some l') :: R)) (StrProofs6.Bad dbg arena mal ar (Z.of_nat n + 1) R)) ->
  gives (step s (SOn i (UInsert pos (Piece i off k)))) (sset i (Some l') ss).
Proof.
  intros H SH SE Ec El BL' HS. pose proof (world_of dbg arena mal ar MS AO n s ss H SH SE) as Ws. pose proof (World_clean _ _ _ _ _ _ _ _ Ws) as Wc.
  unfold StrStatements.step. cbn [sstep arg_of resolve s_objs]. rewrite Ec, Nat.eqb_refl. cbn [run_uop].
  pose proof (on_outcome dbg arena mal ar (Z.of_nat n + 1) (SOn i (UAssign (Chars l'))) (cleaned s) ss i c l l'
    (insert dbg arena mal pos (ptr_add (data c) off) k) Wc Ec El) as Y.
  assert (BL : Forall is_char l) by (exact (w_bytes _ _ _ _ _ _ _ _ Ws _ _ El)).
  assert (Z : outcome dbg arena mal ar (Z.of_nat n + 1) (SOn i (UAssign (Chars l'))) (cleaned s) ss (on_obj (cleaned s) i (insert dbg arena mal pos (ptr_add (data c) off) k))).
  { apply Y; [exact BL'|cbn [s_apply arg_of arg_val]; rewrite El; left; reflexivity|reflexivity|reflexivity|].
    intros R' IR' GR' _. apply HS; [exact IR'|apply good_map; exact BL]. }
  unfold outcome in Z. unfold gives. destruct (on_obj (cleaned s) i _) as [s'|e s'|h'| |h']; try exact Z.
  - destruct Z as (ss' & Z1 & Z2). cbn [s_apply arg_of arg_val] in Z1. rewrite El in Z1. destruct Z1 as [E|[]]. injection E as <-. eapply World_sees. exact Z2.
  - destruct e; try exact Z; [apply Z|]. destruct Z as ((ss' & Z1 & _) & _). cbn [s_apply arg_of arg_val] in Z1. rewrite El in Z1. destruct Z1 as [E|[]]. discriminate E.
Qed.
Lemma reach_bytes n s ss i l : reach n s -> short n -> sees s ss -> sget ss i = Some l -> Forall is_char l.
Proof. intros H SH SE El. exact (w_bytes _ _ _ _ _ _ _ _ (world_of dbg arena mal ar MS AO n s ss H SH SE) _ _ El). Qed.
Lemma reach_insert_shared n s ss i c l pos off k : reach n s -> short n -> sees s ss -> sget (s_objs s) i = Some c -> sget ss i = Some l ->
  0 <= pos <= slen l -> 0 <= off -> 0 <= k -> off + k <= slen l -> is_shared (s_heap s) c = Ret true (s_heap s) c ->
  gives (step s (SOn i (UInsert pos (Piece i off k)))) (sset i (Some (splice pos 0 (piece off k l) l)) ss).
Proof.
  intros H SH SE Ec El Hp Ho Hk Hl SHD. pose proof (reach_bytes _ _ _ _ _ H SH SE El) as BL.
  eapply reach_own; try eassumption; [apply bytes_splice; [exact BL|apply bytes_piece; exact BL]|].
  intros R IR GL. rewrite map_splice, map_piece. destruct (Inv_head _ _ _ _ _ _ _ _ _ IR) as (RP & _).
  eapply insert_shared_spec; [exact IR|exact GL|eapply shared_not_unique; [exact RP|apply shared_clean; exact SHD]|..]; rewrite ?slen_map; lia.
Qed.
Lemma reach_insert_taken n s ss i c l pos off k : reach n s -> short n -> sees s ss -> sget (s_objs s) i = Some c -> sget ss i = Some l ->
  0 <= pos <= slen l -> 0 <= off -> 0 <= k -> off + k <= slen l -> has_room dbg arena (s_heap s) c (slen l + k) ->
  gives (step s (SOn i (UInsert pos (Piece i off k)))) (sset i (Some (splice pos 0 (taken pos off k l) l)) ss).
Proof.
  intros H SH SE Ec El Hp Ho Hk Hl RM. pose proof (reach_bytes _ _ _ _ _ H SH SE El) as BL.
  eapply reach_own; try eassumption; [apply bytes_splice; [exact BL|apply bytes_taken; exact BL]|].
  intros R IR GL. rewrite map_splice, map_taken.
  eapply insert_taken_spec; [exact IR|exact GL|eapply unshared_unique; [exact IR|apply shared_clean; apply RM]|..]; rewrite ?slen_map; try lia.
  exact (has_room_fits _ _ _ _ _ RM).
Qed.
End W.

(** ** Blocks keep their length *)
Definition kept (h h' : heap) : Prop := forall b k, blk h b = Some k -> exists k', blk h' b = Some k' /\ bk_len k' = bk_len k.
Definition keeps {A} (m : M A) : Prop := forall h o a h' o', m h o = Ret a h' o' -> kept h h'.
Lemma kept_refl h : kept h h. Proof. intros b k E. eauto. Qed.
Lemma kept_trans h1 h2 h3 : kept h1 h2 -> kept h2 h3 -> kept h1 h3.
Proof. intros K1 K2 b k E. destruct (K1 _ _ E) as (k1 & E1 & L1). destruct (K2 _ _ E1) as (k2 & E2 & L2). exists k2. split; [exact E2|congruence]. Qed.
Lemma kept_upd h b k k' : blk h b = Some k -> bk_len k' = bk_len k -> kept h (upd_blk h b k').
Proof.
  intros E L b1 k1 E1. rewrite (blk_upd _ _ _ _ _ E). destruct (Z.eqb_spec b b1) as [<-|]; [|eauto]. exists k'. split; [reflexivity|congruence].
Qed.
Lemma keeps_bnd {A B} (m : M A) (f : A -> M B) : keeps m -> (forall a, keeps (f a)) -> keeps (bnd m f).
Proof. intros H1 H2 h o b h' o' E. apply bnd_inv in E. destruct E as (a & h1 & o1 & E1 & E2). eapply kept_trans; [eapply H1; exact E1|eapply H2; exact E2]. Qed.
Lemma keeps_pure {A} (m : M A) : pure m -> keeps m.
Proof. intros P h o a h' o' E. pose proof (P h o) as X. rewrite E in X. destruct X as (-> & _). apply kept_refl. Qed.
Lemma keeps_ret {A} (a : A) : keeps (ret a). Proof. apply keeps_pure, pure_ret. Qed.
Lemma keeps_fail {A} (m : M A) : (forall h o a h' o', m h o <> Ret a h' o') -> keeps m.
Proof. intros H h o a h' o' E. destruct (H _ _ _ _ _ E). Qed.
Lemma keeps_undef {A} : keeps (@undef A). Proof. apply keeps_fail. discriminate. Qed.
Lemma keeps_throw {A} e : keeps (@throw A e). Proof. apply keeps_fail. discriminate. Qed.
Lemma keeps_put o : keeps (put o). Proof. intros h x a h' o' E. injection E as _ <- _. apply kept_refl. Qed.
Lemma keeps_this : keeps this. Proof. apply keeps_pure, pure_this. Qed.
Lemma keeps_write p l : keeps (write p l).
Proof.
  intros h o a h' o' E. destruct p; cbn [write] in E; [|destruct (blk h b) as [k|] eqn:B; [|discriminate]|discriminate];
    (match type of E with context [if ?b then _ else _] => destruct b; [|discriminate] end); injection E as _ <- _; [apply kept_refl|].
  eapply kept_upd; [exact B|reflexivity].
Qed.
Lemma keeps_set_refs b r : keeps (set_refs b r).
Proof.
  intros h o a h' o' E. unfold set_refs in E. destruct (blk h b) as [k|] eqn:B; [|discriminate]. destruct (bk_live k), (bk_kind k); try discriminate. injection E as _ <- _.
  eapply kept_upd; [exact B|reflexivity].
Qed.
Lemma keeps_pod_move p q n : keeps (pod_move p q n).
Proof. apply keeps_bnd; [apply keeps_pure, pure_read|intros; apply keeps_write]. Qed.

Section C.
Variables (dbg arena : bool) (mal : nat -> Z -> bool).
Lemma keeps_assert c : keeps (assertM dbg c). Proof. apply keeps_pure, pure_assert. Qed.
Lemma keeps_capacity : keeps capacity. Proof. apply keeps_pure, pure_capacity. Qed.
Lemma keeps_pod_copy p q n : keeps (pod_copy dbg p q n).
Proof. apply keeps_bnd; [apply keeps_assert|]. intros _. destruct (overlaps p q n); [apply keeps_undef|]. apply keeps_pod_move. Qed.
Lemma keeps_alloc k b : keeps (alloc dbg arena mal k b).
Proof.
  intros h o a h' o' E. unfold alloc in E. destruct (arena && dbg && (c_al o =? 0)); [discriminate|]. destruct (mal (h_calls h) b); [|discriminate].
  injection E as _ <- _. intros b0 k0 B. exists k0. split; [|reflexivity]. exact (blk_push_old h _ _ _ B).
Qed.
Lemma keeps_free c b n : keeps (free_block arena c b n).
Proof.
  intros h o a h' o' E. unfold free_block in E. destruct (blk h b) as [k|] eqn:B; [|discriminate]. match type of E with context [if ?b then _ else _] => destruct b; [|discriminate] end. injection E as _ <- _.
  eapply kept_upd; [exact B|reflexivity].
Qed.
Lemma keeps_create n : keeps (create dbg arena mal n).
Proof.
  apply keeps_bnd; [apply keeps_this|]. intros o. destruct (_ && _); [apply keeps_throw|]. destruct (M64 <=? n + 1); [apply keeps_throw|]. cbv zeta. destruct (M64 <=? (n + 1) * csize + 8); [apply keeps_throw|].
  apply keeps_bnd; [apply keeps_alloc|intros; apply keeps_ret].
Qed.
Lemma keeps_decrement al b n : keeps (decrement_refs dbg arena al b n).
Proof.
  apply keeps_bnd; [apply keeps_pure, pure_refs|]. intros r. apply keeps_bnd; [apply keeps_set_refs|]. intros _. apply keeps_bnd; [apply keeps_assert|]. intros _.
  destruct (r =? 1); [|apply keeps_ret]. destruct (al =? 0); [apply keeps_free|apply keeps_ret].
Qed.
Lemma keeps_move b cur n : keeps (move_block dbg arena mal b cur n).
Proof.
  intros h o a h' o' E. unfold move_block, heap_of in E. apply bnd_inv in E. destruct E as (h0 & h1 & o1 & E1 & E). injection E1 as <- <- <-.
  destruct (blk h b) as [k|]; [|discriminate]. destruct (in_blk k 0 cur); [|discriminate]. revert h o a h' o' E.
  change (keeps (let* nb := alloc dbg arena mal (bk_kind k) n in let* l := read (PHeap b 0) cur in let* _ := write (PHeap nb 0) l in ret nb)).
  apply keeps_bnd; [apply keeps_alloc|]. intros nb. apply keeps_bnd; [apply keeps_pure, pure_read|]. intros l. apply keeps_bnd; [apply keeps_write|]. intros; apply keeps_ret.
Qed.
Lemma keeps_smart hdr b cs cc nc : keeps (smart_realloc dbg arena mal hdr b cs cc nc).
Proof.
  apply keeps_bnd; [apply keeps_this|]. intros o. apply keeps_bnd; [apply keeps_assert|]. intros _. destruct arena eqn:EA.
  - destruct (_ && _); [apply keeps_throw|]. rewrite <- EA. apply keeps_bnd; [apply keeps_move|]. intros nb. apply keeps_bnd; [|intros; apply keeps_ret].
    destruct (c_al o =? 0); [apply keeps_free|apply keeps_ret].
  - cbv zeta. rewrite <- EA. destruct (_ <? _).
    + apply keeps_bnd; [apply keeps_move|]. intros nb. apply keeps_bnd; [apply keeps_free|intros; apply keeps_ret].
    + intros h o1 a h' o' E. destruct (mal (h_calls h) nc).
      * revert E. match goal with |- ?m h o1 = _ -> _ => cut (keeps m); [intros X; apply X|] end.
        apply keeps_bnd; [apply keeps_move|]. intros nb. apply keeps_bnd; [apply keeps_free|intros; apply keeps_ret].
      * exfalso. inv1 E. inv1 E. inv1 E. discriminate E.
Qed.
Lemma keeps_reallocate b cur cap n : keeps (reallocate dbg arena mal b cur cap n).
Proof.
  apply keeps_bnd; [apply keeps_assert|]. intros _. destruct (M64 <=? n + 1); [apply keeps_throw|]. cbv zeta. destruct (M64 <=? (n + 1) * csize + 8); [apply keeps_throw|].
  apply keeps_bnd; [apply keeps_pure, pure_refs|]. intros r. apply keeps_bnd; [apply keeps_assert|]. intros _.
  apply keeps_bnd; [apply keeps_smart|]. intros nb. apply keeps_bnd; [apply keeps_pure, pure_refs|]. intros r1. apply keeps_bnd; [apply keeps_assert|]. intros; apply keeps_ret.
Qed.
Lemma keeps_set_small n : keeps (set_small_size dbg n).
Proof.
  apply keeps_bnd; [apply keeps_assert|]. intros _. destruct (_ || _); [apply keeps_undef|]. apply keeps_bnd; [apply keeps_this|]. intros o.
  apply keeps_bnd; [apply keeps_put|]. intros _. apply keeps_bnd; [apply keeps_this|]. intros o1. apply keeps_assert.
Qed.
Lemma keeps_destroy c : keeps (destroy dbg arena c).
Proof.
  unfold destroy. destruct (category c =? is_small); [apply keeps_ret|]. destruct (_ && _); [apply keeps_ret|]. destruct (category c =? is_medium); [apply keeps_free|apply keeps_decrement].
Qed.
Lemma keeps_on {A} t (m : M A) : keeps m -> keeps (on dbg arena t m).
Proof.
  intros H h o a h' o' E. unfold on in E. destruct (m h t) as [x h1 t1|e h1 t1|h1| |h1] eqn:X; try discriminate.
  - injection E as _ <- _. eapply H; exact X.
  - destruct (destroy dbg arena t1 h1 o); discriminate.
Qed.
Lemma keeps_build {A} al (m : M A) : keeps m -> keeps (build al m).
Proof. intros H h o a h' o' E. unfold build in E. destruct (m h (blank al)) as [x h1 t1|e h1 t1|h1| |h1] eqn:X; try discriminate. injection E as _ <- _. eapply H; exact X. Qed.
Lemma keeps_unshare n : keeps (unshare dbg arena mal n).
Proof.
  apply keeps_bnd; [apply keeps_this|]. intros o. apply keeps_bnd; [apply keeps_assert|]. intros _. apply keeps_bnd; [apply keeps_create|]. intros (b, c).
  apply keeps_bnd; [apply keeps_assert|]. intros _. apply keeps_bnd; [apply keeps_pod_copy|]. intros _. apply keeps_bnd; [apply keeps_decrement|]. intros _.
  apply keeps_bnd; [apply keeps_this|]. intros o1. apply keeps_put.
Qed.
Lemma keeps_small_size : keeps (small_size dbg). Proof. apply keeps_pure, pure_small_size. Qed.
Lemma keeps_init_default : keeps (init_default dbg arena).
Proof. apply keeps_bnd; [apply keeps_this|]. intros o. destruct (_ && _); [apply keeps_throw|apply keeps_set_small]. Qed.
Ltac step0 := first
  [ apply keeps_pod_copy | apply keeps_pod_move | apply keeps_create | apply keeps_smart | apply keeps_reallocate | apply keeps_unshare | apply keeps_small_size | apply keeps_set_small
  | apply keeps_capacity | apply keeps_bnd; [|intros] | apply keeps_ret | apply keeps_this | apply keeps_put | apply keeps_assert | apply keeps_write | apply keeps_undef | apply keeps_throw | apply keeps_alloc
  | apply keeps_destroy | apply keeps_build; apply keeps_init_default | apply keeps_on | apply keeps_pure, pure_refs
  | match goal with |- keeps (let (_, _) := ?p in _) => destruct p end | match goal with |- keeps (if ?b then _ else _) => destruct b end ].
Lemma keeps_reserve_small n : keeps (reserve_small dbg arena mal n). Proof. unfold reserve_small. repeat step0. Qed.
Lemma keeps_reserve_medium n : keeps (reserve_medium dbg arena mal n).
Proof. unfold reserve_medium. repeat (first [apply keeps_reserve_small|step0]). Qed.
Lemma keeps_reserve_large n : keeps (reserve_large dbg arena mal n). Proof. unfold reserve_large. repeat step0. Qed.
Lemma keeps_reserve n : keeps (reserve dbg arena mal n).
Proof. unfold reserve. repeat (first [apply keeps_reserve_small|apply keeps_reserve_medium|apply keeps_reserve_large|step0]). Qed.
Lemma keeps_expand n e : keeps (expand_noinit dbg arena mal n e).
Proof. unfold expand_noinit. cbv zeta. repeat (first [apply keeps_reserve_small|apply keeps_reserve|step0]). Qed.
End C.

(** ** Growing: the piece is read from a block that is gone *)
Definition dies {A} (m : M A) (h : heap) (o : core) (E : exn -> heap -> core -> Prop) : Prop :=
  match m h o with
  | Ret _ _ _ => False
  | Thr e h' o' => E e h' o'
  | Term h' => h_refused h' = true
  | AFail => False
  | UB _ => True
  end.
Lemma dies_bnd {A B} (m : M A) (f : A -> M B) h o Q E : spec m h o Q E -> (forall a h' o', Q a h' o' -> dies (f a) h' o' E) -> dies (bnd m f) h o E.
Proof. unfold spec, dies, bnd. destruct (m h o) as [a h' o'|e h' o'|h'| |h']; auto. intros H K. exact (K _ _ _ H). Qed.
Lemma dies_bnd1 {A B} (m : M A) (f : A -> M B) h o E : dies m h o E -> dies (bnd m f) h o E.
Proof. unfold dies, bnd. destruct (m h o) as [a h' o'|e h' o'|h'| |h']; auto. intros []. Qed.
Lemma dies_imp {A} (m : M A) h o (E E' : exn -> heap -> core -> Prop) : dies m h o E -> (forall e h' o', E e h' o' -> E' e h' o') -> dies m h o E'.
Proof. unfold dies. destruct (m h o); auto. Qed.

Section G.
Variables (dbg : bool) (mal : nat -> Z -> bool) (N : Z).
Notation INV := (StrProofs2.Inv dbg false mal 0 N).
Notation KEEP := (StrProofs3.Keep dbg false mal 0 N).
Lemma dies_guarded {A} (m : M A) h o l (E : exn -> heap -> core -> Prop) :
  rep h o l -> dies m h o E -> (forall e h' o', E e h' o' -> settled h' o') -> dies (guarded dbg m) h o E.
Proof.
  intros R H HE. unfold guarded. eapply dies_bnd; [unfold spec; erewrite check_ok by eassumption; exact (conj eq_refl eq_refl : (fun _ h' o' => h' = h /\ o' = o) tt h o)|].
  intros _ h' o' (-> & ->). unfold dies in *. destruct (m h o) as [a h' o'|e h' o'|h'| |h']; try assumption.
  - destruct H.
  - pose proof (check_settled dbg (throw e : M A) h' o' (fun _ _ _ => False) E (HE _ _ _ H) H) as X. unfold spec in X.
    destruct ((let* _ := check_sane dbg in throw e) h' o'); auto.
Qed.
(** The block is another one, and the one before is freed. *)
Lemma expand_moves h o l R c n : INV h ((o, l) :: R) -> heapy o = true -> unique h o -> capacity h o = Ret c h o -> 0 <= n < limit -> slen l + n < 2 * limit -> c < slen l + n ->
  spec (expand_noinit dbg false mal n true) h o (fun p h' o' => StrProofs5.expanded dbg false mal 0 N l R n p h' o' /\ forall k, blk h' (c_data o) = Some k -> bk_live k = false) (KEEP o l R).
Proof.
  intros I HY U C Hn HL LT. eapply spec_and; [eapply expand_spec; [exact I|lia|lia]|]. intros p h' o' E.
  pose proof (expand_spec dbg false mal 0 N h o l R n true I) as SP. unfold spec in SP. rewrite E in SP. destruct SP as (u & I' & Lu & _ & U'); [lia|lia|].
  pose proof (keeps_expand dbg false mal n true _ _ _ _ _ E) as KP.
  destruct (Inv_head _ _ _ _ _ _ _ _ _ I) as (RP & _). destruct (rep_heapy _ _ _ RP HY) as (k & cap & HR). pose proof HR as (Bk & LV & LN & SZ & LE & _).
  destruct U as [U|(k1 & Bk1 & KD)]; [congruence|]. rewrite Bk in Bk1. injection Bk1 as <-.
  assert (CC : c = cap). { rewrite (capacity_heap _ _ _ _ _ HR) in C. injection C as C. destruct KD as [KD|KD]; rewrite KD in C; cbn in C; congruence. }
  assert (OW : owners (c_data o) R = 0).
  { pose proof (i_blk _ _ _ _ _ _ _ I _ _ Bk LV) as (_ & BO). rewrite owners_cons in BO. unfold owns in BO. rewrite HY, !Z.eqb_refl in BO. cbn [andb] in BO.
    pose proof (owners_nonneg (c_data o) R). destruct KD as [KD|KD]; rewrite KD in BO; lia. }
  destruct (Inv_head _ _ _ _ _ _ _ _ _ I') as (RP' & _).
  assert (NE : owns (c_data o) o' = false).
  { destruct (owns (c_data o) o') eqn:EO; [|reflexivity]. exfalso. unfold owns in EO. apply andb_prop in EO. destruct EO as (HY' & ED). apply Z.eqb_eq in ED.
    destruct (rep_heapy _ _ _ RP' HY') as (k' & cap' & (Bk' & _ & LN' & _ & LE' & _)). destruct (KP _ _ Bk) as (k2 & B2 & L2). rewrite ED, B2 in Bk'. injection Bk' as <-.
    rewrite slen_app in LE'. lia. }
  intros k' Bk'. destruct (bk_live k') eqn:LV'; [|reflexivity]. exfalso.
  pose proof (i_blk _ _ _ _ _ _ _ I' _ _ Bk' LV') as (_ & BO). rewrite owners_cons, NE, OW in BO. cbn in BO. destruct (bk_kind k') as [|r]; lia.
Qed.
Lemma write_blk p l h o h' o' b : write p l h o = Ret tt h' o' -> (forall k, blk h b = Some k -> bk_live k = false) -> forall k, blk h' b = Some k -> bk_live k = false.
Proof.
  intros E D k Bk. destruct p as [i|b1 i|x]; cbn [write] in E; [|destruct (blk h b1) as [k1|] eqn:B1; [|discriminate]|discriminate].
  - match type of E with context [if ?b then _ else _] => destruct b; [|discriminate] end. injection E as <- _. auto.
  - destruct (in_blk k1 i (slen l)) eqn:IB; [|discriminate]. injection E as <- _. rewrite (blk_upd _ _ _ _ _ B1) in Bk. destruct (Z.eqb_spec b1 b) as [->|]; [|auto].
    specialize (D _ B1). unfold in_blk in IB. rewrite D in IB. discriminate IB.
Qed.
Lemma insert_at_dies h o l R c pos off n : INV h ((o, l) :: R) -> good l -> heapy o = true -> unique h o -> capacity h o = Ret c h o -> 0 <= pos <= slen l -> 0 <= off -> 0 < n -> off + n <= slen l ->
  c < slen l + n -> dies (insert_at dbg false mal pos (ptr_add (data o) off) n) h o (KEEP o l R).
Proof.
  intros I Gl HY U C Hp Ho Hn Hl LT. pose proof (len_ok _ _ _ _ _ _ _ _ _ I) as LO. destruct (Inv_head _ _ _ _ _ _ _ _ _ I) as (RP & _).
  unfold insert_at. eapply dies_guarded; [exact RP| |intros e h' o' X; eapply Keep_settled; exact X].
  unfold dies at 1. unfold size_m. cbn [bnd this ret]. rewrite (size_ok _ _ _ _ _ _ _ _ _ I).
  match goal with |- match ?m h o with _ => _ end => change (dies m h o (KEEP o l R)) end.
  eapply dies_bnd; [apply (spec_assert_end _ _ _ _ (fun _ h' o' => h' = h /\ o' = o)); [apply andb_true_intro; split; apply Z.leb_le; lia|auto]|]. intros _ h0 o0 (-> & ->).
  eapply dies_bnd; [eapply expand_moves; try eassumption; lia|]. intros q h' o' ((u & I' & Lu & _ & U') & DEAD). specialize (U' ltac:(lia)).
  eapply dies_bnd; [eapply begin_spec; exact I'|]. intros p h2 o2 (I2 & U2 & -> & SE). destruct (SE U') as (-> & ->). clear SE.
  assert (RD : read (ptr_add (data o') pos) (slen l - pos) h' o' = Ret (piece pos (slen l - pos) l) h' o').
  { rewrite (own_read _ _ _ _ _ _ _ _ _ pos (slen l - pos) I2) by (slens; lia). f_equal. lists. }
  destruct (move_own _ _ _ _ _ h' o' (l ++ u) R (pos + n) _ _ _ I2 (or_introl U2) RD) as (h3 & o3 & W & I3 & D3 & _ & U3 & _);
    [slens; lia|apply good_piece; exact Gl|lia|slens; lia|].
  eapply dies_bnd; [unfold spec; rewrite W; exact (conj eq_refl eq_refl : (fun _ h' o' => h' = h3 /\ o' = o3) tt h3 o3)|]. intros _ h4 o4 (-> & ->).
  apply move_write in W. destruct W as (x & W). pose proof (write_blk _ _ _ _ _ _ _ W DEAD) as DEAD3.
  unfold pod_move. apply dies_bnd1. unfold dies. rewrite (data_heap _ HY). cbn [ptr_add read]. destruct (blk h3 (c_data o)) as [k|] eqn:Bk; [|exact Logic.I].
  unfold in_blk. rewrite (DEAD3 _ eq_refl). exact Logic.I.
Qed.
Lemma insert_dies h o l R c pos off n : INV h ((o, l) :: R) -> good l -> heapy o = true -> unique h o -> capacity h o = Ret c h o -> 0 <= pos <= slen l -> 0 <= off -> 0 < n -> off + n <= slen l ->
  c < slen l + n -> dies (insert dbg false mal pos (ptr_add (data o) off) n) h o (KEEP o l R).
Proof.
  intros I Gl HY U C Hp Ho Hn Hl LT.
  unfold insert. unfold dies at 1. unfold size_m. cbn [bnd this ret]. rewrite (size_ok _ _ _ _ _ _ _ _ _ I). unfold enforce.
  replace (pos <=? slen l) with true by (symmetry; apply Z.leb_le; lia). cbn [bnd ret].
  match goal with |- match ?m h o with _ => _ end => change (dies m h o (KEEP o l R)) end.
  eapply dies_bnd; [eapply begin_spec; exact I|]. intros p h2 o2 (I2 & U2 & -> & SE). destruct (SE U) as (-> & ->). clear SE.
  apply dies_bnd1. eapply insert_at_dies; eassumption.
Qed.
End G.
Lemma reach_insert_dies dbg mal (MS : mal_sane mal) n s ss i c cap l pos off k : StrStatements.reach dbg false mal 0 n s -> short n -> sees s ss -> sget (s_objs s) i = Some c -> sget ss i = Some l ->
  category c <> is_small -> is_shared (s_heap s) c = Ret false (s_heap s) c -> capacity (s_heap s) c = Ret cap (s_heap s) c ->
  0 <= pos <= slen l -> 0 <= off -> 0 < k -> off + k <= slen l -> cap < slen l + k ->
  match StrStatements.step dbg false mal 0 s (SOn i (UInsert pos (Piece i off k))) with
  | SUB _ => True
  | SThr e s' => e = BadAlloc /\ h_refused (s_heap s') = true
  | STerm h => h_refused h = true
  | _ => False
  end.
Proof.
  intros H SH SE Ec El CT UN C Hp Ho Hk Hl LT. pose proof (world_of dbg false mal 0 MS (eq_refl : ar_ok dbg false 0) n s ss H SH SE) as Ws. pose proof (World_clean _ _ _ _ _ _ _ _ Ws) as Wc.
  assert (BL : Forall is_char l) by (exact (w_bytes _ _ _ _ _ _ _ _ Ws _ _ El)).
  destruct (focus _ _ i c l (w_alike _ _ _ _ _ _ _ _ Wc) Ec El) as (R & P1 & _).
  pose proof (Inv_perm _ _ _ _ _ _ _ _ P1 (w_inv _ _ _ _ _ _ _ _ Wc)) as I.
  assert (HY : heapy c = true) by (unfold heapy; apply negb_true_iff, Z.eqb_neq; exact CT).
  pose proof (unshared_unique _ _ _ _ _ _ _ _ _ I (shared_clean _ _ _ UN)) as U.
  assert (C' : capacity (clean (s_heap s)) c = Ret cap (clean (s_heap s)) c) by (apply capacity_clean; exact C).
  pose proof (insert_dies _ _ _ _ c (map Some l) R cap pos off k I (good_map _ BL) HY U C') as X. rewrite slen_map in X. specialize (X Hp Ho Hk Hl LT).
  unfold StrStatements.step. cbn [sstep arg_of resolve s_objs]. rewrite Ec, Nat.eqb_refl. cbn [run_uop]. unfold on_obj. cbn [s_objs s_heap]. rewrite Ec.
  unfold dies in X. destruct (insert dbg false mal pos (ptr_add (data c) off) k (clean (s_heap s)) c) as [a h' o'|e h' o'|h'| |h']; try exact X.
  destruct X as (-> & RF & _). split; [reflexivity|exact RF].
Qed.

(** Behind the position and with all characters different, other text is taken. *)
Lemma taken_wrong (l : list Z) pos off k : NoDup l -> 0 <= pos < off -> 0 < k -> off + k <= slen l -> taken pos off k l <> piece off k l.
Proof.
  intros ND Hp Hk Hl E. apply (f_equal (map Some)) in E. rewrite map_taken, map_piece in E. set (x := map Some l) in *.
  set (m := Z.max 0 (Z.min k (pos + k - off))) in *. assert (Hm : 0 <= m < k) by lia. assert (0 <= off + m - k) by lia.
  assert (Lx : slen x = slen l) by (unfold x; apply slen_map).
  apply (f_equal (fun y => lget y m)) in E. unfold taken in E. fold m in E. rewrite lget_app in E by lia. rewrite slen_piece, Z.ltb_irrefl, Z.sub_diag in E by lia.
  rewrite !lget_piece in E by lia. rewrite Z.add_0_r in E.
  assert (NX : NoDup x) by (apply FinFun.Injective_map_NoDup; [intros a b F; congruence|exact ND]).
  unfold lget in E. unfold slen in *. apply (proj1 (NoDup_nth x None) NX) in E; lia.
Qed.
Lemma splice_inj {A} (l : list A) pos a b : splice pos 0 a l = splice pos 0 b l -> a = b.
Proof. unfold splice. intros E. apply app_inv_head in E. apply app_inv_tail in E. exact E. Qed.
Lemma reach_insert_wrong dbg arena mal ar (MS : mal_sane mal) (AO : ar_ok dbg arena ar) n s ss i c l pos off k s' : StrStatements.reach dbg arena mal ar n s -> short n -> sees s ss ->
  sget (s_objs s) i = Some c -> sget ss i = Some l -> NoDup l -> 0 <= pos < off -> 0 < k -> off + k <= slen l -> has_room dbg arena (s_heap s) c (slen l + k) ->
  StrStatements.step dbg arena mal ar s (SOn i (UInsert pos (Piece i off k))) = SRet s' -> ~ sees s' (sset i (Some (splice pos 0 (piece off k l) l)) ss).
Proof.
  intros H SH SE Ec El ND Hp Hk Hl RM E BAD. assert (off <= slen l) by lia.
  pose proof (reach_insert_taken dbg arena mal ar MS AO n s ss i c l pos off k H SH SE Ec El ltac:(lia) ltac:(lia) ltac:(lia) Hl RM) as G. rewrite E in G. cbn [gives] in G.
  pose proof (sees_fun _ _ _ G BAD) as X. apply (f_equal (fun v => sget v i)) in X. rewrite !(sget_sset_eq _ _ _ _ El) in X. injection X as X.
  apply splice_inj in X. exact (taken_wrong l pos off k ND Hp Hk Hl X).
Qed.
Lemma taken_behind {A} (l : list A) pos off k : 0 <= k -> pos + k <= off -> taken pos off k l = piece (off - k) k l.
Proof. intros. unfold taken. replace (Z.max 0 (Z.min k (pos + k - off))) with 0 by lia. replace (piece off 0 l) with (@nil A) by reflexivity. rewrite Z.add_0_r, Z.sub_0_r. reflexivity. Qed.
End Wide.
