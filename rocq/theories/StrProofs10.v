(** Arena strings never use realloc, so no operation on them marks a failed one. *)
Require Import ZArith List Bool Lia.
From Verif Require Import Base BaseProofs StrSpec StrModel StrStatements.
Import ListNotations.
Open Scope Z_scope.


Section Wide.
Context {ChT : CharType}.

Definition calm {A} (m : M A) : Prop := forall h o,
  match m h o with
  | Ret _ h' _ | Thr _ h' _ | Term h' | UB h' => h_rfail h' = h_rfail h
  | AFail => True
  end.

Lemma calm_ret {A} (a : A) : calm (ret a). Proof. intros h o. reflexivity. Qed.
Lemma calm_bnd {A B} (m : M A) (f : A -> M B) : calm m -> (forall a, calm (f a)) -> calm (bnd m f).
Proof.
  intros H F h o. unfold bnd. specialize (H h o). destruct (m h o) as [a h1 o1|e h1 o1|h1| |h1]; try exact H.
  specialize (F a h1 o1). destruct (f a h1 o1); try exact Logic.I; congruence.
Qed.
Lemma calm_throw {A} e : calm (@throw A e). Proof. intros h o. reflexivity. Qed.
Lemma calm_undef {A} : calm (@undef A). Proof. intros h o. reflexivity. Qed.
Lemma calm_this : calm this. Proof. intros h o. reflexivity. Qed.
Lemma calm_put c : calm (put c). Proof. intros h o. reflexivity. Qed.
Lemma calm_heap_of : calm heap_of. Proof. intros h o. reflexivity. Qed.
Lemma calm_noexc {A} (m : M A) : calm m -> calm (noexc m).
Proof. intros H h o. specialize (H h o). unfold noexc. destruct (m h o); exact H. Qed.
Lemma calm_if {A} (b : bool) (m m' : M A) : calm m -> calm m' -> calm (if b then m else m').
Proof. destruct b; auto. Qed.
Lemma calm_opt {A B} (x : option B) (f : B -> M A) (m : M A) : (forall b, calm (f b)) -> calm m -> calm (match x with Some b => f b | None => m end).
Proof. destruct x; auto. Qed.
Lemma calm_read p n : calm (read p n).
Proof. intros h o. unfold read. destruct p; [destruct (_ && _)|destruct (blk h b) as [k|]; [destruct (in_blk k off n)|]|destruct (_ && _)]; reflexivity. Qed.
Lemma calm_write p l : calm (write p l).
Proof. intros h o. unfold write. destruct p; [destruct (_ && _)|destruct (blk h b) as [k|]; [destruct (in_blk k off _)|]|]; reflexivity. Qed.
Lemma calm_fill p n c : calm (fill p n c).
Proof.
  intros h o. unfold fill. match goal with |- context [if ?b then _ else _] => destruct b; [|reflexivity] end. apply calm_write.
Qed.
Lemma calm_assert dbg c : calm (assertM dbg c).
Proof. unfold assertM. destruct (dbg && negb c); [intros h o; exact Logic.I|apply calm_ret]. Qed.
Lemma calm_free a c b n : calm (free_block a c b n).
Proof. intros h o. unfold free_block. destruct (blk h b); [destruct (_ && _)|]; reflexivity. Qed.
Lemma calm_refs b : calm (refs b).
Proof. intros h o. unfold refs. destruct (blk h b) as [k|]; [destruct (bk_live k), (bk_kind k)|]; reflexivity. Qed.
Lemma calm_set_refs b r : calm (set_refs b r).
Proof. intros h o. unfold set_refs. destruct (blk h b) as [k|]; [destruct (bk_live k), (bk_kind k)|]; reflexivity. Qed.

Ltac calms := repeat first
  [ solve [auto with calm]
  | match goal with
    | |- calm (bnd _ _) => apply calm_bnd; [|intros]
    | |- calm (noexc _) => apply calm_noexc
    | |- calm (if _ then _ else _) => apply calm_if
    | |- calm (match ?x with (_, _) => _ end) => destruct x
    | |- calm (match ?x with Some _ => _ | None => _ end) => destruct x
    | |- calm (let x := _ in _) => cbv zeta
    end ].
Hint Resolve calm_ret calm_throw calm_undef calm_this calm_put calm_heap_of calm_read calm_write calm_fill calm_assert calm_free calm_refs calm_set_refs : calm.

Section Calm.
Variables (dbg : bool) (mal : nat -> Z -> bool) (ar : Z).
Notation arena := true.

Lemma calm_alloc k b : calm (alloc dbg arena mal k b).
Proof. intros h o. unfold alloc. destruct (_ && _); [reflexivity|]. destruct (mal _ _); reflexivity. Qed.
Hint Resolve calm_alloc : calm.
Lemma calm_pod_copy p q n : calm (pod_copy dbg p q n). Proof. unfold pod_copy. calms. Qed.
Lemma calm_pod_move p q n : calm (pod_move p q n). Proof. unfold pod_move. calms. Qed.
Hint Resolve calm_pod_copy calm_pod_move : calm.
Lemma calm_inc b : calm (increment_refs b). Proof. unfold increment_refs. calms. Qed.
Lemma calm_dec a al b n : calm (decrement_refs dbg a al b n). Proof. unfold decrement_refs. calms. Qed.
Hint Resolve calm_inc calm_dec : calm.
Lemma calm_create n : calm (create dbg arena mal n). Proof. unfold create. calms. Qed.
Hint Resolve calm_create : calm.
Lemma calm_create_from p n : calm (create_from dbg arena mal p n). Proof. unfold create_from. calms. Qed.
Hint Resolve calm_create_from : calm.
Lemma calm_move_block b c n : calm (move_block dbg arena mal b c n). Proof. unfold move_block. calms. Qed.
Hint Resolve calm_move_block : calm.
Lemma calm_smart_realloc hdr b c1 c2 n : calm (smart_realloc dbg arena mal hdr b c1 c2 n).
Proof. unfold smart_realloc. calms. Qed.
Hint Resolve calm_smart_realloc : calm.
Lemma calm_reallocate b c1 c2 n : calm (reallocate dbg arena mal b c1 c2 n). Proof. unfold reallocate. calms. Qed.
Hint Resolve calm_reallocate : calm.
Lemma calm_small_size : calm (small_size dbg). Proof. unfold small_size. calms. Qed.
Lemma calm_set_small_size n : calm (set_small_size dbg n). Proof. unfold set_small_size. calms. Qed.
Hint Resolve calm_small_size calm_set_small_size : calm.
Lemma calm_reset : calm (reset dbg). Proof. unfold reset. calms. Qed.
Hint Resolve calm_reset : calm.
Lemma calm_init_default : calm (init_default dbg arena). Proof. unfold init_default. calms. Qed.
Hint Resolve calm_init_default : calm.
Lemma calm_capacity : calm capacity. Proof. unfold capacity. calms. Qed.
Lemma calm_is_shared : calm is_shared. Proof. unfold is_shared. calms. Qed.
Hint Resolve calm_capacity calm_is_shared : calm.
Lemma calm_destroy c : calm (destroy dbg arena c). Proof. unfold destroy. calms. Qed.
Hint Resolve calm_destroy : calm.
Lemma calm_on {A} t (m : M A) : calm m -> calm (on dbg arena t m).
Proof.
  intros H h o. unfold on. specialize (H h t). destruct (m h t) as [a h1 o1|e h1 o1|h1| |h1]; try exact H.
  pose proof (calm_destroy o1 h1 o) as D. destruct (destroy dbg arena o1 h1 o); try exact Logic.I; congruence.
Qed.
Lemma calm_build {A} al (m : M A) : calm m -> calm (build al m).
Proof. intros H h o. unfold build. specialize (H h (blank al)). destruct (m h (blank al)); exact H. Qed.
Hint Resolve calm_on calm_build : calm.
Lemma calm_swap_destroy t : calm (swap_destroy dbg arena t). Proof. unfold swap_destroy. calms. Qed.
Lemma calm_init_small p n : calm (init_small dbg p n). Proof. unfold init_small. calms. Qed.
Lemma calm_init_medium p n : calm (init_medium dbg arena mal p n). Proof. unfold init_medium. calms. Qed.
Lemma calm_init_large p n : calm (init_large dbg arena mal p n). Proof. unfold init_large. calms. Qed.
Lemma calm_assert_same p n : calm (assert_same dbg p n). Proof. unfold assert_same. calms. Qed.
Hint Resolve calm_swap_destroy calm_init_small calm_init_medium calm_init_large calm_assert_same : calm.
Lemma calm_init_core p n : calm (init_core dbg arena mal p n). Proof. unfold init_core. calms. Qed.
Lemma calm_copy_medium c : calm (copy_medium dbg arena mal c). Proof. unfold copy_medium. calms. Qed.
Hint Resolve calm_init_core calm_copy_medium : calm.
Lemma calm_copy_core c : calm (copy_core dbg arena mal c). Proof. unfold copy_core. calms. Qed.
Lemma calm_unshare n : calm (unshare dbg arena mal n). Proof. unfold unshare. calms. Qed.
Hint Resolve calm_copy_core calm_unshare : calm.
Lemma calm_mutable_data : calm (mutable_data dbg arena mal). Proof. unfold mutable_data. calms. Qed.
Lemma calm_reserve_large n : calm (reserve_large dbg arena mal n). Proof. unfold reserve_large. calms. Qed.
Lemma calm_reserve_small n : calm (reserve_small dbg arena mal n). Proof. unfold reserve_small. calms. Qed.
Hint Resolve calm_mutable_data calm_reserve_large calm_reserve_small : calm.
Lemma calm_reserve_medium n : calm (reserve_medium dbg arena mal n).
Proof. unfold reserve_medium. calms. apply calm_on. calms. Qed.
Hint Resolve calm_reserve_medium : calm.
Lemma calm_reserve n : calm (reserve dbg arena mal n). Proof. unfold reserve. calms. Qed.
Hint Resolve calm_reserve : calm.
Lemma calm_expand d e : calm (expand_noinit dbg arena mal d e). Proof. unfold expand_noinit. calms. Qed.
Hint Resolve calm_expand : calm.
Lemma calm_push_back c : calm (push_back dbg arena mal c). Proof. unfold push_back. calms. Qed.
Lemma calm_shrink_medium d : calm (shrink_medium dbg d). Proof. unfold shrink_medium. calms. Qed.
Hint Resolve calm_push_back calm_shrink_medium : calm.
Lemma calm_shrink d : calm (shrink dbg arena mal d). Proof. unfold shrink. calms. Qed.
Lemma calm_check : calm (check_sane dbg). Proof. unfold check_sane. calms. Qed.
Hint Resolve calm_shrink calm_check : calm.
Lemma calm_guarded {A} (m : M A) : calm m -> calm (guarded dbg m).
Proof.
  intros H. unfold guarded. apply calm_bnd; [apply calm_check|]. intros _ h o. specialize (H h o).
  destruct (m h o) as [a h1 o1|e h1 o1|h1| |h1]; try exact H.
  - assert (X : calm (let* _ := check_sane dbg in ret a)) by calms. specialize (X h1 o1). destruct ((let* _ := check_sane dbg in ret a) h1 o1); try exact Logic.I; congruence.
  - assert (X : calm (let* _ := check_sane dbg in @throw A e)) by calms. specialize (X h1 o1). destruct ((let* _ := check_sane dbg in @throw A e) h1 o1); try exact Logic.I; congruence.
Qed.
Lemma calm_enforce c : calm (enforce c). Proof. unfold enforce. calms. Qed.
Lemma calm_size_m : calm size_m. Proof. unfold size_m. calms. Qed.
Lemma calm_begin : calm (begin_ dbg arena mal). Proof. unfold begin_. calms. Qed.
Hint Resolve calm_enforce calm_size_m calm_begin : calm.
Ltac calmg := calms; try (apply calm_guarded; calms).
Lemma calm_resize n c : calm (resize dbg arena mal n c). Proof. unfold resize. calmg. Qed.
Lemma calm_append p n : calm (append dbg arena mal p n). Proof. unfold append. calmg. Qed.
Hint Resolve calm_resize calm_append : calm.
Lemma calm_append_str p n : calm (append_str dbg arena mal p n). Proof. unfold append_str. calms. Qed.
Lemma calm_append_n n c : calm (append_n dbg arena mal n c). Proof. unfold append_n. calmg. Qed.
Lemma calm_pop_back : calm (pop_back dbg arena mal). Proof. unfold pop_back. calms. Qed.
Lemma calm_assign p n : calm (assign dbg arena mal p n). Proof. unfold assign. calmg. Qed.
Lemma calm_erase p n : calm (erase dbg arena mal p n). Proof. unfold erase. calmg. Qed.
Lemma calm_insert_n_at p n c : calm (insert_n_at dbg arena mal p n c). Proof. unfold insert_n_at. calmg. Qed.
Lemma calm_insert_at p s n : calm (insert_at dbg arena mal p s n). Proof. unfold insert_at. calmg. Qed.
Hint Resolve calm_append_str calm_append_n calm_pop_back calm_assign calm_erase calm_insert_n_at calm_insert_at : calm.
Lemma calm_insert p s n : calm (insert dbg arena mal p s n). Proof. unfold insert. calms. Qed.
Lemma calm_insert_n p n c : calm (insert_n dbg arena mal p n c). Proof. unfold insert_n. calms. Qed.
Lemma calm_append_range s n : calm (append_range dbg arena mal s n). Proof. unfold append_range. calms. Qed.
Lemma calm_push_all l : calm (push_all dbg arena mal l). Proof. induction l; cbn [push_all]; calms. Qed.
Hint Resolve calm_insert calm_insert_n calm_append_range calm_push_all : calm.
Lemma calm_insert_input p l : calm (insert_input dbg arena mal p l). Proof. unfold insert_input. calms. apply calm_on. calms. Qed.
Lemma calm_erase_range p n : calm (erase_range dbg arena mal p n). Proof. unfold erase_range. calms. Qed.
Lemma calm_assert_sane : calm (assert_sane dbg). Proof. unfold assert_sane. calms. Qed.
Hint Resolve calm_insert_input calm_erase_range calm_assert_sane : calm.
Lemma calm_replace_at p n s m : calm (replace_at dbg arena mal p n s m).
Proof. unfold replace_at. apply calm_guarded. calms; try (apply calm_on; calms); apply calm_build; calms. Qed.
Hint Resolve calm_replace_at : calm.
Lemma calm_replace p n s m : calm (replace dbg arena mal p n s m). Proof. unfold replace. calmg. Qed.
Lemma calm_replace_n_at p n m c : calm (replace_n_at dbg arena mal p n m c). Proof. unfold replace_n_at. calms. Qed.
Hint Resolve calm_replace calm_replace_n_at : calm.
Lemma calm_replace_n p n m c : calm (replace_n dbg arena mal p n m c). Proof. unfold replace_n. calmg. Qed.
Lemma calm_assign_n n c : calm (assign_n dbg arena mal n c). Proof. unfold assign_n. calms. Qed.
Lemma calm_replace_input p n l : calm (replace_input dbg arena mal p n l). Proof. unfold replace_input. calms. apply calm_on. calms. Qed.
Lemma calm_init_n n c : calm (init_n dbg arena mal n c). Proof. unfold init_n. calms. Qed.
Hint Resolve calm_replace_n calm_assign_n calm_replace_input calm_init_n : calm.
Lemma calm_assign_char c : calm (assign_char dbg arena mal c). Proof. unfold assign_char. calmg. Qed.
Lemma calm_shrink_to_fit : calm (shrink_to_fit dbg arena mal). Proof. unfold shrink_to_fit. calms. Qed.
Lemma calm_set_at i c : calm (set_at dbg arena mal i c). Proof. unfold set_at. calms. Qed.
Hint Resolve calm_assign_char calm_shrink_to_fit calm_set_at : calm.
Lemma calm_set_at_checked i c : calm (set_at_checked dbg arena mal i c). Proof. unfold set_at_checked. calms. Qed.
Lemma calm_set_back c : calm (set_back dbg arena mal c). Proof. unfold set_back. calms. Qed.
Lemma calm_clone_from c : calm (clone_from dbg arena mal c). Proof. unfold clone_from. calms. Qed.
Hint Resolve calm_set_at_checked calm_set_back calm_clone_from : calm.
Lemma calm_run_uop o s n : calm (run_uop dbg arena mal o s n).
Proof. destruct o; cbn [run_uop]; calms. Qed.

(** ** Systems *)
Definition scalm (h : heap) (r : sout) : Prop :=
  match r with
  | SRet s' | SThr _ s' => h_rfail (s_heap s') = h_rfail h
  | STerm h' | SUB h' => h_rfail h' = h_rfail h
  | SAFail => True
  end.
Lemma scalm_on_obj s i m : calm m -> scalm (s_heap s) (on_obj s i m).
Proof.
  intros H. unfold on_obj. destruct (sget (s_objs s) i) as [c|]; [|reflexivity]. specialize (H (s_heap s) c). destruct (m (s_heap s) c); exact H.
Qed.
Lemma scalm_new_obj s al m : calm m -> scalm (s_heap s) (new_obj s al m).
Proof. intros H. unfold new_obj. specialize (H (s_heap s) (blank al)). destruct (m (s_heap s) (blank al)); exact H. Qed.
Lemma scalm_move_out s j : scalm (s_heap s) (move_out dbg s j).
Proof.
  unfold move_out. destruct (sget (s_objs s) j) as [c|]; [|reflexivity]. pose proof (calm_reset (s_heap s) c) as H.
  destruct (reset dbg (s_heap s) c); try reflexivity; exact H.
Qed.
Lemma scalm_then_move h r j : scalm h r -> scalm h (then_move dbg r j).
Proof.
  intros H. destruct r as [s'|e s'|h'| |h']; cbn [then_move scalm] in *; try exact H.
  pose proof (scalm_move_out s' j) as X. destruct (move_out dbg s' j); cbn [scalm] in *; try exact X; congruence.
Qed.
Lemma scalm_obj s j f : (forall c, scalm (s_heap s) (f c)) -> scalm (s_heap s) (obj s j f).
Proof. intros H. unfold obj. destruct (sget (s_objs s) j); [apply H|reflexivity]. Qed.
Lemma calm_local init al m : calm init -> calm m -> calm (local_from dbg arena init al m).
Proof. intros. unfold local_from. calms. Qed.
Lemma calm_new_local al m : calm m -> calm (new_local dbg arena al m).
Proof. intros. apply calm_local; calms. Qed.
Lemma scalm_step s o : scalm (s_heap s) (sstep dbg arena mal ar s o).
Proof.
  destruct o; cbn [sstep];
    repeat match goal with
    | |- scalm _ (obj _ _ _) => apply scalm_obj; intros
    | |- scalm _ (new_obj _ _ _) => apply scalm_new_obj
    | |- scalm _ (then_move _ _ _) => apply scalm_then_move
    | |- scalm _ (on_obj _ _ _) => apply scalm_on_obj
    | |- scalm _ (move_out _ _ _) => apply scalm_move_out
    end;
    try (solve [calms]); try (solve [apply calm_local; calms]);
    try (solve [unfold plus_str, plus_cl, plus_hl, plus_cr, plus_hr; apply calm_new_local; calms]);
    try (solve [apply calm_guarded; calms]).
  - unfold cap_in. destruct (capacity (s_heap s) c0); try reflexivity.
    match goal with |- context [if ?b then _ else _] => destruct b end;
    repeat first [apply scalm_new_obj | apply scalm_then_move | apply scalm_on_obj]; [calms|unfold plus_str; apply calm_new_local; calms].
  - unfold cap_in. destruct (capacity (s_heap s) c); try reflexivity.
    match goal with |- context [if ?b then _ else _] => destruct b end;
    repeat first [apply scalm_new_obj | apply scalm_then_move | apply scalm_on_obj]; [calms|unfold plus_cl; apply calm_new_local; calms].
  - unfold cap_in. destruct (capacity (s_heap s) c0); try reflexivity.
    match goal with |- context [if ?b then _ else _] => destruct b end;
    repeat first [apply scalm_new_obj | apply scalm_then_move | apply scalm_on_obj]; [calms|unfold plus_hl; apply calm_new_local; calms].
  - destruct (i =? j)%nat; [reflexivity|]. pose proof (calm_destroy c (s_heap s) c) as D.
    destruct (destroy dbg arena c (s_heap s) c) as [a h1 o1|e h1 o1|h1| |h1]; try exact D.
    pose proof (calm_reset h1 c0) as D1. destruct (reset dbg h1 c0); try reflexivity; try exact Logic.I. cbn [scalm s_heap]. congruence.
  - reflexivity.
  - pose proof (calm_destroy c (s_heap s) c) as D. destruct (destroy dbg arena c (s_heap s) c) as [a h1 o1|e h1 o1|h1| |h1]; exact D.
  - destruct (resolve s i (arg_of o)) as [(p, n)|]; [|reflexivity]. apply scalm_on_obj, calm_run_uop.
Qed.
End Calm.
End Wide.
