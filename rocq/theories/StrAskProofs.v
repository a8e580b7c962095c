(** Every function of arena_string decides what to do next on the answers to
    its requests so far: it is a tree of requests. *)
Require Import ZArith List Bool Lia.
From Verif Require Import Base BaseProofs ArenaSpec StrSpec StrModel StrStatements StrArenaModel.
Import ListNotations.
Open Scope Z_scope.
#[local] Existing Instance Char8.

Inductive tree (X : Type) := Done (x : X) | Ask (n : Z) (yes no : tree X).
Arguments Done {X}. Arguments Ask {X}.
Fixpoint walk {X} (mal : nat -> Z -> bool) (k : nat) (t : tree X) : X :=
  match t with
  | Done x => x
  | Ask n y f => walk mal (S k) (if mal k n then y else f)
  end.
(** Blocks got (bytes), requests made, whether one was refused. *)
Record sig := { g_bytes : list Z; g_calls : nat; g_refused : bool }.
Definition sg (h : heap) : sig := {| g_bytes := map bytes (h_blocks h); g_calls := h_calls h; g_refused := h_refused h |}.
Definition yes_ (s : sig) (n : Z) : sig := {| g_bytes := g_bytes s ++ [n]; g_calls := S (g_calls s); g_refused := g_refused s |}.
Definition no_ (s : sig) : sig := {| g_bytes := g_bytes s; g_calls := S (g_calls s); g_refused := true |}.
Fixpoint tree_ok {X} (f : X -> option sig) (s : sig) (t : tree X) : Prop :=
  match t with
  | Done x => match f x with Some s' => s' = s | None => True end
  | Ask n y g => tree_ok f (yes_ s n) y /\ tree_ok f (no_ s) g
  end.
Definition askd {X} (f : X -> option sig) (s : sig) (F : (nat -> Z -> bool) -> X) : Prop :=
  exists t, tree_ok f s t /\ forall mal, F mal = walk mal (g_calls s) t.

Definition so {A} (x : out A) : option sig :=
  match x with Ret _ h _ | Thr _ h _ | Term h | UB h => Some (sg h) | AFail => None end.
Definition asks {A} (m : (nat -> Z -> bool) -> M A) : Prop := forall h o, askd so (sg h) (fun mal => m mal h o).

Lemma askd_done {X} (f : X -> option sig) s x : (forall s', f x = Some s' -> s' = s) -> askd f s (fun _ => x).
Proof. intros H. exists (Done x). split; [|reflexivity]. cbn. destruct (f x); [apply H; reflexivity|exact Logic.I]. Qed.
Lemma askd_ext {X} (f : X -> option sig) s F G : (forall mal, F mal = G mal) -> askd f s F -> askd f s G.
Proof. intros E (t & T & W). exists t. split; [exact T|]. intros. rewrite <- E. apply W. Qed.
Lemma askd_bind {X Y} (f : X -> option sig) (g : Y -> option sig) s F (G : (nat -> Z -> bool) -> X -> Y) :
  askd f s F ->
  (forall x, match f x with Some s' => askd g s' (fun mal => G mal x) | None => exists y, g y = None /\ forall mal, G mal x = y end) ->
  askd g s (fun mal => G mal (F mal)).
Proof.
  intros (t & T & W) H. apply (askd_ext g s (fun mal => G mal (walk mal (g_calls s) t))); [intros; rewrite W; reflexivity|].
  clear F W. revert s T. induction t as [x|n y IHy no IHn]; intros s T.
  - cbn in *. specialize (H x). destruct (f x) as [s'|].
    + subst s'. exact H.
    + destruct H as (z & E & V). exists (Done z). split; [cbn; rewrite E; exact Logic.I|]. intros. apply V.
  - destruct T as [Ty Tn]. destruct (IHy _ Ty) as (ty & Oy & Wy). destruct (IHn _ Tn) as (tn & On & Wn).
    exists (Ask n ty tn). split; [split; assumption|]. intros mal. cbn. destruct (mal (g_calls s) n); [apply Wy|apply Wn].
Qed.

Lemma asks_bnd {A B} (m : (nat -> Z -> bool) -> M A) (f : (nat -> Z -> bool) -> A -> M B) :
  asks m -> (forall a, asks (fun mal => f mal a)) -> asks (fun mal => bnd (m mal) (f mal)).
Proof.
  intros H1 H2 h o. unfold bnd.
  apply (askd_bind so so (sg h) (fun mal => m mal h o) (fun mal x => match x with
  | Ret a h1 o1 => f mal a h1 o1 | Thr e h1 o1 => Thr e h1 o1 | Term h1 => Term h1 | AFail => AFail | UB h1 => UB h1 end)).
  - apply H1.
  - intros [a h1 o1|x h1 o1|h1| |h1]; cbn.
    + apply H2.
    + apply askd_done. intros s' E. injection E as <-. reflexivity.
    + apply askd_done. intros s' E. injection E as <-. reflexivity.
    + exists AFail. split; reflexivity.
    + apply askd_done. intros s' E. injection E as <-. reflexivity.
Qed.
(** Functions that ask for nothing. *)
Definition calm {A} (m : M A) : Prop := forall h o, match so (m h o) with Some s => s = sg h | None => True end.
Lemma asks_calm {A} (m : M A) : calm m -> asks (fun _ => m).
Proof. intros H h o. apply askd_done. intros s' E. specialize (H h o). rewrite E in H. exact H. Qed.
Lemma asks_if {A} (c : bool) (a b : (nat -> Z -> bool) -> M A) : asks a -> asks b -> asks (fun mal => if c then a mal else b mal).
Proof. destruct c; auto. Qed.
Lemma calm_if {A} (c : bool) (a b : M A) : calm a -> calm b -> calm (if c then a else b).
Proof. destruct c; auto. Qed.
Lemma calm_bnd {A B} (m : M A) (f : A -> M B) : calm m -> (forall a, calm (f a)) -> calm (bnd m f).
Proof.
  intros H1 H2 h o. specialize (H1 h o). unfold bnd. destruct (m h o) as [a h1 o1|x h1 o1|h1| |h1]; cbn in *; try exact H1.
  specialize (H2 a h1 o1). destruct (so (f a h1 o1)); [congruence|exact Logic.I].
Qed.
Lemma asks_noexc {A} (m : (nat -> Z -> bool) -> M A) : asks m -> asks (fun mal => noexc (m mal)).
Proof.
  intros H h o. unfold noexc.
  apply (askd_bind so so (sg h) (fun mal => m mal h o) (fun mal x => match x with Ret a h1 o1 => Ret a h1 o1 | Thr _ h1 _ => Term h1 | Term h1 => Term h1 | AFail => AFail | UB h1 => UB h1 end)); [apply H|].
  intros [a h1 o1|x h1 o1|h1| |h1]; cbn; try (apply askd_done; intros s' E; injection E as <-; reflexivity). exists AFail. split; reflexivity.
Qed.
Lemma calm_noexc {A} (m : M A) : calm m -> calm (noexc m).
Proof. intros H h o. specialize (H h o). unfold noexc. destruct (m h o); exact H. Qed.

Lemma calm_ret {A} (a : A) : calm (ret a). Proof. intros h o. reflexivity. Qed.
Lemma calm_throw {A} x : calm (@throw A x). Proof. intros h o. reflexivity. Qed.
Lemma calm_undef {A} : calm (@undef A). Proof. intros h o. reflexivity. Qed.
Lemma calm_this : calm this. Proof. intros h o. reflexivity. Qed.
Lemma calm_put c : calm (put c). Proof. intros h o. reflexivity. Qed.
Lemma calm_heap_of : calm heap_of. Proof. intros h o. reflexivity. Qed.
Lemma calm_assert dbg c : calm (assertM dbg c). Proof. intros h o. unfold assertM. destruct (dbg && negb c); reflexivity || exact Logic.I. Qed.
Lemma calm_read p n : calm (read p n).
Proof. intros h o. unfold read. destruct p as [off|b off|l]; [destruct (_ && _)|destruct (blk h b) as [k|]; [destruct (in_blk k off n)|]|destruct (_ && _)]; reflexivity. Qed.
Lemma sset_map {X Y} (f : X -> Y) n x l k : nth_error l n = Some k -> f x = f k -> map f (sset n x l) = map f l.
Proof. revert n. induction l as [|y l IH]; intros [|n] E F; cbn in *; try discriminate; f_equal; [congruence|]. apply IH; assumption. Qed.
Lemma sg_upd h b k k' : blk h b = Some k -> bytes k' = bytes k -> sg (upd_blk h b k') = sg h.
Proof.
  intros E F. unfold sg, upd_blk. cbn. f_equal. unfold blk in E. destruct (b <? 0); [discriminate|]. eapply sset_map; eassumption.
Qed.
Lemma calm_write p l : calm (write p l).
Proof.
  intros h o. unfold write. destruct p as [off|b off|x]; [destruct (_ && _); reflexivity| |reflexivity].
  destruct (blk h b) as [k|] eqn:E; [|reflexivity]. destruct (in_blk k off (slen l)); [|reflexivity]. cbn. eapply sg_upd; [exact E|reflexivity].
Qed.
Lemma calm_fill p n c : calm (fill p n c).
Proof. intros h o. unfold fill. match goal with |- context [if ?b then _ else _] => destruct b; [apply calm_write|reflexivity] end. Qed.
Lemma calm_free arena c b n : calm (free_block arena c b n).
Proof.
  intros h o. unfold free_block. destruct (blk h b) as [k|] eqn:E; [|reflexivity]. match goal with |- context [if ?b then _ else _] => destruct b end; [|reflexivity].
  cbn. eapply sg_upd; [exact E|reflexivity].
Qed.
Lemma calm_refs b : calm (refs b).
Proof. intros h o. unfold refs. destruct (blk h b) as [k|]; [|reflexivity]. destruct (bk_live k), (bk_kind k); reflexivity. Qed.
Lemma calm_set_refs b r : calm (set_refs b r).
Proof.
  intros h o. unfold set_refs. destruct (blk h b) as [k|] eqn:E; [|reflexivity]. destruct (bk_live k) eqn:L, (bk_kind k) eqn:K; try reflexivity.
  cbn. eapply sg_upd; [exact E|]. unfold bytes. cbn. rewrite K. reflexivity.
Qed.

Ltac calm1 := match goal with
  | |- calm (bnd _ _) => apply calm_bnd; [|intros]
  | |- calm (if _ then _ else _) => apply calm_if
  | |- calm (match ?x with pair _ _ => _ end) => destruct x
  | |- calm (noexc _) => apply calm_noexc
  | |- calm (ret _) => apply calm_ret
  | |- calm (throw _) => apply calm_throw
  | |- calm undef => apply calm_undef
  | |- calm this => apply calm_this
  | |- calm (put _) => apply calm_put
  | |- calm heap_of => apply calm_heap_of
  | |- calm (assertM _ _) => apply calm_assert
  | |- calm (read _ _) => apply calm_read
  | |- calm (write _ _) => apply calm_write
  | |- calm (fill _ _ _) => apply calm_fill
  | |- calm (free_block _ _ _ _) => apply calm_free
  | |- calm (refs _) => apply calm_refs
  | |- calm (set_refs _ _) => apply calm_set_refs
  | |- calm _ => solve [auto with calm nocore]
  end.
Ltac calmt := intros; repeat calm1.
Create HintDb calm discriminated.

Lemma calm_pod_copy dbg p q n : calm (pod_copy dbg p q n). Proof. unfold pod_copy. calmt. Qed.
Lemma calm_pod_move p q n : calm (pod_move p q n). Proof. unfold pod_move. calmt. Qed.
#[export] Hint Resolve calm_pod_copy calm_pod_move : calm.
Lemma calm_inc b : calm (increment_refs b). Proof. unfold increment_refs. calmt. Qed.
Lemma calm_dec dbg ar al b n : calm (decrement_refs dbg ar al b n). Proof. unfold decrement_refs. calmt. Qed.
Lemma calm_small_size dbg : calm (small_size dbg). Proof. unfold small_size. calmt. Qed.
Lemma calm_set_small dbg n : calm (set_small_size dbg n). Proof. unfold set_small_size. calmt. Qed.
#[export] Hint Resolve calm_inc calm_dec calm_small_size calm_set_small : calm.
Lemma calm_reset dbg : calm (reset dbg). Proof. unfold reset. calmt. Qed.
#[export] Hint Resolve calm_reset : calm.
Lemma calm_init_default dbg ar : calm (init_default dbg ar). Proof. unfold init_default. calmt. Qed.
Lemma calm_capacity : calm capacity. Proof. unfold capacity. calmt. Qed.
Lemma calm_is_shared : calm is_shared. Proof. unfold is_shared. calmt. Qed.
Lemma calm_destroy dbg ar c : calm (destroy dbg ar c). Proof. unfold destroy. calmt. Qed.
#[export] Hint Resolve calm_init_default calm_capacity calm_is_shared calm_destroy : calm.
Lemma calm_init_small dbg p n : calm (init_small dbg p n). Proof. unfold init_small. calmt. Qed.
Lemma calm_assert_same dbg q n : calm (assert_same dbg q n). Proof. unfold assert_same. calmt. Qed.
Lemma calm_swap_destroy dbg ar t : calm (swap_destroy dbg ar t). Proof. unfold swap_destroy. calmt. Qed.
Lemma calm_check_sane dbg : calm (check_sane dbg). Proof. unfold check_sane. calmt. Qed.
Lemma calm_enforce c : calm (enforce c). Proof. unfold enforce. calmt. Qed.
Lemma calm_size_m : calm size_m. Proof. unfold size_m. calmt. Qed.
Lemma calm_shrink_medium dbg d : calm (shrink_medium dbg d). Proof. unfold shrink_medium. calmt. Qed.
#[export] Hint Resolve calm_init_small calm_assert_same calm_swap_destroy calm_check_sane calm_enforce calm_size_m calm_shrink_medium : calm.

(** ** Requests *)
Lemma asks_alloc dbg kind n : asks (fun mal => alloc dbg true mal kind n).
Proof.
  intros h o. unfold alloc. destruct (true && dbg && (c_al o =? 0)); [apply askd_done; intros s' E; injection E as <-; reflexivity|].
  eexists (Ask n (Done _) (Done _)). split; cycle 1.
  - intros mal. cbn [walk g_calls sg]. destruct (mal (h_calls h) n); reflexivity.
  - split.
    + cbn. unfold sg, yes_. cbn. rewrite map_app. cbn. unfold bytes at 2. cbn. rewrite Z.div_1_r, Z.add_comm, Z.sub_add. reflexivity.
    + reflexivity.
Qed.
Create HintDb asks discriminated.
#[export] Hint Resolve asks_alloc : asks.
Lemma asks_on {A} dbg t (m : (nat -> Z -> bool) -> M A) : asks m -> asks (fun mal => on dbg true t (m mal)).
Proof.
  intros H h o. unfold on.
  apply (askd_bind so so (sg h) (fun mal => m mal h t) (fun mal x => match x with
    | Ret a h1 t1 => Ret (a, t1) h1 o
    | Thr e h1 t1 => match destroy dbg true t1 h1 o with
                     | Ret _ h2 _ => Thr e h2 o
                     | Thr e2 h2 o2 => Term h2
                     | Term h2 => Term h2 | AFail => AFail | UB h2 => UB h2
                     end
    | Term h1 => Term h1 | AFail => AFail | UB h1 => UB h1 end)); [apply H|].
  intros [a h1 o1|x h1 o1|h1| |h1]; cbn; try (apply askd_done; intros s' E; injection E as <-; reflexivity).
  - pose proof (calm_destroy dbg true o1 h1 o) as C. apply askd_done. intros s' E. destruct (destroy dbg true o1 h1 o); cbn in *; congruence.
  - exists AFail. split; reflexivity.
Qed.
Lemma asks_build {A} al (m : (nat -> Z -> bool) -> M A) : asks m -> asks (fun mal => build al (m mal)).
Proof.
  intros H h o. unfold build.
  apply (askd_bind so so (sg h) (fun mal => m mal h (blank al)) (fun mal x => match x with
    | Ret _ h1 t1 => Ret t1 h1 o
    | Thr e h1 _ => Thr e h1 o
    | Term h1 => Term h1 | AFail => AFail | UB h1 => UB h1 end)); [apply H|].
  intros [a h1 o1|x h1 o1|h1| |h1]; cbn; try (apply askd_done; intros s' E; injection E as <-; reflexivity). exists AFail. split; reflexivity.
Qed.
Lemma asks_at {A} (m : (nat -> Z -> bool) -> M A) h o : asks m -> askd so (sg h) (fun mal => m mal h o).
Proof. intros H. apply H. Qed.
Lemma asks_guarded {A} dbg (m : (nat -> Z -> bool) -> M A) : asks m -> asks (fun mal => guarded dbg (m mal)).
Proof.
  intros H. unfold guarded. apply asks_bnd; [apply asks_calm, calm_check_sane|]. intros _ h o.
  apply (askd_bind so so (sg h) (fun mal => m mal h o) (fun mal x => match x with
    | Ret a h1 o1 => (let* _ := check_sane dbg in ret a) h1 o1
    | Thr e h1 o1 => (let* _ := check_sane dbg in throw e) h1 o1
    | Term h1 => Term h1 | AFail => AFail | UB h1 => UB h1 end)); [apply H|].
  intros [a h1 o1|x h1 o1|h1| |h1]; cbn [so]; try (apply askd_done; intros s' E; injection E as <-; reflexivity).
  - apply (asks_at (fun _ => let* _ := check_sane dbg in ret a)). apply asks_calm. calmt.
  - apply (asks_at (fun _ => let* _ := check_sane dbg in throw x)). apply asks_calm. calmt.
  - exists AFail. split; reflexivity.
Qed.

Ltac ask1 := match goal with
  | |- asks (fun mal => bnd (@?m mal) (@?f mal)) => apply (asks_bnd m f); [|intros]
  | |- asks (fun mal => if ?c then @?a mal else @?b mal) => apply (asks_if c a b)
  | |- asks (fun mal => match ?x with pair _ _ => _ end) => destruct x
  | |- asks (fun mal => match ?x with Some _ => _ | None => _ end) => destruct x
  | |- asks (fun mal => noexc (@?m mal)) => apply (asks_noexc m)
  | |- asks (fun mal => on _ _ _ (@?m mal)) => apply (asks_on _ _ m)
  | |- asks (fun mal => build _ (@?m mal)) => apply (asks_build _ m)
  | |- asks (fun mal => guarded _ (@?m mal)) => apply (asks_guarded _ m)
  | |- asks (fun _ => ?m) => apply asks_calm; solve [calmt]
  | |- asks _ => solve [auto with asks nocore]
  end.
Ltac askt := intros; cbv zeta; repeat ask1.

Section Fns.
Variable dbg : bool.
Lemma asks_create n : asks (fun mal => create dbg true mal n). Proof. unfold create. askt. Qed.
#[local] Hint Resolve asks_create : asks.
Lemma asks_create_from p n : asks (fun mal => create_from dbg true mal p n). Proof. unfold create_from. askt. Qed.
#[local] Hint Resolve asks_create_from : asks.
Lemma asks_move_block b c n : asks (fun mal => move_block dbg true mal b c n). Proof. unfold move_block. askt. Qed.
#[local] Hint Resolve asks_move_block : asks.
Lemma asks_smart_realloc a b c d n : asks (fun mal => smart_realloc dbg true mal a b c d n). Proof. unfold smart_realloc. askt. Qed.
#[local] Hint Resolve asks_smart_realloc : asks.
Lemma asks_reallocate a b c d : asks (fun mal => reallocate dbg true mal a b c d). Proof. unfold reallocate. askt. Qed.
#[local] Hint Resolve asks_reallocate : asks.
Lemma asks_init_medium p n : asks (fun mal => init_medium dbg true mal p n). Proof. unfold init_medium. askt. Qed.
Lemma asks_init_large p n : asks (fun mal => init_large dbg true mal p n). Proof. unfold init_large. askt. Qed.
#[local] Hint Resolve asks_init_medium asks_init_large : asks.
Lemma asks_init_core p n : asks (fun mal => init_core dbg true mal p n). Proof. unfold init_core. askt. Qed.
Lemma asks_copy_medium c : asks (fun mal => copy_medium dbg true mal c). Proof. unfold copy_medium. askt. Qed.
#[local] Hint Resolve asks_init_core asks_copy_medium : asks.
Lemma asks_copy_core c : asks (fun mal => copy_core dbg true mal c). Proof. unfold copy_core. askt. Qed.
Lemma asks_unshare n : asks (fun mal => unshare dbg true mal n). Proof. unfold unshare. askt. Qed.
#[local] Hint Resolve asks_copy_core asks_unshare : asks.
Lemma asks_mutable_data : asks (fun mal => mutable_data dbg true mal). Proof. unfold mutable_data. askt. Qed.
Lemma asks_reserve_large n : asks (fun mal => reserve_large dbg true mal n). Proof. unfold reserve_large. askt. Qed.
Lemma asks_reserve_small n : asks (fun mal => reserve_small dbg true mal n). Proof. unfold reserve_small. askt. Qed.
#[local] Hint Resolve asks_mutable_data asks_reserve_large asks_reserve_small : asks.
Lemma asks_reserve_medium n : asks (fun mal => reserve_medium dbg true mal n). Proof. unfold reserve_medium. askt. Qed.
#[local] Hint Resolve asks_reserve_medium : asks.
Lemma asks_reserve n : asks (fun mal => reserve dbg true mal n). Proof. unfold reserve. askt. Qed.
#[local] Hint Resolve asks_reserve : asks.
Lemma asks_expand d g : asks (fun mal => expand_noinit dbg true mal d g). Proof. unfold expand_noinit. askt. Qed.
#[local] Hint Resolve asks_expand : asks.
Lemma asks_push_back c : asks (fun mal => push_back dbg true mal c). Proof. unfold push_back. askt. Qed.
Lemma asks_shrink d : asks (fun mal => shrink dbg true mal d). Proof. unfold shrink. askt. Qed.
Lemma asks_begin : asks (fun mal => begin_ dbg true mal). Proof. unfold begin_. askt. Qed.
#[local] Hint Resolve asks_push_back asks_shrink asks_begin : asks.
Lemma asks_resize n c : asks (fun mal => resize dbg true mal n c). Proof. unfold resize. askt. Qed.
Lemma asks_append p n : asks (fun mal => append dbg true mal p n). Proof. unfold append. askt. Qed.
#[local] Hint Resolve asks_resize asks_append : asks.
Lemma asks_append_str p n : asks (fun mal => append_str dbg true mal p n). Proof. unfold append_str. askt. Qed.
Lemma asks_append_n n c : asks (fun mal => append_n dbg true mal n c). Proof. unfold append_n. askt. Qed.
Lemma asks_pop_back : asks (fun mal => pop_back dbg true mal). Proof. unfold pop_back. askt. Qed.
Lemma asks_assign p n : asks (fun mal => assign dbg true mal p n). Proof. unfold assign. askt. Qed.
Lemma asks_erase p n : asks (fun mal => erase dbg true mal p n). Proof. unfold erase. askt. Qed.
Lemma asks_insert_n_at p n c : asks (fun mal => insert_n_at dbg true mal p n c). Proof. unfold insert_n_at. askt. Qed.
Lemma asks_insert_at p s n : asks (fun mal => insert_at dbg true mal p s n). Proof. unfold insert_at. askt. Qed.
#[local] Hint Resolve asks_append_str asks_append_n asks_pop_back asks_assign asks_erase asks_insert_n_at asks_insert_at : asks.
Lemma asks_insert p s n : asks (fun mal => insert dbg true mal p s n). Proof. unfold insert. askt. Qed.
Lemma asks_insert_n p n c : asks (fun mal => insert_n dbg true mal p n c). Proof. unfold insert_n. askt. Qed.
Lemma asks_append_range s n : asks (fun mal => append_range dbg true mal s n). Proof. unfold append_range. askt. Qed.
#[local] Hint Resolve asks_insert asks_insert_n asks_append_range : asks.
Lemma asks_push_all l : asks (fun mal => push_all dbg true mal l).
Proof. induction l as [|c l IH]; cbn [push_all]; askt. Qed.
#[local] Hint Resolve asks_push_all : asks.
Lemma asks_insert_input p l : asks (fun mal => insert_input dbg true mal p l). Proof. unfold insert_input. askt. Qed.
Lemma asks_erase_range a b : asks (fun mal => erase_range dbg true mal a b). Proof. unfold erase_range. askt. Qed.
#[local] Hint Resolve asks_insert_input asks_erase_range : asks.
Lemma asks_replace_at p n s m : asks (fun mal => replace_at dbg true mal p n s m). Proof. unfold replace_at, assert_sane. askt. Qed.
#[local] Hint Resolve asks_replace_at : asks.
Lemma asks_replace p n s m : asks (fun mal => replace dbg true mal p n s m). Proof. unfold replace. askt. Qed.
Lemma asks_replace_n_at p n m c : asks (fun mal => replace_n_at dbg true mal p n m c). Proof. unfold replace_n_at, assert_sane. askt. Qed.
#[local] Hint Resolve asks_replace asks_replace_n_at : asks.
Lemma asks_replace_n p n m c : asks (fun mal => replace_n dbg true mal p n m c). Proof. unfold replace_n. askt. Qed.
Lemma asks_assign_n n c : asks (fun mal => assign_n dbg true mal n c). Proof. unfold assign_n. askt. Qed.
Lemma asks_replace_input p n l : asks (fun mal => replace_input dbg true mal p n l). Proof. unfold replace_input. askt. Qed.
Lemma asks_init_n n c : asks (fun mal => init_n dbg true mal n c). Proof. unfold init_n. askt. Qed.
#[local] Hint Resolve asks_replace_n asks_assign_n asks_replace_input asks_init_n : asks.
Lemma asks_assign_char c : asks (fun mal => assign_char dbg true mal c). Proof. unfold assign_char. askt. Qed.
Lemma asks_shrink_to_fit : asks (fun mal => shrink_to_fit dbg true mal). Proof. unfold shrink_to_fit. askt. Qed.
Lemma asks_set_at i c : asks (fun mal => set_at dbg true mal i c). Proof. unfold set_at. askt. Qed.
#[local] Hint Resolve asks_assign_char asks_shrink_to_fit asks_set_at : asks.
Lemma asks_set_at_checked i c : asks (fun mal => set_at_checked dbg true mal i c). Proof. unfold set_at_checked. askt. Qed.
Lemma asks_set_back c : asks (fun mal => set_back dbg true mal c). Proof. unfold set_back. askt. Qed.
Lemma asks_clone_from c : asks (fun mal => clone_from dbg true mal c). Proof. unfold clone_from. askt. Qed.
#[local] Hint Resolve asks_set_at_checked asks_set_back asks_clone_from : asks.
Lemma asks_uop o s n : asks (fun mal => run_uop dbg true mal o s n).
Proof. destruct o; cbn [run_uop]; askt. Qed.
#[local] Hint Resolve asks_uop : asks.

(** ** The system *)
Definition ss (x : sout) : option sig :=
  match x with SRet s | SThr _ s => Some (sg (s_heap s)) | STerm h | SUB h => Some (sg h) | SAFail => None end.
Definition sasks (s : sys) (F : (nat -> Z -> bool) -> sout) : Prop := askd ss (sg (s_heap s)) F.
Ltac leaf := first [apply askd_done; intros s' E; injection E as <-; reflexivity | exists SAFail; split; reflexivity].

Lemma sasks_const s x : (forall s', ss x = Some s' -> s' = sg (s_heap s)) -> sasks s (fun _ => x).
Proof. apply askd_done. Qed.
Lemma sasks_on_obj s i m : asks m -> sasks s (fun mal => on_obj s i (m mal)).
Proof.
  intros H. unfold sasks, on_obj. destruct (sget (s_objs s) i) as [c|]; [|leaf].
  apply (askd_bind so ss (sg (s_heap s)) (fun mal => m mal (s_heap s) c) (fun mal x => match x with
      | Ret _ h c1 => SRet {| s_heap := h; s_objs := sset i (Some c1) (s_objs s) |}
      | Thr e h c1 => SThr e {| s_heap := h; s_objs := sset i (Some c1) (s_objs s) |}
      | Term h1 => STerm h1 | AFail => SAFail | UB h1 => SUB h1 end)); [apply H|].
  intros [a h1 o1|x h1 o1|h1| |h1]; cbn [so]; leaf.
Qed.
Lemma sasks_new_obj s al m : asks m -> sasks s (fun mal => new_obj s al (m mal)).
Proof.
  intros H. unfold sasks, new_obj.
  apply (askd_bind so ss (sg (s_heap s)) (fun mal => m mal (s_heap s) (blank al)) (fun mal x => match x with
      | Ret _ h c => SRet {| s_heap := h; s_objs := s_objs s ++ [Some c] |}
      | Thr e h _ => SThr e {| s_heap := h; s_objs := s_objs s ++ [None] |}
      | Term h1 => STerm h1 | AFail => SAFail | UB h1 => SUB h1 end)); [apply H|].
  intros [a h1 o1|x h1 o1|h1| |h1]; cbn [so]; leaf.
Qed.
Lemma sasks_obj s j F : (forall c, sasks s (fun mal => F mal c)) -> sasks s (fun mal => obj s j (F mal)).
Proof. intros H. unfold obj. destruct (sget (s_objs s) j) as [c|]; [apply H|]. unfold sasks. leaf. Qed.
Lemma sasks_move_out s j : sasks s (fun _ => move_out dbg s j).
Proof.
  apply sasks_const. unfold move_out. intros s' E. destruct (sget (s_objs s) j) as [c|]; [|injection E as <-; reflexivity].
  pose proof (calm_reset dbg (s_heap s) c) as C. destruct (reset dbg (s_heap s) c); cbn in *; try congruence.
Qed.
Lemma sasks_then_move s F j : sasks s F -> sasks s (fun mal => then_move dbg (F mal) j).
Proof.
  intros H. unfold sasks.
  apply (askd_bind ss ss (sg (s_heap s)) F (fun mal r => then_move dbg r j)); [exact H|].
  intros [s1|x s1|h1| |h1]; cbn [ss]; try leaf. apply sasks_move_out.
Qed.
Lemma sasks_if s (c : bool) F G : sasks s F -> sasks s G -> sasks s (fun mal => if c then F mal else G mal).
Proof. destruct c; auto. Qed.

Lemma asks_local_from i al m : asks i -> asks m -> asks (fun mal => local_from dbg true (i mal) al (m mal)).
Proof. intros H1 H2. unfold local_from. ask1; [|intros]. { apply asks_build. exact H1. } apply asks_bnd; [apply asks_on; exact H2|]. intros [u t1]. apply asks_calm, calm_put. Qed.
Lemma asks_new_local al m : asks m -> asks (fun mal => new_local dbg true al (m mal)).
Proof. intros H. unfold new_local. apply asks_local_from; [|exact H]. apply asks_calm. calmt. Qed.
Ltac plus := apply asks_new_local; askt.
Lemma asks_plus_str a b : asks (fun mal => plus_str dbg true mal a b). Proof. unfold plus_str. plus. Qed.
Lemma asks_plus_cl a b : asks (fun mal => plus_cl dbg true mal a b). Proof. unfold plus_cl. plus. Qed.
Lemma asks_plus_hl a b : asks (fun mal => plus_hl dbg true mal a b). Proof. unfold plus_hl. plus. Qed.
Lemma asks_plus_cr a b : asks (fun mal => plus_cr dbg true mal a b). Proof. unfold plus_cr. plus. Qed.
Lemma asks_plus_hr a b : asks (fun mal => plus_hr dbg true mal a b). Proof. unfold plus_hr. plus. Qed.
#[local] Hint Resolve asks_plus_str asks_plus_cl asks_plus_hl asks_plus_cr asks_plus_hr : asks.

Ltac sask1 := match goal with
  | |- sasks _ (fun mal => obj _ _ (@?F mal)) => apply (sasks_obj _ _ F); intros
  | |- sasks _ (fun mal => then_move _ (@?F mal) _) => apply (sasks_then_move _ F)
  | |- sasks _ (fun mal => on_obj _ _ (@?m mal)) => apply (sasks_on_obj _ _ m)
  | |- sasks _ (fun mal => new_obj _ _ (@?m mal)) => apply (sasks_new_obj _ _ m)
  | |- sasks _ (fun mal => if ?c then @?F mal else @?G mal) => apply (sasks_if _ c F G)
  | |- sasks _ (fun mal => match cap_in ?s ?b with Some _ => _ | None => _ end) => destruct (cap_in s b)
  | |- sasks _ (fun mal => move_out _ _ _) => apply sasks_move_out
  | |- sasks _ (fun mal => SUB _) => unfold sasks; leaf
  | |- sasks _ (fun mal => SRet _) => unfold sasks; leaf
  end.
Lemma sasks_destroyed s c f (g : heap -> core -> sout) : (forall h o, ss (g h o) = Some (sg h) \/ ss (g h o) = Some (sg (s_heap s)) \/ ss (g h o) = None) -> f = destroy dbg true c ->
  sasks s (fun _ => match f (s_heap s) c with Ret _ h o => g h o | Thr _ h _ => STerm h | Term h1 => STerm h1 | AFail => SAFail | UB h1 => SUB h1 end).
Proof.
  intros H ->. apply sasks_const. intros s' E. pose proof (calm_destroy dbg true c (s_heap s) c) as C.
  destruct (destroy dbg true c (s_heap s) c) as [a h1 o1|x h1 o1|h1| |h1]; cbn in *; try congruence.
  destruct (H h1 o1) as [K|[K|K]]; congruence.
Qed.
Lemma asks_step ar s o : sasks s (fun mal => sstep dbg true mal ar s o).
Proof.
  destruct o; cbn [sstep].
  all: try solve [repeat sask1; askt].
  - repeat sask1. apply asks_local_from; askt.
  - apply sasks_obj. intros a. apply sasks_obj. intros b. destruct (Nat.eqb i j); [unfold sasks; leaf|].
    apply (sasks_destroyed s a (destroy dbg true a) (fun h _ => match reset dbg h b with
       | Ret _ h1 b1 => SRet {| s_heap := h1; s_objs := sset j (Some b1) (sset i (Some b) (s_objs s)) |} | _ => SUB (s_heap s) end)); [|reflexivity].
    intros h _. pose proof (calm_reset dbg h b) as C. destruct (reset dbg h b); cbn in *; auto. left. congruence.
  - apply sasks_obj. intros a.
    apply (sasks_destroyed s a (destroy dbg true a) (fun h _ => SRet {| s_heap := h; s_objs := sset i None (s_objs s) |})); [|reflexivity]. intros h _. left. reflexivity.
  - destruct (resolve s i (arg_of o)) as [[p n]|]; [apply sasks_on_obj, asks_uop|unfold sasks; leaf].
Qed.
End Fns.
