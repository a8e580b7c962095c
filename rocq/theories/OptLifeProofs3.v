(** Parsers as objects: the arguments listed as unrecognised, however parse_args ends. *)
Require Import ZArith List Bool Lia Sorted.
From Verif Require Import OptModel OptSpec OptSpec2 OptProofs OptProofs2 OptLifeModel OptLifeSpec OptLifeProofs.
Import ListNotations.
Open Scope Z_scope.

Section Listed.
Variable real : type -> str -> Z.
Definition upto (k : nat) (l : list nat) : Prop := StronglySorted lt l /\ Forall (fun i => (1 <= i <= k)%nat) l.
Lemma upto_le k k' l : (k <= k')%nat -> upto k l -> upto k' l.
Proof. intros H (A & B). split; [exact A|]. eapply Forall_impl; [|exact B]. cbn. intros; lia. Qed.
Lemma upto_snoc k l : upto k l -> upto (S k) (l ++ [S k]).
Proof.
  intros (A & B). split.
  - clear -A B. induction l as [|x l IH]; cbn [app]; [constructor; constructor|]. inversion A as [|? ? A1 A2]; subst. inversion B as [|? ? B1 B2]; subst. constructor; [apply IH; assumption|]. apply Forall_app. split; [exact A2|]. constructor; [lia|constructor].
  - apply Forall_app. split; [eapply Forall_impl; [|exact B]; cbn; intros; lia|]. constructor; [lia|constructor].
Qed.
(** [w] has its position within the arguments [av], and lists positions up to there. *)
Definition fair (av : list str) (w : work) : Prop := args (w_args w) = av /\ (it (w_args w) <= length av)%nat /\ upto (it (w_args w)) (w_invalid w).
Lemma pop_ok a v a' : pop a = Ok (v, a') -> args a' = args a /\ it a' = S (it a) /\ (S (it a) <= length (args a))%nat.
Proof.
  unfold pop, peek. destruct (nth_error (args a) (it a)) eqn:N; cbn [bnd]; [|discriminate]. intros E. injection E as <- <-. cbn. split; [reflexivity|]. split; [reflexivity|]. assert (X : nth_error (args a) (it a) <> None) by congruence. apply nth_error_Some in X. lia.
Qed.
Lemma span_pos n i j : span_at n i = Ok j -> j = i.
Proof. unfold span_at. destruct (_ <? _); congruence. Qed.
(** A result lists positions of [av], and is fair if it is one. *)
Definition lists {A} (av : list str) (get : A -> work) (r : list nat * out A) : Prop :=
  upto (length av) (fst r) /\ forall a, snd r = Ok a -> fair av (get a).
Lemma keep_lists {A B} av (get : B -> work) l (m : out A) k : upto (length av) l -> (forall a, m = Ok a -> lists av get (k a)) -> lists av get (keep l m k).
Proof. intros U H. destruct m as [a|e|f]; cbn [keep]; [apply H; reflexivity|split; [exact U|discriminate]..]. Qed.
Lemma fair_upto av w : fair av w -> upto (length av) (w_invalid w).
Proof. intros (A & B & C). eapply upto_le; eassumption. Qed.
Lemma run_lists av p n o : forall fuel w, fair av w -> lists av (fun w => w) (run_values_s real fuel p n o w).
Proof.
  induction fuel as [|fuel IH]; intros w F; pose proof (fair_upto av w F) as U; [split; [exact U|discriminate]|]. cbn [run_values_s]. destruct (empty (w_args w)); [split; [exact U|intros a E; injection E as <-; exact F]|].
  apply keep_lists; [exact U|]. intros s _. destruct (starts_with s (prefix p)); [split; [exact U|intros a E; injection E as <-; exact F]|]. apply keep_lists; [exact U|]. intros (v, a) PO. destruct (pop_ok _ _ _ PO) as (A & I & L). destruct F as (F1 & F2 & F3). rewrite F1 in *.
  assert (STAY : forall st, fair av {| w_store := st; w_args := a; w_invalid := w_invalid w |}) by (intros st; split; [exact A|]; cbn [w_args w_invalid]; rewrite I; split; [exact L|]; eapply upto_le; [|exact F3]; lia).
  assert (PUSH : forall st, fair av {| w_store := st; w_args := a; w_invalid := w_invalid w ++ [pos a] |}) by (intros st; split; [exact A|]; unfold pos; cbn [w_args w_invalid]; rewrite I; split; [exact L|apply upto_snoc; exact F3]).
  destruct (act o); (apply keep_lists; [exact U|]); [intros i E; apply span_pos in E; subst i; apply IH; apply PUSH..| | | |]; try (intros i E; apply span_pos in E; subst i; apply IH; apply PUSH). intros (st, b) _. apply IH. apply STAY.
Qed.
Lemma handle_lists av p n w : fair av w -> lists av fst (handle_opt_s real p n w).
Proof.
  intros F. pose proof (fair_upto av w F) as U. unfold handle_opt_s. destruct (empty (w_args w)); [split; [exact U|intros a E; injection E as <-; exact F]|]. apply keep_lists; [exact U|]. intros (fr, a) PO. destruct (pop_ok _ _ _ PO) as (A & I & L). destruct F as (F1 & F2 & F3). rewrite F1 in *.
  assert (STAY : forall st b, args b = av -> (S (it (w_args w)) <= it b <= length av)%nat -> fair av {| w_store := st; w_args := b; w_invalid := w_invalid w |}) by (intros st b E1 E2; split; [exact E1|]; cbn [w_args w_invalid]; split; [lia|]; eapply upto_le; [|exact F3]; lia).
  assert (STAYA : forall st, fair av {| w_store := st; w_args := a; w_invalid := w_invalid w |}) by (intros st; apply STAY; [exact A|lia]).
  destruct (find_opt p _) as [i|]; [|split; [exact U|intros x E; injection E as <-; apply STAYA]]. destruct (nth_error (options p) i) as [o|]; [|split; [exact U|discriminate]]. apply keep_lists; [exact U|]. intros h _. destruct (negb h).
  - destruct (typ o); try (split; [exact U|discriminate]). apply keep_lists; [exact U|]. intros (st, b) _. split; [exact U|intros x E; injection E as <-; apply STAYA].
  - assert (REST : forall st b, args b = av -> (S (it (w_args w)) <= it b <= length av)%nat -> lists av fst (let (l, r) := run_values_s real (S (length (args b))) p n o {| w_store := st; w_args := b; w_invalid := w_invalid w |} in (l, do w2 <- r; Ok (w2, true)))).
    { intros st b E1 E2. pose proof (run_lists av p n o (S (length (args b))) _ (STAY st b E1 E2)) as (X & Y). destruct (run_values_s _ _ _ _ _ _) as (l, r). cbn [fst snd] in X, Y. split; [exact X|]. cbn [snd]. intros x E. destruct r as [w2|e|f]; cbn [bnd] in E; try discriminate. injection E as <-. apply Y. reflexivity. }
    destruct (extract_opt_value fr) as [|c v].
    + destruct (empty a); [split; [exact U|intros x E; injection E as <-; apply STAYA]|]. apply keep_lists; [exact U|]. intros (v, a1) PO1. destruct (pop_ok _ _ _ PO1) as (A1 & I1 & L1). apply keep_lists; [exact U|]. intros (st, b) _. apply REST; [congruence|rewrite A in L1; lia].
    + apply keep_lists; [exact U|]. intros (st, b) _. apply REST; [exact A|lia].
Qed.
Lemma handle_moves p n w l w' b : handle_opt_s real p n w = (l, Ok (w', b)) -> empty (w_args w) = false -> b = false ->
  w_invalid w' = w_invalid w /\ (S (it (w_args w)) <= it (w_args w'))%nat.
Proof.
  unfold handle_opt_s. intros E EM ->. rewrite EM in E. apply keep_ok in E. destruct E as ((fr, a) & PO & E). destruct (pop_ok _ _ _ PO) as (_ & I & _). destruct (find_opt p _) as [i|]; [|injection E as <- <-; cbn; split; [reflexivity|lia]]. destruct (nth_error (options p) i) as [o|]; [|discriminate].
  apply keep_ok in E. destruct E as (h & _ & E). destruct (negb h).
  - destruct (typ o); try discriminate. apply keep_ok in E. destruct E as ((st, x) & _ & E). discriminate.
  - assert (R : forall st a0, (let (l0, r) := run_values_s real (S (length (args a0))) p n o {| w_store := st; w_args := a0; w_invalid := w_invalid w |} in (l0, do w2 <- r; Ok (w2, true))) = (l, Ok (w', false)) -> False).
    { intros st a0 X. destruct (run_values_s _ _ _ _ _ _) as (l0, r). destruct r; discriminate. }
    destruct (extract_opt_value fr) as [|c v].
    + destruct (empty a); [injection E as <- <-; cbn; split; [reflexivity|lia]|]. apply keep_ok in E. destruct E as ((v, a1) & _ & E). apply keep_ok in E. destruct E as ((st, x) & _ & E). destruct (R _ _ E).
    + apply keep_ok in E. destruct E as ((st, x) & _ & E). destruct (R _ _ E).
Qed.
Lemma loop_lists av p n : forall fuel w, fair av w -> lists av (fun w => w) (parse_loop_s real fuel p n w).
Proof.
  induction fuel as [|fuel IH]; intros w F; pose proof (fair_upto av w F) as U; [split; [exact U|discriminate]|]. cbn [parse_loop_s]. destruct (empty (w_args w)) eqn:EM; [split; [exact U|intros a E; injection E as <-; exact F]|].
  apply keep_lists; [exact U|]. intros fr _.
  assert (H : lists av (fun w => w) (let (l, r) := handle_opt_s real p n w in keep l r (fun '(w1, ok) => if ok : bool then parse_loop_s real fuel p n w1 else keep (w_invalid w1) (span_at n (pos (w_args w1))) (fun i => parse_loop_s real fuel p n {| w_store := w_store w1; w_args := w_args w1; w_invalid := w_invalid w1 ++ [i] |})))).
  { pose proof (handle_lists av p n w F) as (X & Y). pose proof (handle_moves p n w) as M. destruct (handle_opt_s real p n w) as (l, r). cbn [fst snd] in X, Y. apply keep_lists; [exact X|]. intros (w1, ok) ->. specialize (Y _ eq_refl). cbn [fst] in Y. destruct ok; [apply IH; exact Y|].
    apply keep_lists; [apply fair_upto; exact Y|]. intros i E. apply span_pos in E. subst i. apply IH. destruct (M l w1 false eq_refl EM eq_refl) as (M1 & M2). destruct Y as (Y1 & Y2 & Y3). split; [exact Y1|]. unfold pos. cbn [w_args w_invalid]. split; [exact Y2|]. rewrite M1.
    destruct F as (_ & _ & F3). destruct (it (w_args w1)) as [|m]; [lia|]. apply upto_snoc. eapply upto_le; [|exact F3]. lia. }
  destruct (extract_arg_type p fr); [exact H|exact H|]. apply keep_lists; [exact U|]. intros (x, a) PO. destruct (pop_ok _ _ _ PO) as (A & I & L). apply keep_lists; [exact U|]. intros i E. apply span_pos in E. subst i. apply IH. destruct F as (F1 & F2 & F3). rewrite F1 in *.
  split; [exact A|]. unfold pos. cbn [w_args w_invalid]. rewrite I. split; [exact L|apply upto_snoc; exact F3].
Qed.
Variable getenv : str -> option str.
Lemma register_invalid : forall ns p, invalid (fst (register p ns)) = invalid p.
Proof. induction ns as [|x ns IH]; intros p; [auto|]. cbn [register]. destruct (extract_option_type p x); [| |auto]; (destruct (_ && _); [auto|]); match goal with |- context [register ?q ns] => exact (IH q) end. Qed.
Lemma flag_invalid p c nm : invalid (fst (add_flag_s p c nm)) = invalid p.
Proof. unfold add_flag_s. destruct (_ && _); [|reflexivity]. unfold add_option. pose proof (register_invalid [[prefix p; c]; long_prefix p ++ nm] (with_options p (options p ++ [fresh [[prefix p; c]; long_prefix p ++ nm]]))) as E. destruct (register _ _) as (q, [e|]); exact E. Qed.
Lemma parse_lists lk p rs a0 av : upto (length av) (invalid (fst (parse_object real getenv lk p rs (a0 :: av)))).
Proof.
  assert (N : upto (length av) []) by (split; constructor). unfold parse_object. set (n := Z.of_nat (length (a0 :: av))). set (s := if nullb (program p) then a0 else program p). destruct (validate_loop lk _ rs) as (os, v).
  destruct v; try exact N. pose proof (flag_invalid (with_options (with_invalid (with_args p n s) []) os) 117 s_usage) as E2. destruct (add_flag_s (with_options (with_invalid (with_args p n s) []) os) 117 s_usage) as (p2, [e|]); cbn [fst] in *; [rewrite E2; exact N|].
  pose proof (flag_invalid p2 104 s_help) as E3. destruct (add_flag_s p2 104 s_help) as (p3, [e|]); cbn [fst] in *; [rewrite E3, E2; exact N|].
  pose proof (flag_invalid (with_version p3 []) 118 s_version) as E4. destruct (add_flag_s (with_version p3 []) 118 s_version) as (p4, [e|]); cbn [fst] in *; [rewrite E4; change (upto (length av) (invalid p3)); rewrite E3, E2; exact N|].
  unfold read_args. pose proof (loop_lists av p4 (argc p4 mod 2 ^ 32) (S (length av)) {| w_store := empty_store; w_args := {| args := av; it := 0 |}; w_invalid := [] |}) as (X & _); [split; [reflexivity|split; [cbn; lia|split; constructor]]|].
  destruct (parse_loop_s real (S (length av)) p4 _ _) as (l, r). exact X.
Qed.
End Listed.
