(** Parsers as objects: proofs. *)
Require Import ZArith List Bool Lia.
From Verif Require Import OptModel OptSpec OptSpec2 OptSpec3 OptProofs OptProofs2 OptProofs3 OptProofs4 OptProofs5 OptProofs6 OptLifeModel OptLifeSpec.
Import ListNotations.
Open Scope Z_scope.

Lemma keep_snd {A B} l (m : out A) (k : A -> list nat * out B) : snd (keep l m k) = do a <- m; snd (k a).
Proof. destruct m; reflexivity. Qed.
Lemma flag_s p c nm : add_flag p c nm = match add_flag_s p c nm with (q, None) => Ok q | (_, Some e) => Throw e end.
Proof. unfold add_flag, add_flag_s. destruct (_ && _); [|reflexivity]. destruct (add_option p _) as (q, [e|]); reflexivity. Qed.

(** ** Looking at the parser itself *)
Lemma validate_self p q r o : prefix q = prefix p -> long_prefix q = long_prefix p -> validate_s (fun _ => Some q) r o = Some (validate p o).
Proof.
  intros A B. unfold validate_s, settled_dest, validate. assert (E : first_long q (names o) = first_long p (names o)).
  { generalize (names o). induction l as [|n ns IH]; [reflexivity|]. cbn [first_long]. assert (X : extract_option_type q n = extract_option_type p n) by (unfold extract_option_type; rewrite A, B; reflexivity). rewrite X. destruct (extract_option_type p n); auto. }
  destruct (dest o) as [|c d] eqn:D; cbn [nullb]; [|reflexivity]. destruct (names o) as [|n ns] eqn:N; [reflexivity|]. rewrite E. reflexivity.
Qed.
Definition judged (r : out (list option_)) : verdict := match r with Ok _ => AllValid | Throw _ => Incomplete | Fault _ => NoName end.
Lemma validate_throw p : forall os, match validate_all p os with Ok _ => True | Throw e => e = LogicError | Fault f => f = NoFront end.
Proof.
  induction os as [|o os IH]; cbn [validate_all]; [exact I|]. destruct (validate p o) as (o1, [|]).
  - destruct (validate_all p os); exact IH.
  - destruct (names o1); reflexivity.
Qed.
Lemma loop_self p q : prefix q = prefix p -> long_prefix q = long_prefix p -> forall os rs, length rs = length os ->
  snd (validate_loop (fun _ => Some q) os rs) = judged (validate_all p os) /\
  (forall os', validate_all p os = Ok os' -> fst (validate_loop (fun _ => Some q) os rs) = os').
Proof.
  intros A B. induction os as [|o os IH]; intros rs L.
  - cbn. split; [reflexivity|]. intros os' E. injection E as <-. reflexivity.
  - destruct rs as [|r rs]; [discriminate|]. cbn [validate_loop validate_all]. rewrite (validate_self p q r o A B). destruct (validate p o) as (o1, [|]) eqn:V.
    + destruct (IH rs ltac:(cbn in L; lia)) as (X & Y). destruct (validate_loop _ os rs) as (l, v). cbn [fst snd] in *. destruct (validate_all p os) as [os1|e|f]; cbn [bnd judged] in *; (split; [exact X|]); intros os' E; try discriminate. injection E as <-. f_equal. apply Y. reflexivity.
    + cbn [fst snd]. destruct (names o1); (split; [reflexivity|intros os' E; discriminate]).
Qed.

Section Loop.
Variables (real : type -> str -> Z) (getenv : str -> option str).
Lemma run_values_same p n o : forall fuel w, snd (run_values_s real fuel p n o w) = run_values real fuel p n o w.
Proof.
  induction fuel as [|fuel IH]; intros w; [reflexivity|]. cbn [run_values_s run_values]. destruct (empty (w_args w)); [reflexivity|]. rewrite keep_snd. apply bnd_ext. intros s. destruct (starts_with s (prefix p)); [reflexivity|].
  rewrite keep_snd. apply bnd_ext. intros (v, a). destruct (act o); rewrite keep_snd; apply bnd_ext; intros x; try destruct x; apply IH.
Qed.
Lemma handle_same p n w : snd (handle_opt_s real p n w) = handle_opt real p n w.
Proof.
  unfold handle_opt_s, handle_opt. destruct (empty (w_args w)); [reflexivity|]. rewrite keep_snd. apply bnd_ext. intros (fr, a). destruct (find_opt p _) as [i|]; [|reflexivity]. destruct (nth_error (options p) i) as [o|]; [|reflexivity].
  rewrite keep_snd. apply bnd_ext. intros h. destruct (negb h).
  - destruct (typ o); try reflexivity. rewrite keep_snd. apply bnd_ext. intros (st, b). reflexivity.
  - assert (R : forall st b, snd (let (l, r) := run_values_s real (S (length (args b))) p n o {| w_store := st; w_args := b; w_invalid := w_invalid w |} in (l, do w2 <- r; Ok (w2, true)))
       = do w2 <- run_values real (S (length (args b))) p n o {| w_store := st; w_args := b; w_invalid := w_invalid w |}; Ok (w2, true)).
    { intros st b. pose proof (run_values_same p n o (S (length (args b))) {| w_store := st; w_args := b; w_invalid := w_invalid w |}) as E. destruct (run_values_s _ _ _ _ _ _) as (l, r). cbn [snd] in *. rewrite E. reflexivity. }
    destruct (extract_opt_value fr) as [|c v].
    + destruct (empty a); [reflexivity|]. rewrite keep_snd. apply bnd_ext. intros (v, a1). rewrite keep_snd. apply bnd_ext. intros (st, b). apply R.
    + rewrite keep_snd. apply bnd_ext. intros (st, b). apply R.
Qed.
Lemma loop_same p n : forall fuel w, snd (parse_loop_s real fuel p n w) = parse_loop real fuel p n w.
Proof.
  induction fuel as [|fuel IH]; intros w; [reflexivity|]. cbn [parse_loop_s parse_loop]. destruct (empty (w_args w)); [reflexivity|]. rewrite keep_snd. apply bnd_ext. intros fr.
  assert (H : snd (let (l, r) := handle_opt_s real p n w in keep l r (fun '(w1, ok) => if ok : bool then parse_loop_s real fuel p n w1 else keep (w_invalid w1) (span_at n (pos (w_args w1))) (fun i => parse_loop_s real fuel p n {| w_store := w_store w1; w_args := w_args w1; w_invalid := w_invalid w1 ++ [i] |})))
    = do (w1, ok) <- handle_opt real p n w; if ok : bool then parse_loop real fuel p n w1 else do i <- span_at n (pos (w_args w1)); parse_loop real fuel p n {| w_store := w_store w1; w_args := w_args w1; w_invalid := w_invalid w1 ++ [i] |}).
  { pose proof (handle_same p n w) as E. destruct (handle_opt_s real p n w) as (l, r). cbn [snd] in E. subst r. rewrite keep_snd. apply bnd_ext. intros (w1, ok). destruct ok; [apply IH|]. rewrite keep_snd. apply bnd_ext. intros i. apply IH. }
  destruct (extract_arg_type p fr); [exact H|exact H|]. rewrite keep_snd. apply bnd_ext. intros (x, a). rewrite keep_snd. apply bnd_ext. intros i. apply IH.
Qed.
(** The invalid arguments of a loop that returns are those of its result. *)
Lemma keep_ok {A B} l (m : out A) (k : A -> list nat * out B) l' b : keep l m k = (l', Ok b) -> exists a, m = Ok a /\ k a = (l', Ok b).
Proof. destruct m; cbn [keep]; intros E; try discriminate. eauto. Qed.
Lemma run_values_inv p n o : forall fuel w l w', run_values_s real fuel p n o w = (l, Ok w') -> l = w_invalid w'.
Proof.
  induction fuel as [|fuel IH]; intros w l w' E; [discriminate|]. cbn [run_values_s] in E. destruct (empty (w_args w)); [injection E as <- <-; reflexivity|]. apply keep_ok in E. destruct E as (s & _ & E). destruct (starts_with s (prefix p)); [injection E as <- <-; reflexivity|].
  apply keep_ok in E. destruct E as ((v, a) & _ & E). destruct (act o); apply keep_ok in E; destruct E as (x & _ & E); try destruct x; eapply IH; exact E.
Qed.
Lemma handle_inv p n w l w' b : handle_opt_s real p n w = (l, Ok (w', b)) -> l = w_invalid w'.
Proof.
  unfold handle_opt_s. destruct (empty (w_args w)); [intros E; injection E as <- <- _; reflexivity|]. intros E. apply keep_ok in E. destruct E as ((fr, a) & _ & E). destruct (find_opt p _) as [i|]; [|injection E as <- <- _; reflexivity]. destruct (nth_error (options p) i) as [o|]; [|discriminate].
  apply keep_ok in E. destruct E as (h & _ & E). destruct (negb h).
  - destruct (typ o); try discriminate. apply keep_ok in E. destruct E as ((st, x) & _ & E). injection E as <- <- _. reflexivity.
  - assert (R : forall st a0, (let (l0, r) := run_values_s real (S (length (args a0))) p n o {| w_store := st; w_args := a0; w_invalid := w_invalid w |} in (l0, do w2 <- r; Ok (w2, true))) = (l, Ok (w', b)) -> l = w_invalid w').
    { intros st a0 X. destruct (run_values_s _ _ _ _ _ _) as (l0, r) eqn:RV. destruct r as [w2|e|f]; cbn [bnd] in X; try discriminate. injection X as <- <- _. eapply run_values_inv. exact RV. }
    destruct (extract_opt_value fr) as [|c v].
    + destruct (empty a); [injection E as <- <- _; reflexivity|]. apply keep_ok in E. destruct E as ((v, a1) & _ & E). apply keep_ok in E. destruct E as ((st, x) & _ & E). eapply R. exact E.
    + apply keep_ok in E. destruct E as ((st, x) & _ & E). eapply R. exact E.
Qed.
Lemma loop_inv p n : forall fuel w l w', parse_loop_s real fuel p n w = (l, Ok w') -> l = w_invalid w'.
Proof.
  induction fuel as [|fuel IH]; intros w l w' E; [discriminate|]. cbn [parse_loop_s] in E. destruct (empty (w_args w)); [injection E as <- <-; reflexivity|]. apply keep_ok in E. destruct E as (fr & _ & E).
  assert (H : (let (l, r) := handle_opt_s real p n w in keep l r (fun '(w1, ok) => if ok : bool then parse_loop_s real fuel p n w1 else keep (w_invalid w1) (span_at n (pos (w_args w1))) (fun i => parse_loop_s real fuel p n {| w_store := w_store w1; w_args := w_args w1; w_invalid := w_invalid w1 ++ [i] |}))) = (l, Ok w') -> l = w_invalid w').
  { intros X. destruct (handle_opt_s real p n w) as (l0, r). apply keep_ok in X. destruct X as ((w1, ok) & _ & X). destruct ok; [eapply IH; exact X|]. apply keep_ok in X. destruct X as (i & _ & X). eapply IH. exact X. }
  destruct (extract_arg_type p fr); [exact (H E)|exact (H E)|]. apply keep_ok in E. destruct E as ((x, a) & _ & E). apply keep_ok in E. destruct E as (i & _ & E). eapply IH. exact E.
Qed.

(** ** parse_args *)
Definition end_of (r : out (parser * vstore)) : ending := match r with Ok (_, st) => Returned st | Throw e => Threw e | Fault f => Faulted f end.
Lemma read_finish p av : snd (read_args real getenv p av) = end_of (finish real getenv p av) /\
  (forall q st, finish real getenv p av = Ok (q, st) -> fst (read_args real getenv p av) = q) /\ exists l, fst (read_args real getenv p av) = with_invalid p l.
Proof.
  unfold read_args, finish. set (w0 := {| w_store := empty_store; w_args := {| args := av; it := 0 |}; w_invalid := [] |}). pose proof (loop_same p (argc p mod 2 ^ 32) (S (length av)) w0) as E. pose proof (loop_inv p (argc p mod 2 ^ 32) (S (length av)) w0) as I.
  destruct (parse_loop_s real (S (length av)) p (argc p mod 2 ^ 32) w0) as (l, r). cbn [snd] in E. rewrite <- E. cbn [fst snd].
  destruct r as [w|e|f]; cbn [bnd end_of]; [|split; [reflexivity|split; [discriminate|eauto]]..]. rewrite (I l w eq_refl).
  destruct (use_defaults real (options p) (w_store w)) as [st1|e|f]; cbn [bnd end_of]; [|split; [reflexivity|split; [discriminate|eauto]]..]. destruct (use_env real getenv (options p) st1) as [st2|e|f]; cbn [bnd end_of]; [|split; [reflexivity|split; [discriminate|eauto]]..].
  split; [reflexivity|]. split; [|eauto]. intros q st X. injection X as <- _. reflexivity.
Qed.
Lemma parse_object_ends q p rs argv : prefix q = prefix p -> long_prefix q = long_prefix p -> length rs = length (options p) ->
  snd (parse_object real getenv (fun _ => Some q) p rs argv) = end_of (parse_args real getenv p argv) /\
  (forall p' st, parse_args real getenv p argv = Ok (p', st) -> fst (parse_object real getenv (fun _ => Some q) p rs argv) = p').
Proof.
  intros A B L. destruct argv as [|a0 av]; [split; [reflexivity|discriminate]|]. cbn [parse_object parse_args]. set (n := Z.of_nat (length (a0 :: av))). set (s := if nullb (program p) then a0 else program p).
  destruct (loop_self (with_args p n s) q A B (options p) rs L) as (X & Y). cbn [options with_invalid with_args]. destruct (validate_loop _ (options p) rs) as (os, v). cbn [fst snd] in X, Y. unfold parse_vector. cbn [options with_args].
  pose proof (validate_throw (with_args p n s) (options p)) as T. destruct (validate_all (with_args p n s) (options p)) as [os1|e|f]; cbn [judged] in X; subst v.
  - specialize (Y os1 eq_refl). subst os1. cbn [bnd]. unfold add_usage_option. rewrite flag_s. destruct (add_flag_s (with_options (with_invalid (with_args p n s) []) os) 117 s_usage) as (p1, [e|]); [split; [reflexivity|discriminate]|]. cbn [bnd].
    unfold add_help_option. rewrite flag_s. destruct (add_flag_s p1 104 s_help) as (p2, [e|]); [split; [reflexivity|discriminate]|]. cbn [bnd]. unfold add_version_option. rewrite flag_s. destruct (add_flag_s (with_version p2 []) 118 s_version) as (p3, [e|]); [split; [reflexivity|discriminate]|]. cbn [bnd].
    destruct (read_finish p3 av) as (R1 & R2 & _). split; [exact R1|]. exact R2.
  - subst e. split; [reflexivity|discriminate].
  - subst f. split; [reflexivity|discriminate].
Qed.
End Loop.
