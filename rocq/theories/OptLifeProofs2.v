(** Parsers as objects: used parsers, and objects beside values. *)
Require Import ZArith List Bool Lia.
From Verif Require Import OptModel OptSpec OptSpec2 OptSpec3 OptProofs OptProofs2 OptProofs3 OptProofs4 OptProofs5 OptProofs6 OptLifeModel OptLifeSpec OptLifeProofs.
Import ListNotations.
Open Scope Z_scope.

Section Used.
Variables (real : type -> str -> Z) (getenv : str -> option str).
Notation parse_object := (parse_object real getenv).
Notation parse_args := (parse_args real getenv).
Notation alone_call := (alone_call real getenv).
Notation used := (used real getenv).

(** ** A parser after a call *)
Lemma flag_s_good p c nm : good p -> good (fst (add_flag_s p c nm)).
Proof.
  intros G. unfold add_flag_s. destruct (_ && _); [|exact G]. destruct (add_option p _) as (q, [e|]) eqn:A; cbn [fst].
  - eapply good_add; eassumption.
  - eapply good_alike; [apply alike_configure|]. eapply good_add; eassumption.
Qed.
Lemma loop_renamed lk : forall os rs, renamed os (fst (validate_loop lk os rs)).
Proof.
  assert (N : forall r o o1 b, validate_s lk r o = Some (o1, b) -> names o1 = names o).
  { intros r o o1 b. unfold validate_s. destruct (settled_dest lk r o); [|discriminate]. intros E. injection E as <- _. reflexivity. }
  induction os as [|o os IH]; intros rs; [intros i; reflexivity|]. cbn [validate_loop]. destruct rs as [|r rs]; [intros i; reflexivity|].
  destruct (validate_s lk r o) as [(o1, [|])|] eqn:V; [| |intros i; reflexivity].
  - specialize (IH rs). destruct (validate_loop lk os rs) as (l, v). cbn [fst] in *. intros [|i]; cbn [nth_error option_map]; [rewrite (N _ _ _ _ V); reflexivity|apply IH].
  - cbn [fst]. intros [|i]; cbn [nth_error option_map]; [rewrite (N _ _ _ _ V); reflexivity|reflexivity].
Qed.
Lemma parse_good lk p rs argv : good p -> good (fst (parse_object lk p rs argv)).
Proof.
  intros G. destruct argv as [|a0 av]; [exact G|]. unfold OptLifeModel.parse_object. set (n := Z.of_nat (length (a0 :: av))). set (s := if nullb (program p) then a0 else program p). cbn [options with_invalid with_args].
  pose proof (loop_renamed lk (options p) rs) as R. destruct (validate_loop lk (options p) rs) as (os, v). cbn [fst] in R.
  assert (G1 : good (with_options (with_invalid (with_args p n s) []) os)) by (eapply good_alike; [|exact G]; repeat split; exact R).
  destruct v; try exact G1. pose proof (flag_s_good _ 117 s_usage G1) as G2. destruct (add_flag_s (with_options (with_invalid (with_args p n s) []) os) 117 s_usage) as (p2, [e|]); cbn [fst] in *; [exact G2|].
  pose proof (flag_s_good _ 104 s_help G2) as G3. destruct (add_flag_s p2 104 s_help) as (p3, [e|]); cbn [fst] in *; [exact G3|].
  pose proof (flag_s_good _ 118 s_version (good_alike _ _ (alike_version p3 []) G3)) as G4. destruct (add_flag_s (with_version p3 []) 118 s_version) as (p4, [e|]); cbn [fst] in *; [exact G4|].
  destruct (read_finish real getenv p4 av) as (_ & _ & l & E). rewrite E. eapply good_alike; [apply alike_invalid|exact G4].
Qed.
Lemma call_good_s lk p rs c : good p -> good (fst (do_call real getenv lk p rs c)).
Proof.
  intros G. destruct c as [ns|k o|s|s| | |s|argv]; cbn [do_call].
  - destruct (add_option p ns) as (q, e) eqn:A. cbn [fst]. eapply good_add; eassumption.
  - eapply good_alike; [apply alike_configure|exact G].
  - eapply good_alike; [apply alike_args|exact G].
  - eapply good_alike; [apply alike_version|exact G].
  - pose proof (flag_s_good p 117 s_usage G) as X. destruct (add_flag_s p 117 s_usage). exact X.
  - pose proof (flag_s_good p 104 s_help G) as X. destruct (add_flag_s p 104 s_help). exact X.
  - pose proof (flag_s_good _ 118 s_version (good_alike _ _ (alike_version p s) G)) as X. destruct (add_flag_s (with_version p s) 118 s_version). exact X.
  - apply parse_good. exact G.
Qed.
Lemma used_good p : used p -> good p.
Proof. induction 1 as [p N|p c U IH]; [apply (made_good real getenv); constructor; exact N|]. apply call_good_s. exact IH. Qed.

(** ** parse_args after any parse_args *)
Lemma validate_twice p o : validate p (fst (validate p o)) = validate p o.
Proof. unfold validate. cbn [fst names act typ dest default choices env]. destruct (dest o) as [|c d]; cbn [nullb]; [|reflexivity]. replace (if nullb (first_long p (names o)) then first_long p (names o) else first_long p (names o)) with (first_long p (names o)) by (destruct (nullb (first_long p (names o))); reflexivity). reflexivity. Qed.
Lemma loop_again p q : prefix q = prefix p -> long_prefix q = long_prefix p -> forall os rs, length rs = length os ->
  validate_all p (fst (validate_loop (fun _ => Some q) os rs)) = validate_all p os.
Proof.
  intros A B. induction os as [|o os IH]; intros rs L; [reflexivity|]. destruct rs as [|r rs]; [discriminate|]. cbn [validate_loop]. rewrite (validate_self p q r o A B).
  pose proof (validate_twice p o) as T. destruct (validate p o) as (o1, [|]) eqn:V; cbn [fst] in T.
  - specialize (IH rs ltac:(cbn in L; lia)). destruct (validate_loop _ os rs) as (l, v). cbn [fst] in *. cbn [validate_all]. rewrite T, V, IH. reflexivity.
  - cbn [fst validate_all]. rewrite T, V. reflexivity.
Qed.
Lemma outcome_prep p argv : outcome (parse_args p argv) = match argv with [] => Throw LogicError | a0 :: av => do q <- prep p; outcome (finish real getenv (with_args q (Z.of_nat (length argv)) []) av) end.
Proof.
  destruct argv as [|a0 av]; [reflexivity|]. rewrite parse_args_prep. unfold outcome at 1. rewrite bnd_assoc. apply bnd_ext. intros q. apply (finish_args real getenv q).
Qed.
Lemma prep_fail p q : long_prefix q = long_prefix p -> prefix q = prefix p -> validate_all p (options q) = validate_all p (options p) ->
  (forall os, validate_all p (options p) <> Ok os) -> prep q = prep p.
Proof.
  intros A B E N. unfold prep. rewrite (validate_all_ext p q _ B A), E. destruct (validate_all p (options p)) as [os|e|f]; [exfalso; eapply N; reflexivity|reflexivity|reflexivity].
Qed.
Lemma retry p q rs argv argv2 : good p -> prefix q = prefix p -> long_prefix q = long_prefix p -> length rs = length (options p) ->
  outcome (parse_args (fst (parse_object (fun _ => Some q) p rs argv)) argv2) = outcome (parse_args p argv2).
Proof.
  intros G A B L. destruct argv as [|a0 av]; [reflexivity|]. rewrite !outcome_prep. destruct argv2 as [|b0 bv]; [reflexivity|].
  unfold OptLifeModel.parse_object. set (n := Z.of_nat (length (a0 :: av))). set (s := if nullb (program p) then a0 else program p). cbn [options with_invalid with_args].
  destruct (loop_self p q A B (options p) rs L) as (X & Y). pose proof (loop_again p q A B (options p) rs L) as Z0. destruct (validate_loop (fun _ => Some q) (options p) rs) as (os, v). cbn [fst snd] in X, Y, Z0.
  destruct (validate_all p (options p)) as [own|e|f] eqn:V; cbn [judged] in X; subst v.
  - specialize (Y own eq_refl). subst own. destruct (prep_exists p os G V) as (r & P). pose proof P as P0. unfold prep in P0. rewrite V in P0. cbn [bnd] in P0.
    pose proof (prep_args n s p) as PA. rewrite P in PA. cbn [bnd] in PA. unfold prep in PA. rewrite (validate_all_ext p (with_args p n s) _ eq_refl eq_refl) in PA. cbn [options with_args] in PA. rewrite V in PA. cbn [bnd] in PA.
    unfold add_usage_option in PA. rewrite flag_s in PA. destruct (add_flag_s (with_options (with_invalid (with_args p n s) []) os) 117 s_usage) as (p2, [e|]); cbn [bnd] in PA; [discriminate|].
    unfold add_help_option in PA. rewrite flag_s in PA. destruct (add_flag_s p2 104 s_help) as (p3, [e|]); cbn [bnd] in PA; [discriminate|].
    unfold add_version_option in PA. rewrite flag_s in PA. destruct (add_flag_s (with_version p3 []) 118 s_version) as (p4, [e|]); cbn [bnd] in PA; [discriminate|]. injection PA as ->.
    destruct (read_finish real getenv (with_args r n s) av) as (_ & _ & l & E). rewrite E, P. cbn [bnd].
    assert (PR : prep (with_invalid (with_args r n s) l) = Ok (with_args r n s)).
    { transitivity (prep (with_args r n s)).
      - unfold prep. rewrite (validate_all_ext (with_args r n s) (with_invalid (with_args r n s) l) _ eq_refl eq_refl). reflexivity.
      - rewrite prep_args, (prep_again _ _ G P). reflexivity. }
    rewrite PR. cbn [bnd]. apply (finish_args real getenv r).
  - cbn [fst]. rewrite (prep_fail p (with_options (with_invalid (with_args p n s) []) os)); [reflexivity|reflexivity|reflexivity|cbn [options with_options]; rewrite V; exact Z0|intros os1; rewrite V; discriminate].
  - cbn [fst]. rewrite (prep_fail p (with_options (with_invalid (with_args p n s) []) os)); [reflexivity|reflexivity|reflexivity|cbn [options with_options]; rewrite V; exact Z0|intros os1; rewrite V; discriminate].
Qed.

(** ** What calls leave alone *)
Lemma register_kin : forall ns p, prefix (fst (register p ns)) = prefix p /\ long_prefix (fst (register p ns)) = long_prefix p /\ options (fst (register p ns)) = options p.
Proof.
  induction ns as [|x ns IH]; intros p; [auto|]. cbn [register]. destruct (extract_option_type p x); [| |auto]; (destruct (_ && _); [auto|]); match goal with |- context [register ?q ns] => exact (IH q) end.
Qed.
Lemma alter_length {A} i (f : A -> A) : forall l, length (alter i f l) = length l.
Proof. intros l. revert i. induction l as [|x l IH]; intros [|i]; cbn; auto. Qed.
Definition grown (p q : parser) : Prop := prefix q = prefix p /\ long_prefix q = long_prefix p /\ (length (options p) <= length (options q))%nat.
Lemma grown_trans p q r : grown p q -> grown q r -> grown p r.
Proof. intros (A & B & C) (D & E & F). split; [congruence|]. split; [congruence|lia]. Qed.
Lemma add_grown p ns : grown p (fst (add_option p ns)).
Proof. unfold add_option. destruct (register_kin ns (with_options p (options p ++ [fresh ns]))) as (A & B & C). split; [exact A|]. split; [exact B|]. rewrite C. cbn [options with_options]. rewrite app_length. lia. Qed.
Lemma flag_grown p c nm : grown p (fst (add_flag_s p c nm)).
Proof.
  unfold add_flag_s. destruct (_ && _); [|repeat split; cbn; lia]. pose proof (add_grown p [[prefix p; c]; long_prefix p ++ nm]) as G. destruct (add_option p _) as (q, [e|]); cbn [fst] in *; [exact G|]. eapply grown_trans; [exact G|].
  repeat split. unfold configure. cbn [options with_options]. rewrite alter_length. lia.
Qed.
Lemma loop_length lk : forall os rs, length (fst (validate_loop lk os rs)) = length os.
Proof.
  induction os as [|o os IH]; intros [|r rs]; try reflexivity. cbn [validate_loop]. destruct (validate_s lk r o) as [(o1, [|])|]; try reflexivity. specialize (IH rs). destruct (validate_loop lk os rs). cbn [fst length] in *. lia.
Qed.
Lemma parse_grown lk p rs argv : grown p (fst (parse_object lk p rs argv)).
Proof.
  destruct argv as [|a0 av]; [repeat split; cbn; lia|]. unfold OptLifeModel.parse_object. set (n := Z.of_nat (length (a0 :: av))). set (s := if nullb (program p) then a0 else program p). cbn [options with_invalid with_args].
  pose proof (loop_length lk (options p) rs) as R. destruct (validate_loop lk (options p) rs) as (os, v). cbn [fst] in R.
  assert (G1 : grown p (with_options (with_invalid (with_args p n s) []) os)) by (repeat split; cbn [options with_options]; lia).
  destruct v; try exact G1. eapply grown_trans; [exact G1|]. pose proof (flag_grown (with_options (with_invalid (with_args p n s) []) os) 117 s_usage) as G2. destruct (add_flag_s (with_options (with_invalid (with_args p n s) []) os) 117 s_usage) as (p2, [e|]); cbn [fst] in *; [exact G2|].
  eapply grown_trans; [exact G2|]. pose proof (flag_grown p2 104 s_help) as G3. destruct (add_flag_s p2 104 s_help) as (p3, [e|]); cbn [fst] in *; [exact G3|].
  eapply grown_trans; [exact G3|]. assert (GV : grown p3 (with_version p3 [])) by (repeat split; cbn; lia). pose proof (flag_grown (with_version p3 []) 118 s_version) as G4. destruct (add_flag_s (with_version p3 []) 118 s_version) as (p4, [e|]); cbn [fst] in *; [exact (grown_trans _ _ _ GV G4)|].
  eapply grown_trans; [exact GV|]. eapply grown_trans; [exact G4|]. destruct (read_finish real getenv p4 av) as (_ & _ & l & E). rewrite E. repeat split. cbn. lia.
Qed.
Lemma call_grown lk p rs c : grown p (fst (do_call real getenv lk p rs c)).
Proof.
  destruct c as [ns|k o|s|s| | |s|argv]; cbn [do_call].
  - pose proof (add_grown p ns) as X. destruct (add_option p ns). exact X.
  - repeat split. unfold configure. cbn [fst options with_options]. rewrite alter_length. lia.
  - repeat split; cbn; lia.
  - repeat split; cbn; lia.
  - pose proof (flag_grown p 117 s_usage) as X. destruct (add_flag_s p 117 s_usage). exact X.
  - pose proof (flag_grown p 104 s_help) as X. destruct (add_flag_s p 104 s_help). exact X.
  - pose proof (flag_grown (with_version p s) 118 s_version) as X. destruct (add_flag_s (with_version p s) 118 s_version). cbn [fst] in *. destruct X as (A & B & C). repeat split; [exact A|exact B|exact C].
  - apply parse_grown.
Qed.

(** ** Objects beside values *)
Lemma first_long_ext p q ns : prefix q = prefix p -> long_prefix q = long_prefix p -> first_long q ns = first_long p ns.
Proof.
  intros A B. induction ns as [|n ns IH]; [reflexivity|]. cbn [first_long]. assert (X : extract_option_type q n = extract_option_type p n) by (unfold extract_option_type; rewrite A, B; reflexivity). rewrite X. destruct (extract_option_type p n); auto.
Qed.
Lemma loop_look lk p : forall os rs rs', length rs = length os -> length rs' = length os ->
  (forall k o r, nth_error os k = Some o -> nth_error rs k = Some r -> dest o <> [] \/ names o = [] \/ exists q, lk r = Some q /\ prefix q = prefix p /\ long_prefix q = long_prefix p) ->
  validate_loop lk os rs = validate_loop (fun _ => Some p) os rs'.
Proof.
  induction os as [|o os IH]; intros [|r rs] [|r' rs'] L L' H; try discriminate; [reflexivity|]. cbn [validate_loop].
  assert (E : validate_s lk r o = validate_s (fun _ => Some p) r' o).
  { unfold validate_s, settled_dest. destruct (H 0%nat o r eq_refl eq_refl) as [D|[N|(q & Q & A & B)]].
    - destruct (dest o); [congruence|reflexivity].
    - rewrite N. destruct (dest o); reflexivity.
    - rewrite Q. destruct (dest o); [|reflexivity]. destruct (names o) as [|n ns]; [reflexivity|]. rewrite (first_long_ext p q (n :: ns) A B). reflexivity. }
  rewrite E, (IH rs rs'); [reflexivity|cbn in L; lia|cbn in L'; lia|]. intros k o1 r1 N1 N2. exact (H (S k) o1 r1 N1 N2).
Qed.
Lemma update_nth W i x j : (i < length W)%nat -> nth_error (update W i x) j = if Nat.eqb j i then Some x else nth_error W j.
Proof. revert i j. induction W as [|y W IH]; intros i j L; [cbn in L; lia|]. destruct i, j; cbn; auto. apply IH. cbn in L. lia. Qed.
Lemma update_len W i x : length (update W i x) = length W.
Proof. revert i. induction W as [|y W IH]; intros [|i]; cbn; auto. Qed.
Lemma replace_nth V i x j : (i < length V)%nat -> nth_error (replace V i x) j = if Nat.eqb j i then Some x else nth_error V j.
Proof. revert i j. induction V as [|y V IH]; intros i j L; [cbn in L; lia|]. destruct i, j; cbn; auto. apply IH. cbn in L. lia. Qed.
Lemma replace_len V i x : length (replace V i x) = length V.
Proof. revert i. induction V as [|y V IH]; intros [|i]; cbn; auto. Qed.

(** The invariant: values are what the objects have; every option has a reference, to
    an object with the same prefixes unless that is gone. *)
Record together (W : world) (V : values_) : Prop := {
  t_len : length W = length V;
  t_same : forall i p, nth_error V i = Some (Live p) -> look W i = Some p;
  t_refs : forall i x, living W i = Some x -> length (o_refs x) = length (options (o_parser x)) /\
    (forall r, In r (o_refs x) -> (r < length W)%nat) /\
    (forall r q, In r (o_refs x) -> nth_error V r = Some (Live q) -> prefix q = prefix (o_parser x) /\ long_prefix q = long_prefix (o_parser x));
  t_there : forall i s, nth_error V i = Some s -> s <> Destroyed -> exists x, living W i = Some x;
  t_good : forall i p, nth_error V i = Some (Live p) -> used p }.
Lemma living_nth W i x : living W i = Some x <-> nth_error W i = Some (Some x).
Proof. unfold living. destruct (nth_error W i) as [[y|]|]; split; congruence. Qed.
Lemma nth_len {A} (l : list A) i x : nth_error l i = Some x -> (i < length l)%nat.
Proof. intros H. apply nth_error_Some. congruence. Qed.
Lemma snoc_nth {A} (l : list A) x i : nth_error (l ++ [x]) i = if Nat.eqb i (length l) then Some x else nth_error l i.
Proof.
  destruct (Nat.eqb_spec i (length l)) as [->|N]; [rewrite nth_error_app2, Nat.sub_diag; [reflexivity|lia]|].
  destruct (Nat.lt_ge_cases i (length l)); [apply nth_error_app1; assumption|]. rewrite nth_error_app2 by lia. destruct (i - length l)%nat as [|m] eqn:E; [lia|]. cbn. symmetry. rewrite (proj2 (nth_error_None l i)) by lia. destruct m; reflexivity.
Qed.
Lemma object_call W V i x c : together W V -> living W i = Some x -> nth_error V i = Some (Live (o_parser x)) ->
  (match c with PParse _ => at_home W V i | _ => True end) ->
  do_call real getenv (look W) (o_parser x) (o_refs x) c = alone_call (o_parser x) c.
Proof.
  intros T LI NV H. unfold OptLifeSpec.alone_call. destruct c as [ns|k o|s|s| | |s|argv]; try reflexivity. cbn [do_call]. destruct argv as [|a0 av]; [reflexivity|]. unfold OptLifeModel.parse_object. cbn [options with_invalid with_args].
  destruct (t_refs _ _ T _ _ LI) as (L & R1 & R2). rewrite (loop_look (look W) (o_parser x) (options (o_parser x)) (o_refs x) (repeat 0%nat (length (options (o_parser x))))); [reflexivity|exact L|apply repeat_length|].
  intros k o r N1 N2. destruct (H x k o r LI N1 N2) as [D|[N|(q & Q)]]; [auto|auto|]. right. right. exists q. split; [exact (t_same _ _ T _ _ Q)|]. apply (R2 r q); [eapply nth_error_In; exact N2|exact Q].
Qed.
Lemma beside_step W V o V' e : together W V -> vstep real getenv V o V' e -> parses_at_home W V o ->
  exists W', wstep real getenv W o = Some (W', e) /\ together W' V'.
Proof.
  intros T ST H. destruct ST as [V p NW|V i p c N|V i p N|V i p N|V i sl N ND].
  - eexists. split; [reflexivity|]. constructor.
    + rewrite !app_length. cbn. pose proof (t_len _ _ T). lia.
    + intros i q. unfold look, living. rewrite !snoc_nth, (t_len _ _ T). destruct (Nat.eqb i (length V)); [intros E; injection E as <-; reflexivity|]. exact (t_same _ _ T i q).
    + intros i x. rewrite living_nth, snoc_nth. destruct (Nat.eqb i (length W)) eqn:E.
      * intros X. injection X as <-. cbn [o_refs o_parser]. split; [|split; intros r; [intros []|intros q []]]. destruct NW as [|c q P|h|c h]; try reflexivity. unfold prefix_parser in P. destruct (existsb _ _); [|discriminate]. injection P as <-. reflexivity.
      * intros X. apply living_nth in X. destruct (t_refs _ _ T _ _ X) as (L & R1 & R2). split; [exact L|]. split; [intros r I; rewrite app_length; specialize (R1 r I); lia|]. intros r q I Q. apply (R2 r q I). rewrite snoc_nth in Q. specialize (R1 r I). rewrite (t_len _ _ T) in R1. destruct (Nat.eqb_spec r (length V)); [lia|exact Q].
    + intros i s. unfold living. rewrite !snoc_nth, (t_len _ _ T). destruct (Nat.eqb i (length V)); [eauto|]. exact (t_there _ _ T i s).
    + intros i q. rewrite snoc_nth. destruct (Nat.eqb i (length V)); [intros E; injection E as <-; constructor; exact NW|]. exact (t_good _ _ T i q).
  - pose proof (t_same _ _ T _ _ N) as LK. unfold look in LK. destruct (living W i) as [x|] eqn:LI; [|discriminate]. injection LK as <-. cbn [wstep]. rewrite LI. rewrite (object_call W V i x c T LI N H). destruct (alone_call (o_parser x) c) as (p', e) eqn:AC. eexists. split; [reflexivity|]. cbn [fst].
    assert (GR : grown (o_parser x) p'). { pose proof (call_grown (fun _ => Some (o_parser x)) (o_parser x) (repeat 0%nat (length (options (o_parser x)))) c) as X. unfold OptLifeSpec.alone_call in AC. rewrite AC in X. exact X. }
    pose proof (nth_len _ _ _ (proj1 (living_nth _ _ _) LI)) as LW. pose proof (nth_len _ _ _ N) as LV. destruct (t_refs _ _ T _ _ LI) as (L & R1 & R2). destruct GR as (GP & GL & GO).
    assert (PV : forall r q, nth_error (replace V i (Live p')) r = Some (Live q) -> exists q0, nth_error V r = Some (Live q0) /\ prefix q = prefix q0 /\ long_prefix q = long_prefix q0).
    { intros r q. rewrite replace_nth by assumption. destruct (Nat.eqb_spec r i) as [->|D]; [|eauto]. intros E. injection E as <-. eauto. }
    constructor.
    + rewrite update_len, replace_len. exact (t_len _ _ T).
    + intros j q. rewrite replace_nth by assumption. unfold look, living. rewrite update_nth by assumption. destruct (Nat.eqb j i); [intros E; injection E as <-; reflexivity|]. exact (t_same _ _ T j q).
    + intros j y. rewrite living_nth, update_nth by assumption. rewrite update_len. destruct (Nat.eqb_spec j i) as [->|D].
      * intros E. injection E as <-. cbn [o_refs o_parser with_parser]. split; [rewrite app_length, repeat_length; lia|]. split.
        -- intros r I. apply in_app_or in I. destruct I as [I|I]; [apply R1; exact I|]. apply repeat_spec in I. subst r. exact LW.
        -- intros r q I Q. destruct (PV r q Q) as (q0 & Q0 & -> & ->). apply in_app_or in I. destruct I as [I|I]; [destruct (R2 r q0 I Q0); split; congruence|]. apply repeat_spec in I. subst r. rewrite N in Q0. injection Q0 as <-. auto.
      * intros E. apply living_nth in E. destruct (t_refs _ _ T _ _ E) as (L' & R1' & R2'). split; [exact L'|]. split; [exact R1'|]. intros r q I Q. destruct (PV r q Q) as (q0 & Q0 & -> & ->). exact (R2' r q0 I Q0).
    + intros j s. rewrite replace_nth by assumption. unfold living. rewrite update_nth by assumption. destruct (Nat.eqb j i); [eauto|]. exact (t_there _ _ T j s).
    + intros j q. rewrite replace_nth by assumption. destruct (Nat.eqb j i); [intros E; injection E as <-|exact (t_good _ _ T j q)]. replace p' with (fst (alone_call (o_parser x) c)) by (rewrite AC; reflexivity). apply u_call. exact (t_good _ _ T _ _ N).
  - pose proof (t_same _ _ T _ _ N) as LK. unfold look in LK. destruct (living W i) as [x|] eqn:LI; [|discriminate]. injection LK as <-. cbn [wstep]. rewrite LI. eexists. split; [reflexivity|]. constructor.
    + rewrite !app_length. cbn. pose proof (t_len _ _ T). lia.
    + intros j q. unfold look, living. rewrite !snoc_nth, (t_len _ _ T). destruct (Nat.eqb j (length V)); [intros E; injection E as <-; reflexivity|]. exact (t_same _ _ T j q).
    + assert (OLD : forall j y, living W j = Some y -> length (o_refs y) = length (options (o_parser y)) /\ (forall r, In r (o_refs y) -> (r < length (W ++ [Some x]))%nat) /\
        (forall r q, In r (o_refs y) -> nth_error (V ++ [Live (o_parser x)]) r = Some (Live q) -> prefix q = prefix (o_parser y) /\ long_prefix q = long_prefix (o_parser y))).
      { intros j y X. destruct (t_refs _ _ T _ _ X) as (L & R1 & R2). split; [exact L|]. split; [intros r I; rewrite app_length; specialize (R1 r I); lia|]. intros r q I Q. apply (R2 r q I). rewrite snoc_nth in Q. specialize (R1 r I). rewrite (t_len _ _ T) in R1. destruct (Nat.eqb_spec r (length V)); [lia|exact Q]. }
      intros j y. rewrite living_nth, snoc_nth. destruct (Nat.eqb j (length W)) eqn:E; [intros X; injection X as <-; exact (OLD i x LI)|]. intros X. apply living_nth in X. exact (OLD j y X).
    + intros j s. unfold living. rewrite !snoc_nth, (t_len _ _ T). destruct (Nat.eqb j (length V)); [eauto|]. exact (t_there _ _ T j s).
    + intros j q. rewrite snoc_nth. destruct (Nat.eqb j (length V)); [intros E; injection E as <-; exact (t_good _ _ T _ _ N)|]. exact (t_good _ _ T j q).
  - pose proof (t_same _ _ T _ _ N) as LK. unfold look in LK. destruct (living W i) as [x|] eqn:LI; [|discriminate]. injection LK as <-. cbn [wstep]. rewrite LI. eexists. split; [reflexivity|].
    pose proof (nth_len _ _ _ (proj1 (living_nth _ _ _) LI)) as LW. pose proof (nth_len _ _ _ N) as LV. pose proof (t_len _ _ T) as TL. constructor.
    + rewrite !app_length, update_len, replace_len. cbn. lia.
    + intros j q. unfold look, living. rewrite !snoc_nth, update_len, replace_len, TL, update_nth, replace_nth by assumption. destruct (Nat.eqb j (length V)); [intros E; injection E as <-; reflexivity|]. destruct (Nat.eqb j i); [discriminate|]. exact (t_same _ _ T j q).
    + assert (OLD : forall j y, living W j = Some y -> length (o_refs y) = length (options (o_parser y)) /\ (forall r, In r (o_refs y) -> (r < length (update W i (Some {| o_parser := moved_from (o_parser x); o_refs := [] |}) ++ [Some x]))%nat) /\
        (forall r q, In r (o_refs y) -> nth_error (replace V i MovedFrom ++ [Live (o_parser x)]) r = Some (Live q) -> prefix q = prefix (o_parser y) /\ long_prefix q = long_prefix (o_parser y))).
      { intros j y X. destruct (t_refs _ _ T _ _ X) as (L & R1 & R2). split; [exact L|]. split; [intros r I; rewrite app_length, update_len; specialize (R1 r I); lia|]. intros r q I Q. apply (R2 r q I). rewrite snoc_nth, replace_len, replace_nth in Q by assumption. specialize (R1 r I). rewrite TL in R1. destruct (Nat.eqb_spec r (length V)); [lia|]. destruct (Nat.eqb r i); [discriminate|exact Q]. }
      intros j y. rewrite living_nth, snoc_nth, update_len. destruct (Nat.eqb j (length W)); [intros X; injection X as <-; exact (OLD i x LI)|]. rewrite update_nth by assumption. destruct (Nat.eqb j i).
      * intros X. injection X as <-. cbn [o_refs o_parser moved_from options]. split; [reflexivity|]. split; intros r; [intros []|intros q []].
      * intros X. apply living_nth in X. exact (OLD j y X).
    + intros j s. unfold living. rewrite !snoc_nth, update_len, replace_len, TL, update_nth, replace_nth by assumption. destruct (Nat.eqb j (length V)); [eauto|]. destruct (Nat.eqb j i); [eauto|]. exact (t_there _ _ T j s).
    + intros j q. rewrite snoc_nth, replace_len, replace_nth by assumption. destruct (Nat.eqb j (length V)); [intros E; injection E as <-; exact (t_good _ _ T _ _ N)|]. destruct (Nat.eqb j i); [discriminate|]. exact (t_good _ _ T j q).
  - destruct (t_there _ _ T _ _ N ND) as (x & LI). cbn [wstep]. rewrite LI. eexists. split; [reflexivity|].
    pose proof (nth_len _ _ _ (proj1 (living_nth _ _ _) LI)) as LW. pose proof (nth_len _ _ _ N) as LV. constructor.
    + rewrite update_len, replace_len. exact (t_len _ _ T).
    + intros j q. rewrite replace_nth by assumption. unfold look, living. rewrite update_nth by assumption. destruct (Nat.eqb j i); [discriminate|]. exact (t_same _ _ T j q).
    + intros j y. rewrite living_nth, update_nth by assumption. rewrite update_len. destruct (Nat.eqb j i); [discriminate|]. intros X. apply living_nth in X. destruct (t_refs _ _ T _ _ X) as (L & R1 & R2). split; [exact L|]. split; [exact R1|].
      intros r q I Q. apply (R2 r q I). rewrite replace_nth in Q by assumption. destruct (Nat.eqb r i); [discriminate|exact Q].
    + intros j s. rewrite replace_nth by assumption. unfold living. rewrite update_nth by assumption. destruct (Nat.eqb j i); [intros E NE; injection E as <-; congruence|]. exact (t_there _ _ T j s).
    + intros j q. rewrite replace_nth by assumption. destruct (Nat.eqb j i); [discriminate|]. exact (t_good _ _ T j q).
Qed.
Lemma vstep_det V o V1 e1 V2 e2 : vstep real getenv V o V1 e1 -> vstep real getenv V o V2 e2 -> V1 = V2 /\ e1 = e2.
Proof. intros A B. inversion A; subst; inversion B; subst; try (split; congruence); match goal with X : nth_error ?v ?i = Some ?p, Y : nth_error ?v ?i = Some ?q |- _ => rewrite X in Y; injection Y as <- end; auto. Qed.
Lemma beside_together W V : beside real getenv W V -> together W V.
Proof.
  induction 1 as [|W V o W' V' e e' B IH H S1 S2].
  - constructor; [reflexivity| | | |]; intros i; unfold living; destruct i; discriminate.
  - destruct (beside_step _ _ _ _ _ IH S2 H) as (W1 & S3 & T). rewrite S1 in S3. injection S3 as <- _. exact T.
Qed.
End Used.
