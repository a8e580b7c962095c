(** parse_args. *)
Require Import ZArith List Bool Lia Arith.
From Verif Require Import OptModel OptSpec OptSpec2 OptProofs OptProofs2 OptProofs3 OptProofs4.
Import ListNotations.
Open Scope Z_scope.

Section S.
Variables (real : type -> str -> Z) (getenv : str -> option str).
Notation process_opt := (process_opt real).
Notation parse_args := (parse_args real getenv).
Notation parse_vector := (parse_vector real getenv).
Notation use_env := (use_env real getenv).
Notation use_defaults := (use_defaults real).
Notation do_uses := (do_uses real).
Notation gives := (gives real).
Notation gives_opt := (gives_opt real).
Notation env_text := (env_text getenv).
Notation made := (made real getenv).
Notation declared := (declared real getenv).
Notation reads p := (reading (prefix p) (find_opt p) (takes_many p)).

(** The parser that parse_args uses. *)
Definition prepared (p p3 : parser) (argv : list str) : Prop :=
  exists prog os p1 p2, let q := with_args p (Z.of_nat (length argv)) prog in
    validate_all q (options q) = Ok os /\ add_usage_option (with_options (with_invalid q []) os) = Ok p1 /\
    add_help_option p1 = Ok p2 /\ add_version_option p2 [] = Ok p3.
Lemma validated_alike p n prog os : validate_all (with_args p n prog) (options p) = Ok os -> alike p (with_options (with_invalid (with_args p n prog) []) os).
Proof. intros V. apply validate_all_ok in V. destruct V as (-> & _). repeat split. cbn [options with_options]. apply validate_renamed. Qed.
Lemma alike_version p s : alike p (with_version p s). Proof. repeat split. Qed.
Lemma alike_invalid p s : alike p (with_invalid p s). Proof. repeat split. Qed.
Lemma alike_args p n s : alike p (with_args p n s). Proof. repeat split. Qed.
Lemma prepared_good p p3 argv : prepared p p3 argv -> (good p -> good p3 /\ argc p3 = Z.of_nat (length argv) /\ prefix p3 = prefix p) /\ (fine p -> fine p3).
Proof.
  intros (prog & os & p1 & p2 & V & U & H & W). cbn [options with_args] in V. pose proof (validated_alike _ _ _ _ V) as A.
  assert (G : good p -> good p3 /\ argc p3 = Z.of_nat (length argv) /\ prefix p3 = prefix p).
  { intros G0. pose proof (good_alike _ _ A G0) as Ga. pose proof (good_flag _ _ _ _ U Ga) as G1. pose proof (good_flag _ _ _ _ H G1) as G2. pose proof (good_alike _ _ (alike_version p2 []) G2) as G2'.
    split; [exact (good_flag _ _ _ _ W G2')|].
    destruct (flag_argc _ _ _ _ U (proj1 Ga)) as (B1 & B2 & _). destruct (flag_argc _ _ _ _ H (proj1 G1)) as (C1 & C2 & _). destruct (flag_argc _ _ _ _ W (proj1 G2')) as (D1 & D2 & _).
    rewrite D1, D2. change (argc (with_version p2 [])) with (argc p2). change (prefix (with_version p2 [])) with (prefix p2). rewrite C1, B1, C2, B2. split; reflexivity. }
  split; [exact G|]. intros F0. pose proof (fine_alike _ _ A F0) as Fa. pose proof (fine_flag _ _ _ _ U Fa) as F1. pose proof (fine_flag _ _ _ _ H F1) as F2.
  exact (fine_flag _ _ _ _ W (fine_alike _ _ (alike_version p2 []) F2)).
Qed.
Lemma find_lt p t i : good p -> find_opt p t = Some i -> (i < length (options p))%nat.
Proof. intros (T & S) H. apply find_kept in H; [|exact T]. destruct (S _ _ H) as (o & N & _). eapply nth_lt. exact N. Qed.

(** How a call of parse_args goes. *)
Lemma parse_args_steps p argv : good p -> Z.of_nat (length argv) < 2 ^ 31 ->
  match argv with
  | [] => parse_args p argv = Throw LogicError
  | a0 :: av =>
      (exists f, f <> BeyondArgs /\ f <> BadIndex /\ f <> NoFuel /\ f <> Uninit /\ parse_args p argv = Fault f) \/ (exists e, parse_args p argv = Throw e) \/
      exists p3 rs us, prepared p p3 argv /\ reads p3 av rs us /\
        parse_args p argv = (do st0 <- do_uses p3 empty_store us; do st1 <- use_defaults (options p3) st0; do st2 <- use_env (options p3) st1; Ok (with_invalid p3 (neither 1 rs), st2))
  end.
Proof.
  intros G L. destruct argv as [|a0 av]; [reflexivity|]. cbn [OptModel.parse_args]. set (prog := if nullb (program p) then a0 else program p). unfold OptModel.parse_vector.
  set (q := with_args p (Z.of_nat (length (a0 :: av))) prog).
  destruct (validate_all q (options q)) as [os|e|f] eqn:V; cbn [bnd].
  2:{ right. left. eauto. }
  2:{ left. exists f. assert (f = NoFront) as ->; [|repeat split; discriminate]. clear - V. revert V. generalize (options q). induction l as [|o l IH]; cbn [validate_all]; [discriminate|]. destruct (validate q o) as (o1, [|]).
      - destruct (validate_all q l); cbn [bnd]; intros X; try discriminate. apply IH. exact X.
      - destruct (names o1); congruence. }
  assert (NF : forall p c nm f, add_flag p c nm <> Fault f).
  { intros p' c nm f. unfold add_flag. destruct (negb (contains (short_map p') [prefix p'; c]) && negb (contains (long_map p') (long_prefix p' ++ nm))); [|discriminate]. destruct (add_option p' [[prefix p'; c]; long_prefix p' ++ nm]) as (p1, [e|]); discriminate. }
  destruct (add_usage_option (with_options (with_invalid q []) os)) as [p1|e|f] eqn:U; cbn [bnd]; [|right; left; eauto|destruct (NF _ _ _ _ U)].
  destruct (add_help_option p1) as [p2|e|f] eqn:H; cbn [bnd]; [|right; left; eauto|destruct (NF _ _ _ _ H)].
  destruct (add_version_option p2 []) as [p3|e|f] eqn:W; cbn [bnd]; [|right; left; eauto|destruct (NF _ _ _ _ W)].
  right. right. assert (PR : prepared p p3 (a0 :: av)) by (exists prog, os, p1, p2; auto).
  destruct (proj1 (prepared_good _ _ _ PR) G) as (G3 & AC & _).
  destruct (reading_total (prefix p3) (find_opt p3) (takes_many p3) (S (length av)) av (Nat.lt_succ_diag_r _)) as (rs & us & R). exists p3, rs, us. split; [exact PR|]. split; [exact R|].
  rewrite AC. rewrite Z.mod_small by (cbn [length] in *; lia). change {| w_store := empty_store; w_args := {| args := av; it := 0 |}; w_invalid := [] |} with (mkw empty_store av 0 []).
  rewrite (loop_ok real p3 (Z.of_nat (length (a0 :: av))) av) with (rs := rs) (us := us) (rest := av); auto; try (cbn [length]; lia).
  - rewrite bnd_assoc. apply bnd_ext. intros st0. cbn [bnd mkw w_store w_invalid app]. reflexivity.
  - intros t i. apply find_lt. exact G3.
Qed.
Lemma parse_args_ok p argv p' st : good p -> Z.of_nat (length argv) < 2 ^ 31 -> parse_args p argv = Ok (p', st) ->
  exists a0 av p3 rs us st0 st1, argv = a0 :: av /\ prepared p p3 argv /\ p' = with_invalid p3 (neither 1 rs) /\ reads p3 av rs us /\
    do_uses p3 empty_store us = Ok st0 /\ use_defaults (options p3) st0 = Ok st1 /\ use_env (options p3) st1 = Ok st.
Proof.
  intros G L H. pose proof (parse_args_steps p argv G L) as S. destruct argv as [|a0 av]; [congruence|]. destruct S as [(f & _ & _ & _ & _ & E)|[(e & E)|(p3 & rs & us & PR & R & E)]]; try congruence.
  rewrite H in E. destruct (do_uses p3 empty_store us) as [st0|e|f] eqn:E0; cbn [bnd] in E; try discriminate. destruct (use_defaults (options p3) st0) as [st1|e|f] eqn:E1; cbn [bnd] in E; try discriminate.
  destruct (use_env (options p3) st1) as [st2|e|f] eqn:E2; cbn [bnd] in E; try discriminate. injection E as -> ->. exists a0, av, p3, rs, us, st0, st1. repeat split; auto.
Qed.

(** ** Histories *)
Lemma new_fine p : new p -> fine p.
Proof.
  assert (A : forall c lp h, length lp = 2%nat -> fine (new_parser c lp h)).
  { intros c lp h L. split; [split; [split; [discriminate|split; [discriminate|exact L]]|]|split].
    - intros n i. unfold kept_in. destruct (extract_option_type (new_parser c lp h) n); discriminate.
    - intros i o n N. destruct i; discriminate.
    - intros _ i o n N. destruct i; discriminate. }
  intros [|c q H|h|c h]; try (apply A; reflexivity). unfold prefix_parser in H. destruct (existsb (Z.eqb c) [45; 43; 35; 36; 38; 37]); [|discriminate]. injection H as <-. apply A. reflexivity.
Qed.
Lemma parse_keeps p argv p' st : parse_args p argv = Ok (p', st) -> (good p -> good p') /\ (fine p -> fine p').
Proof.
  intros H. destruct argv as [|a0 av]; [discriminate|]. cbn [OptModel.parse_args] in H. set (prog := if nullb (program p) then a0 else program p) in H. unfold OptModel.parse_vector in H.
  set (q := with_args p (Z.of_nat (length (a0 :: av))) prog) in H. destruct (validate_all q (options q)) as [os|e|f] eqn:V; cbn [bnd] in H; try discriminate.
  destruct (add_usage_option (with_options (with_invalid q []) os)) as [p1|e|f] eqn:U; cbn [bnd] in H; try discriminate.
  destruct (add_help_option p1) as [p2|e|f] eqn:HE; cbn [bnd] in H; try discriminate. destruct (add_version_option p2 []) as [p3|e|f] eqn:W; cbn [bnd] in H; try discriminate.
  assert (PR : prepared p p3 (a0 :: av)) by (exists prog, os, p1, p2; auto). destruct (prepared_good _ _ _ PR) as (G & F).
  assert (AL : alike p3 p').
  { match type of H with bnd ?m _ = _ => destruct m as [w|e|f] end; cbn [bnd] in H; try discriminate.
    match type of H with bnd ?m _ = _ => destruct m as [st1|e|f] end; cbn [bnd] in H; try discriminate. match type of H with bnd ?m _ = _ => destruct m as [st2|e|f] end; cbn [bnd] in H; try discriminate. injection H as <- <-. apply alike_invalid. }
  split; intros X; [eapply good_alike; [exact AL|]; apply G; exact X|eapply fine_alike; [exact AL|]; apply F; exact X].
Qed.
Lemma call_good p e p' : call real getenv p e p' -> good p -> good p'.
Proof.
  intros [q ns q' x H|q i o|q s|q s|q q' H|q q' H|q s q' H|q argv q' st H] G.
  - eapply good_add; eassumption.
  - eapply good_alike; [apply alike_configure|exact G].
  - eapply good_alike; [apply alike_args|exact G].
  - eapply good_alike; [apply alike_version|exact G].
  - eapply good_flag; eassumption.
  - eapply good_flag; eassumption.
  - eapply good_flag; [exact H|]. eapply good_alike; [apply alike_version|exact G].
  - exact (proj1 (parse_keeps _ _ _ _ H) G).
Qed.
Lemma call_fine p e p' : call real getenv p e p' -> e = None -> fine p -> fine p'.
Proof.
  intros [q ns q' x H|q i o|q s|q s|q q' H|q q' H|q s q' H|q argv q' st H] E G.
  - subst. eapply fine_add; eassumption.
  - eapply fine_alike; [apply alike_configure|exact G].
  - eapply fine_alike; [apply alike_args|exact G].
  - eapply fine_alike; [apply alike_version|exact G].
  - eapply fine_flag; eassumption.
  - eapply fine_flag; eassumption.
  - eapply fine_flag; [exact H|]. eapply fine_alike; [apply alike_version|exact G].
  - exact (proj2 (parse_keeps _ _ _ _ H) G).
Qed.
Lemma made_good p : made p -> good p.
Proof. induction 1 as [p N|p e p' _ IH C]; [exact (proj1 (new_fine _ N))|eapply call_good; eassumption]. Qed.
Lemma declared_fine p : declared p -> fine p.
Proof. induction 1 as [p N|p p' _ IH C]; [exact (new_fine _ N)|eapply call_fine; eauto]. Qed.
Lemma declared_made p : declared p -> made p.
Proof. induction 1; [constructor; assumption|econstructor; eassumption]. Qed.

(** ** Faults *)
Lemma parse_value_fault o s f : parse_value real s o = Fault f -> f = Uninit.
Proof. unfold parse_value. destruct (typ o); unfold parse_string; try discriminate; destruct (skip_blanks (cstr s)); cbn; congruence. Qed.
Lemma process_fault o st s f : process_opt o st s = Fault f -> f = Uninit \/ f = Overflow.
Proof.
  assert (PV : forall A (k : option value -> out A) s f, (forall x, k x <> Fault f) -> (do x <- parse_value real s o; k x) = Fault f -> f = Uninit).
  { intros A k s' f' N. destruct (parse_value real s' o) eqn:P; cbn [bnd]; intros H; try discriminate; [destruct (N _ H)|]. injection H as ->. eapply parse_value_fault. exact P. }
  unfold OptModel.process_opt. destruct (act o); try discriminate.
  - intros H. left. eapply PV; [|exact H]. intros []; discriminate.
  - destruct (nullb s); [discriminate|]. intros H. left. eapply PV; [|exact H]. intros []; discriminate.
  - destruct (nullb s); [discriminate|]. intros H. left. eapply PV; [|exact H]. intros []; discriminate.
  - destruct (negb (is_multi_value s)).
    + intros H. left. eapply PV; [|exact H]. intros []; discriminate.
    + destruct (split_ok s 44 true) as (l & _ & E). rewrite E. cbn [bnd]. generalize (map trim_string (kept true l)). clear E. intros ts H. left. revert st H. induction ts as [|t ts IH]; intros st; cbn [append_all]; [discriminate|].
      destruct (parse_value real t o) as [[v|]|e|g] eqn:P; cbn [bnd]; intros H; try discriminate; [exact (IH _ H)|]. injection H as ->. eapply parse_value_fault. exact P.
  - unfold increment. destruct (lookup (dest o) (values st)) as [[]|]; cbn [bnd]; try discriminate. destruct (n + 1 <? 2 ^ 31); cbn [bnd]; intros H; [discriminate|]. right. congruence.
Qed.
Lemma reading_known c known many l rs us : reading c known many l rs us -> Forall (fun u => exists t, known t = Some (fst u)) us.
Proof.
  assert (N : forall a v i, names_option c known a v i -> exists t, known t = Some i) by (intros a v i (_ & n & t & _ & _ & K); eauto).
  assert (M : forall (b : bool) i run us, (exists t, known t = Some i) -> Forall (fun u => exists t, known t = Some (fst u)) us -> Forall (fun u : nat * option (list Z) => exists t, known t = Some (fst u)) ((if b then map (fun s => (i, Some s)) run else []) ++ us)).
  { intros b i run us' K F. destruct b; [|exact F]. apply Forall_app. split; [|exact F]. apply Forall_forall. intros u. rewrite in_map_iff. intros (s & <- & _). exact K. }
  induction 1; auto; try constructor; cbn [fst]; eauto.
Qed.
Lemma uses_fault p us : Forall (fun u => exists t, find_opt p t = Some (fst u)) us -> good p -> forall st f, do_uses p st us = Fault f -> f = Uninit \/ f = Overflow.
Proof.
  intros F G. induction F as [|u us (t & K) F IH]; intros st f; cbn [OptProofs2.do_uses]; [discriminate|].
  destruct (use1 real p st u) as [st1|e|g] eqn:E; cbn [bnd]; [apply IH|discriminate|]. intros H. injection H as <-.
  unfold use1 in E. apply find_lt in K; [|exact G]. apply nth_error_Some in K. destruct (nth_error (options p) (fst u)) as [o|]; [|congruence].
  destruct (snd u) as [s|]; [|destruct (typ o); try discriminate]; match type of E with bnd ?m _ = _ => destruct m as [(a, b)|e|h] eqn:P end; cbn [bnd] in E; try discriminate; injection E as ->; eapply process_fault; exact P.
Qed.
Lemma defaults_fault os : forall st f, use_defaults os st = Fault f -> f = Uninit \/ f = Overflow.
Proof.
  induction os as [|o os IH]; intros st f; cbn [OptModel.use_defaults]; [discriminate|]. destruct (negb (nullb (default o)) && negb (user_set st (dest o))); [|apply IH].
  destruct (process_opt o st (default o)) as [(a, b)|e|h] eqn:P; cbn [bnd]; [apply IH|discriminate|]. intros H. injection H as <-. eapply process_fault. exact P.
Qed.
Lemma env_fault os : forall st f, use_env os st = Fault f -> f = Uninit \/ f = Overflow.
Proof.
  induction os as [|o os IH]; intros st f; cbn [OptModel.use_env]; [discriminate|]. destruct (negb (nullb (env o)) && negb (user_set st (dest o))); [|apply IH].
  destruct (getenv (cstr (env o))) as [v|]; [|apply IH]. destruct (process_opt o st v) as [(a, b)|e|h] eqn:P; cbn [bnd]; [apply IH|discriminate|]. intros H. injection H as <-. eapply process_fault. exact P.
Qed.
Lemma parse_args_fault p argv f : good p -> Z.of_nat (length argv) < 2 ^ 31 -> parse_args p argv = Fault f -> f <> BeyondArgs /\ f <> BadIndex /\ f <> NoFuel.
Proof.
  intros G L H. pose proof (parse_args_steps p argv G L) as S. destruct argv as [|a0 av]; [congruence|]. destruct S as [(g & A & B & C & _ & E)|[(e & E)|(p3 & rs & us & PR & R & E)]].
  - rewrite H in E. injection E as ->. auto.
  - congruence.
  - rewrite H in E. destruct (proj1 (prepared_good _ _ _ PR) G) as (G3 & _). assert (X : f = Uninit \/ f = Overflow); [|destruct X as [->| ->]; repeat split; discriminate].
    destruct (do_uses p3 empty_store us) as [st0|e|g] eqn:E0; cbn [bnd] in E; try discriminate.
    + destruct (use_defaults (options p3) st0) as [st1|e|g] eqn:E1; cbn [bnd] in E; try discriminate.
      * destruct (use_env (options p3) st1) as [st2|e|g] eqn:E2; cbn [bnd] in E; try discriminate. injection E as ->. eapply env_fault. exact E2.
      * injection E as ->. eapply defaults_fault. exact E1.
    + injection E as ->. eapply uses_fault; [|exact G3|exact E0]. eapply reading_known. exact R.
Qed.

(** ** What the store has *)
Lemma uses_cons i (u : nat * option str) us : uses_of i (u :: us) = if Nat.eqb (@fst nat (option str) u) i then snd u :: uses_of i us else uses_of i us.
Proof. destruct u as (j, x). unfold uses_of. cbn [filter fst snd]. destruct (Nat.eqb j i); reflexivity. Qed.
Lemma uses_has p i o : nth_error (options p) i = Some o -> alone (options p) i ->
  forall us st st', do_uses p st us = Ok st' ->
  (act o <> Count -> exists vss, Forall2 (gives o) (uses_of i us) vss /\ forall l, shows o st l -> shows o st' (l ++ concat vss)) /\
  (act o = Count -> forall n, counts o st n -> counts o st' (n + length (uses_of i us))).
Proof.
  intros N AL. induction us as [|u us IH]; intros st st' H; cbn [OptProofs2.do_uses] in H.
  - injection H as <-. split; intros A.
    + exists []. split; [constructor|]. intros l. cbn [concat]. rewrite app_nil_r. auto.
    + intros n. cbn. rewrite Nat.add_0_r. auto.
  - destruct (use1 real p st u) as [st1|e|f] eqn:E; cbn [bnd] in H; try discriminate. destruct (IH _ _ H) as (IH1 & IH2). clear IH H. unfold use1 in E.
    destruct (nth_error (options p) (fst u)) as [oj|] eqn:NJ; [|discriminate].
    assert (P : exists b, process_opt oj st (text (snd u)) = Ok (st1, b) /\ (snd u = None -> typ oj = TBool)).
    { destruct (snd u) as [s|]; cbn [text].
      - destruct (process_opt oj st s) as [(a, b)|e|f]; cbn [bnd] in E; try discriminate. injection E as ->. exists b. split; [reflexivity|discriminate].
      - destruct (typ oj); try discriminate. destruct (process_opt oj st []) as [(a, b)|e|f]; cbn [bnd] in E; try discriminate. injection E as ->. exists b. split; reflexivity. }
    destruct P as (b & P & UT). rewrite uses_cons. destruct (Nat.eqb_spec (fst u) i) as [EI|NI].
    + rewrite EI, N in NJ. injection NJ as <-. split; intros A.
      * destruct (process_gives real o st (snd u) st1 b UT P A) as (vs & GV & SH). destruct (IH1 A) as (vss & F & SH2). exists (vs :: vss). split; [constructor; [exact GV|exact F]|]. intros l L. cbn [concat]. rewrite app_assoc. apply SH2. apply SH. exact L.
      * intros n C. cbn [length]. rewrite <- Nat.add_succ_comm. apply (IH2 A). eapply process_counts; eassumption.
    + pose proof (AL _ _ _ N NJ NI) as D. assert (V : view st1 (dest o) = view st (dest o)) by (eapply process_frame; [exact P|congruence]). split; intros A.
      * destruct (IH1 A) as (vss & F & SH2). exists vss. split; [exact F|]. intros l L. apply SH2. eapply shows_view; eassumption.
      * intros n C. apply (IH2 A). unfold counts in *. congruence.
Qed.

(** A pass over all options, of which only [o] has its destination. *)
Lemma list_alone os i o : nth_error os i = Some o -> alone os i -> exists l1 l2, os = l1 ++ o :: l2 /\ Forall (fun x => dest x <> dest o) (l1 ++ l2).
Proof.
  intros N AL. destruct (nth_error_split _ _ N) as (l1 & l2 & -> & L). exists l1, l2. split; [reflexivity|]. apply Forall_forall. intros x I. apply in_app_or in I. destruct I as [I|I].
  - destruct (In_nth_error _ _ I) as (j & J). pose proof (nth_lt _ _ _ J). apply (AL j o x N); [rewrite nth_error_app1 by lia; exact J|lia].
  - destruct (In_nth_error _ _ I) as (j & J). apply (AL (length l1 + S j)%nat o x N); [|lia]. rewrite nth_error_app2 by lia. replace (length l1 + S j - length l1)%nat with (S j) by lia. exact J.
Qed.
Lemma defaults_frame d os : Forall (fun x => dest x <> d) os -> forall st st', use_defaults os st = Ok st' -> view st' d = view st d.
Proof.
  induction 1 as [|o os D _ IH]; intros st st'; cbn [OptModel.use_defaults]; [congruence|]. destruct (negb (nullb (default o)) && negb (user_set st (dest o))); [|apply IH].
  destruct (process_opt o st (default o)) as [(a, b)|e|h] eqn:P; cbn [bnd]; try discriminate. intros H. rewrite (IH _ _ H). eapply process_frame; [exact P|congruence].
Qed.
Lemma env_frame d os : Forall (fun x => dest x <> d) os -> forall st st', use_env os st = Ok st' -> view st' d = view st d.
Proof.
  induction 1 as [|o os D _ IH]; intros st st'; cbn [OptModel.use_env]; [congruence|]. destruct (negb (nullb (env o)) && negb (user_set st (dest o))); [|apply IH]. destruct (getenv (cstr (env o))) as [v|]; [|apply IH].
  destruct (process_opt o st v) as [(a, b)|e|h] eqn:P; cbn [bnd]; try discriminate. intros H. rewrite (IH _ _ H). eapply process_frame; [exact P|congruence].
Qed.
Lemma defaults_app l1 : forall l2 st, use_defaults (l1 ++ l2) st = (do st1 <- use_defaults l1 st; use_defaults l2 st1).
Proof. induction l1 as [|o l1 IH]; intros l2 st; [reflexivity|]. cbn [app OptModel.use_defaults]. destruct (negb (nullb (default o)) && negb (user_set st (dest o))); [|apply IH]. rewrite bnd_assoc. apply bnd_ext. intros (a, b). apply IH. Qed.
Lemma env_app l1 : forall l2 st, use_env (l1 ++ l2) st = (do st1 <- use_env l1 st; use_env l2 st1).
Proof. induction l1 as [|o l1 IH]; intros l2 st; [reflexivity|]. cbn [app OptModel.use_env]. destruct (negb (nullb (env o)) && negb (user_set st (dest o))); [|apply IH]. destruct (getenv (cstr (env o))); [|apply IH]. rewrite bnd_assoc. apply bnd_ext. intros (a, b). apply IH. Qed.
Lemma step_has o st st' t : (if negb (user_set st (dest o)) then match t with Some s => do (st1, _) <- process_opt o st s; Ok st1 | None => Ok st end else Ok st) = Ok st' ->
  (act o <> Count -> forall l, shows o st l -> (l <> [] /\ shows o st' l) \/ l = [] /\ exists vs, gives_opt o t vs /\ shows o st' vs) /\
  (act o = Count -> forall n, counts o st n -> counts o st' (n + match t with Some _ => 1 | None => 0 end)).
Proof.
  intros H. split.
  - intros A l L. pose proof L as (_ & U). rewrite U in H. destruct l as [|x l]; cbn [nullb negb] in H; [right|left; injection H as <-; split; [discriminate|exact L]]. split; [reflexivity|].
    destruct t as [s|]; [|injection H as <-; exists []; split; [reflexivity|exact L]]. destruct (process_opt o st s) as [(a, b)|e|f] eqn:P; cbn [bnd] in H; try discriminate. injection H as ->.
    destruct (process_gives real o st (Some s) st' b ltac:(discriminate) P A) as (vs & GV & SH). exists vs. split; [exact GV|]. exact (SH [] L).
  - intros A n C. pose proof C as C0. unfold counts, view in C. apply triple in C. destruct C as (_ & _ & U). rewrite U in H. cbn [negb] in H. destruct t as [s|]; [|injection H as <-; rewrite Nat.add_0_r; exact C0].
    destruct (process_opt o st s) as [(a, b)|e|f] eqn:P; cbn [bnd] in H; try discriminate. injection H as ->. rewrite Nat.add_1_r. eapply process_counts; eassumption.
Qed.
Lemma defaults_has os i o st st' : nth_error os i = Some o -> alone os i -> use_defaults os st = Ok st' ->
  (act o <> Count -> forall l, shows o st l -> (l <> [] /\ shows o st' l) \/ l = [] /\ exists vs, gives_opt o (default_text o) vs /\ shows o st' vs) /\
  (act o = Count -> forall n, counts o st n -> counts o st' (n + match default_text o with Some _ => 1 | None => 0 end)).
Proof.
  intros N AL H. destruct (list_alone _ _ _ N AL) as (l1 & l2 & -> & F). apply Forall_app in F. destruct F as (F1 & F2). rewrite defaults_app in H. destruct (use_defaults l1 st) as [sa|e|f] eqn:A; cbn [bnd] in H; try discriminate.
  apply (defaults_frame _ _ F1) in A. cbn [OptModel.use_defaults] in H.
  assert (B : exists sb, (if negb (user_set sa (dest o)) then match default_text o with Some s => do (st1, _) <- process_opt o sa s; Ok st1 | None => Ok sa end else Ok sa) = Ok sb /\ use_defaults l2 sb = Ok st').
  { unfold default_text. destruct (default o) as [|dc dr]; cbn [nullb negb andb] in *; [exists sa; destruct (negb (user_set sa (dest o))); auto|]. destruct (negb (user_set sa (dest o))); [|eauto].
    destruct (process_opt o sa (dc :: dr)) as [(a, b)|e|f]; cbn [bnd] in *; try discriminate. eauto. }
  destruct B as (sb & B & C). apply (defaults_frame _ _ F2) in C. destruct (step_has _ _ _ _ B) as (S1 & S2). split.
  - intros NC l L. destruct (S1 NC l (shows_view _ _ _ _ A L)) as [(X & Y)|(X & vs & G & Y)]; [left|right]; (split; [exact X|]); [|exists vs; split; [exact G|]]; eapply shows_view; eassumption.
  - intros NC n L. unfold counts in *. rewrite C. apply (S2 NC). rewrite A. exact L.
Qed.
Lemma env_has os i o st st' : nth_error os i = Some o -> alone os i -> use_env os st = Ok st' ->
  (act o <> Count -> forall l, shows o st l -> (l <> [] /\ shows o st' l) \/ l = [] /\ exists vs, gives_opt o (env_text o) vs /\ shows o st' vs) /\
  (act o = Count -> forall n, counts o st n -> counts o st' (n + match env_text o with Some _ => 1 | None => 0 end)).
Proof.
  intros N AL H. destruct (list_alone _ _ _ N AL) as (l1 & l2 & -> & F). apply Forall_app in F. destruct F as (F1 & F2). rewrite env_app in H. destruct (use_env l1 st) as [sa|e|f] eqn:A; cbn [bnd] in H; try discriminate.
  apply (env_frame _ _ F1) in A. cbn [OptModel.use_env] in H.
  assert (B : exists sb, (if negb (user_set sa (dest o)) then match env_text o with Some s => do (st1, _) <- process_opt o sa s; Ok st1 | None => Ok sa end else Ok sa) = Ok sb /\ use_env l2 sb = Ok st').
  { unfold OptSpec2.env_text. destruct (env o) as [|dc dr]; cbn [nullb negb andb] in *; [exists sa; destruct (negb (user_set sa (dest o))); auto|]. destruct (negb (user_set sa (dest o))); [|eauto]. destruct (getenv (cstr (dc :: dr))) as [v|]; [|eauto].
    destruct (process_opt o sa v) as [(a, b)|e|f]; cbn [bnd] in *; try discriminate. eauto. }
  destruct B as (sb & B & C). apply (env_frame _ _ F2) in C. destruct (step_has _ _ _ _ B) as (S1 & S2). split.
  - intros NC l L. destruct (S1 NC l (shows_view _ _ _ _ A L)) as [(X & Y)|(X & vs & G & Y)]; [left|right]; (split; [exact X|]); [|exists vs; split; [exact G|]]; eapply shows_view; eassumption.
  - intros NC n L. unfold counts in *. rewrite C. apply (S2 NC). rewrite A. exact L.
Qed.
(** Everything an option gets. *)
Lemma parse_has p argv p' st i o : good p -> Z.of_nat (length argv) < 2 ^ 31 -> parse_args p argv = Ok (p', st) -> nth_error (options p') i = Some o -> alone (options p') i ->
  exists rs us, reads p' (tl argv) rs us /\ invalid p' = neither 1 rs /\
   (act o <> Count -> exists vss dv ev, Forall2 (gives o) (uses_of i us) vss /\
      (concat vss = [] -> gives_opt o (default_text o) dv) /\ (concat vss = [] -> dv = [] -> gives_opt o (env_text o) ev) /\
      has o st (match concat vss with [] => match dv with [] => ev | _ => dv end | l => l end)) /\
   (act o = Count -> counts o st (length (uses_of i us) + (match default_text o with Some _ => 1 | None => 0 end) + (match env_text o with Some _ => 1 | None => 0 end))).
Proof.
  intros G L H N AL. destruct (parse_args_ok _ _ _ _ G L H) as (a0 & av & p3 & rs & us & st0 & st1 & -> & PR & -> & R & E0 & E1 & E2). cbn [options with_invalid] in N, AL.
  exists rs, us. split; [exact R|]. split; [reflexivity|]. destruct (uses_has p3 i o N AL us _ _ E0) as (U1 & U2). destruct (defaults_has _ _ _ _ _ N AL E1) as (D1 & D2). destruct (env_has _ _ _ _ _ N AL E2) as (V1 & V2). split.
  - intros A. destruct (U1 A) as (vss & F & SH). assert (S0 : shows o empty_store []) by (split; [unfold has; destruct (act o); split; reflexivity|reflexivity]). specialize (SH [] S0). cbn [app] in SH.
    destruct (D1 A _ SH) as [(X & SD)|(X & dv & GD & SD)].
    + exists vss, [], []. split; [exact F|]. split; [contradiction|]. split; [contradiction|]. destruct (concat vss) as [|x l] eqn:C; [congruence|]. destruct (V1 A _ SD) as [(_ & SE)|(Y & _)]; [exact (proj1 SE)|discriminate].
    + destruct (V1 A _ SD) as [(Y & SE)|(Y & ev & GE & SE)].
      * exists vss, dv, []. split; [exact F|]. split; [auto|]. split; [contradiction|]. rewrite X. destruct dv; [congruence|exact (proj1 SE)].
      * exists vss, dv, ev. split; [exact F|]. split; [auto|]. split; [auto|]. rewrite X, Y. exact (proj1 SE).
  - intros A. apply (V2 A), (D2 A). apply (U2 A 0%nat). reflexivity.
Qed.
End S.
