(** parse_args and the calls it makes on the store. *)
Require Import ZArith List Bool Lia Arith.
From Verif Require Import OptModel OptModel2 OptSpec OptSpec2 OptSpec3 OptProofs OptProofs2 OptProofs3 OptProofs4 OptProofs5 OptProofs6 OptProofs7 OptStoreModel OptStoreSpec OptStoreProofs OptHistSpec.
Import ListNotations.
Open Scope Z_scope.

Fixpoint run_calls (st : vstore) (l : list scall) : out vstore := match l with [] => Ok st | c :: r => do st1 <- do_scall st c; run_calls st1 r end.
Lemma run_app l1 : forall st l2, run_calls st (l1 ++ l2) = (do st1 <- run_calls st l1; run_calls st1 l2).
Proof. induction l1 as [|c l1 IH]; intros st l2; [reflexivity|]. cbn [app run_calls]. rewrite bnd_assoc. apply bnd_ext. intros st1. apply IH. Qed.
Lemma told_recorded st h : told st h <-> recorded h st. Proof. split; intros H k; exact (H k). Qed.
Lemma told_run l : forall st h st', told st h -> run_calls st l = Ok st' -> told st' (h ++ l).
Proof.
  induction l as [|c l IH]; intros st h st' T; cbn [run_calls]; [intros [= <-]; rewrite app_nil_r; exact T|]. destruct (do_scall st c) as [st1|e|f] eqn:E; cbn [bnd]; try discriminate. intros H.
  change (c :: l) with ([c] ++ l). rewrite app_assoc. eapply IH; [|exact H]. eapply told_step; eassumption.
Qed.
Lemma run_sets k vs : forall st, run_calls st (map (fun v => SSet k v) vs) = Ok (fold_left (fun st v => set_value st k v) vs st).
Proof. induction vs as [|v vs IH]; intros st; [reflexivity|]. cbn [map run_calls do_scall bnd fold_left]. apply IH. Qed.
Lemma run_appends k vs : forall st, run_calls st (map (fun v => SAppend k v) vs) = Ok (fold_left (fun st v => append_value st k v) vs st).
Proof. induction vs as [|v vs IH]; intros st; [reflexivity|]. cbn [map run_calls do_scall bnd fold_left]. apply IH. Qed.

(** Histories that can be performed. *)
Lemma step_iff st h k : told st h -> ((exists st', do_scall st (SIncrement k) = Ok st') <-> value_of k h None \/ exists n, value_of k h (Some (VInt n)) /\ n < 2 ^ 31 - 1).
Proof.
  intros T. destruct (T k) as (V & _). cbn [do_scall]. unfold increment. change (lookup k (values st)) with (get st k). split.
  - intros (st' & H). destruct (get st k) as [[]|]; try discriminate; [|left; exact V]. right. exists n. split; [exact V|]. destruct (Z.ltb_spec (n + 1) (2 ^ 31)); [lia|discriminate].
  - intros [N|(n & N & L)]; rewrite (value_fun _ _ _ _ V N); [eauto|]. destruct (Z.ltb_spec (n + 1) (2 ^ 31)); [eauto|lia].
Qed.
Lemma run_iff l : forall st h, told st h -> ((exists st', run_calls st l = Ok st') <->
  forall l1 k l2, l = l1 ++ SIncrement k :: l2 -> value_of k (h ++ l1) None \/ exists n, value_of k (h ++ l1) (Some (VInt n)) /\ n < 2 ^ 31 - 1).
Proof.
  induction l as [|c l IH]; intros st h T; cbn [run_calls]; [split; [intros _ [|? ?] k l2 [=]|eauto]|]. split.
  - intros (st' & H). destruct (do_scall st c) as [st1|e|f] eqn:E; cbn [bnd] in H; try discriminate. intros [|c1 l1] k l2 [=]; subst.
    + rewrite app_nil_r. apply (step_iff _ _ _ T). eauto.
    + change (c1 :: l1) with ([c1] ++ l1). rewrite app_assoc. exact (proj1 (IH _ _ (told_step _ _ _ _ T E)) (ex_intro _ st' H) l1 k l2 eq_refl).
  - intros X. assert (E : exists st1, do_scall st c = Ok st1).
    { destruct c as [k v|k v|k vs|k]; try (eexists; reflexivity). apply (step_iff _ _ _ T). specialize (X [] k l eq_refl). rewrite app_nil_r in X. exact X. }
    destruct E as (st1 & E). rewrite E. cbn [bnd]. apply (IH _ _ (told_step _ _ _ _ T E)). intros l1 k l2 ->. specialize (X (c :: l1) k l2 eq_refl). rewrite <- app_assoc. exact X.
Qed.

Section S.
Variables (real : type -> str -> Z) (getenv : str -> option str).
Notation process_opt := (process_opt real).
Notation parse_args := (parse_args real getenv).
Notation use_env := (use_env real getenv).
Notation use_defaults := (use_defaults real).
Notation do_uses := (do_uses real).
Notation gives := (gives real).
Notation calls := (calls real).
Notation env_text := (env_text getenv).
Notation finish := (finish real getenv).

Lemma append_all_each o ts vs : each real o ts vs -> forall st, exists b, append_all real o st ts = Ok (fold_left (fun st v => append_value st (dest o) v) vs st, b).
Proof.
  induction 1 as [|s v l vs R E IH|s l R]; intros st; cbn [append_all fold_left].
  - eauto.
  - rewrite (parse_is _ _ _ _ R). cbn [bnd]. apply IH.
  - rewrite (parse_is _ _ _ _ R). cbn [bnd]. eauto.
Qed.
Lemma process_eq o u cs : calls o u cs -> forall st, exists b, process_opt o st (text u) = (do st' <- run_calls st cs; Ok (st', b)).
Proof.
  intros [A T|vs A G|vs NA NC G] st.
  - exists true. unfold OptModel.process_opt. rewrite A. cbn [run_calls do_scall]. destruct (increment st (dest o)); reflexivity.
  - rewrite run_appends. cbn [bnd]. destruct G as [u' A' U|u' A' U|s v A' R|s v A' N R|s l ts vs' A' I P F E]; try congruence.
    + destruct A' as [A'|([A'|A'] & _)]; congruence.
    + cbn [text]. unfold OptModel.process_opt. rewrite A. assert (is_multi_value s = false) as -> by (destruct (is_multi_value s) eqn:M; [apply multi_ok in M; contradiction|reflexivity]). cbn [negb]. rewrite (parse_is _ _ _ _ R). cbn [bnd]. destruct v; cbn [only fold_left]; eauto.
    + cbn [text]. unfold OptModel.process_opt. rewrite A. apply multi_ok in I. rewrite I. cbn [negb]. destruct (split_ok s 44 true) as (l' & P' & S). rewrite S. cbn [bnd].
      rewrite (pieces_unique _ _ _ _ P P') in F. assert (map trim_string (kept true l') = ts) as ->; [|apply append_all_each; exact E].
      clear - F. unfold kept. replace (filter (fun x : list Z => negb (length x =? 0)%nat) l') with (filter (fun x : list Z => negb (nullb x)) l') in F.
      * change (list str) with (list (list Z)). change str with (list Z). induction F as [|x t0 q ts0 T F IH]; cbn [map]; [reflexivity|]. f_equal; [exact (trim_is _ _ T)|exact IH].
      * clear. induction l' as [|x l IH]; [reflexivity|]. cbn [filter]. rewrite IH. destruct x; reflexivity.
  - rewrite run_sets. cbn [bnd].
    assert (ST : forall s v, reads_as real o s v -> exists b, (do x <- parse_value real s o; match x with Some v => Ok (set_value st (dest o) v, true) | None => Ok (st, false) end) = Ok (fold_left (fun st v => set_value st (dest o) v) (only v) st, b)).
    { intros s v R. rewrite (parse_is _ _ _ _ R). cbn [bnd]. destruct v; cbn [only fold_left]; eauto. }
    destruct G as [u' A' U|u' A' U|s v A' R|s v A' N R|s l ts vs' A' I P F E]; try congruence; unfold OptModel.process_opt.
    + rewrite A'. assert (text u' = []) as -> by (destruct U as [(-> & _)|E]; [reflexivity|rewrite E; reflexivity]). cbn. eauto.
    + rewrite A'. assert (text u' = []) as -> by (destruct U as [(-> & _)|E]; [reflexivity|rewrite E; reflexivity]). cbn. eauto.
    + cbn [text]. destruct A' as [A'|([A'|A'] & NS)]; rewrite A'; [exact (ST _ _ R)| |]; (destruct s; [congruence|]; cbn [nullb]; exact (ST _ _ R)).
Qed.
Lemma process_calls o st u st' b : (u = None -> typ o = TBool) -> process_opt o st (text u) = Ok (st', b) -> exists cs, calls o u cs /\ run_calls st cs = Ok st'.
Proof.
  intros T H. assert (X : exists cs, calls o u cs).
  { assert (CC : act o = Count \/ act o <> Count) by (destruct (act o); auto; right; discriminate). destruct CC as [C|NC]; [eexists; apply ca_count; assumption|].
    destruct (process_gives real o st u st' b T H NC) as (vs & G & _). assert (AA : act o = Append \/ act o <> Append) by (destruct (act o); auto; right; discriminate). destruct AA as [A|NA]; eexists; [apply ca_append|apply ca_set]; eassumption. }
  destruct X as (cs & C). exists cs. split; [exact C|]. destruct (process_eq o u cs C st) as (b' & E). rewrite H in E. destruct (run_calls st cs); cbn [bnd] in E; congruence.
Qed.
Lemma calls_none o cs : calls o None cs -> typ o = TBool.
Proof. intros [A T|vs A G|vs NA NC G]; [exact (T eq_refl)| |]; eapply gives_none; exact G. Qed.

(** The command line. *)
Lemma use1_eq p st i u o cs : nth_error (options p) i = Some o -> calls o u cs -> use1 real p st (i, u) = run_calls st cs.
Proof.
  intros N C. destruct (process_eq o u cs C st) as (b & E). unfold use1. cbn [fst snd]. rewrite N. destruct u as [s|]; cbn [text] in E.
  - rewrite E. destruct (run_calls st cs); reflexivity.
  - rewrite (calls_none _ _ C), E. destruct (run_calls st cs); reflexivity.
Qed.
Lemma uses_eq p us h : entered real (options p) us h -> forall st, do_uses p st us = run_calls st h.
Proof.
  induction 1 as [|i u o cs us l N C E IH]; intros st; [reflexivity|]. cbn [OptProofs2.do_uses]. rewrite (use1_eq p st i u o cs N C), run_app. apply bnd_ext. intros st1. apply IH.
Qed.
Lemma uses_entered p us : forall st st', do_uses p st us = Ok st' -> exists h, entered real (options p) us h.
Proof.
  induction us as [|(i, u) us IH]; intros st st' H; [exists []; constructor|]. cbn [OptProofs2.do_uses] in H. destruct (use1 real p st (i, u)) as [st1|e|f] eqn:E; cbn [bnd] in H; try discriminate. destruct (IH _ _ H) as (h & EH).
  unfold use1 in E. cbn [fst snd] in E. destruct (nth_error (options p) i) as [o|] eqn:N; [|discriminate].
  assert (PT : (u = None -> typ o = TBool) /\ exists b, process_opt o st (text u) = Ok (st1, b)).
  { destruct u as [s|]; cbn [text].
    - split; [discriminate|]. destruct (process_opt o st s) as [(x, b)|e|f]; cbn [bnd] in E; try discriminate. injection E as <-. eauto.
    - destruct (typ o); try discriminate. split; [reflexivity|]. destruct (process_opt o st []) as [(x, b)|e|f]; cbn [bnd] in E; try discriminate. injection E as <-. eauto. }
  destruct PT as (T & b & P). destruct (process_calls _ _ _ _ _ T P) as (cs & C & _). exists (cs ++ h). econstructor; eassumption.
Qed.

(** Defaults and environment. *)
Lemma marked_iff st h k : told st h -> (marked k h <-> user_set st k = true).
Proof. intros T. symmetry. exact (proj2 (proj2 (T k))). Qed.
Lemma defaults_eq h os l : filled real default_text h os l -> forall st, told st h -> use_defaults os st = run_calls st l.
Proof.
  induction 1 as [h|h o os l N F IH|h o os l M F IH|h o os s cs l N M C F IH]; intros st T; cbn [OptModel.use_defaults]; [reflexivity| | |].
  - unfold default_text in N. destruct (default o); [|discriminate]. cbn [nullb negb andb]. exact (IH st T).
  - rewrite (proj1 (marked_iff st h _ T) M). rewrite andb_false_r. exact (IH st T).
  - unfold default_text in N. destruct (default o) as [|c r]; [discriminate|]. injection N as <-. cbn [nullb negb andb]. assert (user_set st (dest o) = false) as -> by (destruct (user_set st (dest o)) eqn:U; [exfalso; apply M, (marked_iff st h _ T), U|reflexivity]).
    cbn [negb]. destruct (process_eq o (Some (c :: r)) cs C st) as (b & E). cbn [text] in E. rewrite E, run_app. destruct (run_calls st cs) as [st1|e|f] eqn:R; cbn [bnd]; try reflexivity. apply IH. eapply told_run; eassumption.
Qed.
Lemma env_eq h os l : filled real env_text h os l -> forall st, told st h -> use_env os st = run_calls st l.
Proof.
  induction 1 as [h|h o os l N F IH|h o os l M F IH|h o os s cs l N M C F IH]; intros st T; cbn [OptModel.use_env]; [reflexivity| | |].
  - unfold OptSpec2.env_text in N. destruct (env o) as [|c r]; cbn [nullb negb andb]; [exact (IH st T)|]. rewrite N. destruct (negb (user_set st (dest o))); exact (IH st T).
  - rewrite (proj1 (marked_iff st h _ T) M). rewrite andb_false_r. exact (IH st T).
  - unfold OptSpec2.env_text in N. destruct (env o) as [|c r]; [discriminate|]. cbn [nullb negb andb]. assert (user_set st (dest o) = false) as -> by (destruct (user_set st (dest o)) eqn:U; [exfalso; apply M, (marked_iff st h _ T), U|reflexivity]).
    cbn [negb]. rewrite N. destruct (process_eq o (Some s) cs C st) as (b & E). cbn [text] in E. rewrite E, run_app. destruct (run_calls st cs) as [st1|e|f] eqn:R; cbn [bnd]; try reflexivity. apply IH. eapply told_run; eassumption.
Qed.
Lemma defaults_filled os : forall st h st', told st h -> use_defaults os st = Ok st' -> exists l, filled real default_text h os l.
Proof.
  induction os as [|o os IH]; intros st h st' T; cbn [OptModel.use_defaults]; [intros _; exists []; constructor|]. destruct (default_text o) as [s|] eqn:D.
  - destruct (user_set st (dest o)) eqn:U.
    + rewrite andb_false_r. intros H. destruct (IH _ _ _ T H) as (l & F). exists l. apply fi_there; [apply (marked_iff st h _ T), U|exact F].
    + unfold default_text in D. destruct (default o) as [|c r] eqn:DD; [discriminate|]. injection D as <-. cbn [nullb negb andb]. destruct (process_opt o st (c :: r)) as [(st1, b)|e|f] eqn:P; cbn [bnd]; try discriminate. intros H.
      destruct (process_calls o st (Some (c :: r)) st1 b ltac:(discriminate) P) as (cs & C & R). destruct (IH _ _ _ (told_run _ _ _ _ T R) H) as (l & F). exists (cs ++ l). eapply fi_used; [unfold default_text; rewrite DD; reflexivity| |exact C|exact F].
      intros M. apply (marked_iff st h _ T) in M. congruence.
  - unfold default_text in D. destruct (default o) as [|c r] eqn:DD; [|discriminate]. cbn [nullb negb andb]. intros H. destruct (IH _ _ _ T H) as (l & F). exists l. apply fi_none; [unfold default_text; rewrite DD; reflexivity|exact F].
Qed.
Lemma env_filled os : forall st h st', told st h -> use_env os st = Ok st' -> exists l, filled real env_text h os l.
Proof.
  induction os as [|o os IH]; intros st h st' T; cbn [OptModel.use_env]; [intros _; exists []; constructor|]. destruct (env_text o) as [s|] eqn:D.
  - destruct (user_set st (dest o)) eqn:U.
    + rewrite andb_false_r. intros H. destruct (IH _ _ _ T H) as (l & F). exists l. apply fi_there; [apply (marked_iff st h _ T), U|exact F].
    + pose proof D as D0. unfold OptSpec2.env_text in D. destruct (env o) as [|c r]; [discriminate|]. cbn [nullb negb andb]. rewrite D. destruct (process_opt o st s) as [(st1, b)|e|f] eqn:P; cbn [bnd]; try discriminate. intros H.
      destruct (process_calls o st (Some s) st1 b ltac:(discriminate) P) as (cs & C & R). destruct (IH _ _ _ (told_run _ _ _ _ T R) H) as (l & F). exists (cs ++ l). eapply fi_used; [exact D0| |exact C|exact F].
      intros M. apply (marked_iff st h _ T) in M. congruence.
  - intros H. assert (H' : use_env os st = Ok st').
    { unfold OptSpec2.env_text in D. destruct (env o) as [|c r]; cbn [nullb negb andb] in H; [exact H|]. rewrite D in H. destruct (negb (user_set st (dest o))); exact H. }
    destruct (IH _ _ _ T H') as (l & F). exists l. apply fi_none; assumption.
Qed.
(** The three together. *)
Lemma fill_eq q us h : history real getenv (options q) us h ->
  (do st0 <- do_uses q empty_store us; do st1 <- use_defaults (options q) st0; use_env (options q) st1) = run_calls empty_store h.
Proof.
  intros (h0 & h1 & h2 & E & D & V & ->). rewrite (uses_eq q us h0 E), run_app. destruct (run_calls empty_store h0) as [st0|e|f] eqn:R0; cbn [bnd]; try reflexivity. pose proof (told_run _ _ _ _ told_empty R0) as T0. cbn [app] in T0.
  rewrite (defaults_eq _ _ _ D st0 T0), run_app. destruct (run_calls st0 h1) as [st1|e|f] eqn:R1; cbn [bnd]; try reflexivity. apply (env_eq _ _ _ V). eapply told_run; eassumption.
Qed.
Lemma fill_history q us st0 st1 st2 : do_uses q empty_store us = Ok st0 -> use_defaults (options q) st0 = Ok st1 -> use_env (options q) st1 = Ok st2 -> exists h, history real getenv (options q) us h.
Proof.
  intros E0 E1 E2. destruct (uses_entered q us _ _ E0) as (h0 & H0). rewrite (uses_eq q us h0 H0) in E0. pose proof (told_run _ _ _ _ told_empty E0) as T0. cbn [app] in T0. destruct (defaults_filled _ _ _ _ T0 E1) as (h1 & H1).
  rewrite (defaults_eq _ _ _ H1 st0 T0) in E1. pose proof (told_run _ _ _ _ T0 E1) as T1. destruct (env_filled _ _ _ _ T1 E2) as (h2 & H2). exists (h0 ++ h1 ++ h2), h0, h1, h2. auto.
Qed.
Lemma parse_history p argv p' st : good p -> Z.of_nat (length argv) < 2 ^ 31 -> parse_args p argv = Ok (p', st) ->
  exists rs us h, reading (prefix p') (find_opt p') (takes_many p') (tl argv) rs us /\ invalid p' = neither 1 rs /\ history real getenv (options p') us h /\ countable h /\ recorded h st.
Proof.
  intros G L H. destruct (parse_args_ok _ _ _ _ _ _ G L H) as (a0 & av & p3 & rs & us & st0 & st1 & -> & PR & -> & R & E0 & E1 & E2). destruct (fill_history p3 us _ _ _ E0 E1 E2) as (h & HI). exists rs, us, h. split; [exact R|]. split; [reflexivity|]. split; [exact HI|].
  pose proof (fill_eq p3 us h HI) as X. rewrite E0 in X. cbn [bnd] in X. rewrite E1 in X. cbn [bnd] in X. rewrite E2 in X. symmetry in X. split.
  - exact (proj1 (run_iff h _ [] told_empty) (ex_intro _ st X)).
  - apply told_recorded. exact (told_run h _ [] _ told_empty X).
Qed.
Lemma returns_exactly p argv os known rs us h : fine p -> argv <> [] -> Z.of_nat (length argv) < 2 ^ 31 -> Forall complete (options p) -> equipped p os ->
  (forall t, stands_for p os t (known t)) -> reading (prefix p) known (fun i => match nth_error os i with Some o => is_append (act o) | None => false end) (tl argv) rs us ->
  history real getenv os us h -> countable h -> exists p' st, parse_args p argv = Ok (p', st) /\ options p' = os /\ invalid_args p' = neither 1 rs /\ recorded h st.
Proof.
  intros F NE LEN C EQ ST R HI CO. destruct argv as [|a0 av]; [congruence|]. cbn [tl] in R. destruct (equipped_prep p os F C EQ) as (q & P & O). pose proof (proj1 F) as G. destruct (prep_ok _ _ G P) as (own & _ & Gq & Fq & _ & _ & K). specialize (Fq F).
  rewrite parse_args_prep, P. cbn [bnd]. set (n := Z.of_nat (length (a0 :: av))). set (s := if nullb (program p) then a0 else program p). set (q' := with_args q n s).
  assert (KN : forall t, known t = find_opt q' t).
  { intros t. apply (stands_unique p os t); [apply ST|]. pose proof (find_stands q t Fq) as X. unfold stands_for, long_name in *. rewrite (k_prefix _ _ K), (k_long _ _ K), O in X. exact X. }
  assert (R' : reading (prefix q') (find_opt q') (takes_many q') av rs us).
  { change (prefix q') with (prefix q). rewrite (k_prefix _ _ K). change (prefix (with_version (with_invalid p []) [])) with (prefix p). eapply reading_ext; [exact KN| |exact R]. intros i. unfold takes_many. cbn [q' options with_args]. rewrite O. reflexivity. }
  match goal with |- context [OptProofs6.finish real getenv ?x ?y] => change (OptProofs6.finish real getenv x y) with (OptProofs6.finish real getenv q' av) end.
  rewrite (finish_steps real getenv q' av rs us); [|exact Gq|cbn; lia|cbn [argc q' with_args]; unfold n; lia|exact R'].
  assert (OQ : options q' = os) by exact O. rewrite <- OQ in HI. pose proof (fill_eq q' us h HI) as X. destruct (proj2 (run_iff h _ [] told_empty) CO) as (st & RC). rewrite RC in X.
  destruct (do_uses q' empty_store us) as [st0|e|f]; cbn [bnd] in *; try discriminate. destruct (use_defaults (options q') st0) as [st1|e|f]; cbn [bnd] in *; try discriminate. rewrite X. cbn [bnd].
  eexists _, _. split; [reflexivity|]. split; [exact OQ|]. split; [reflexivity|]. apply told_recorded. exact (told_run h _ [] _ told_empty RC).
Qed.
(** The calls are determined. *)
Lemma calls_fun o u cs cs' : calls o u cs -> calls o u cs' -> cs = cs'.
Proof. intros [A T|vs A G|vs NA NC G] [A' T'|vs' A' G'|vs' NA' NC' G']; try congruence; rewrite (gives_unique real _ _ _ _ G G'); reflexivity. Qed.
Lemma entered_fun os us h : entered real os us h -> forall h', entered real os us h' -> h = h'.
Proof.
  induction 1 as [|i u o cs us l N C E IH]; intros h' H; inversion H as [|i' u' o' cs' us' l' N' C' E']; subst; [reflexivity|]. rewrite N in N'. injection N' as <-. rewrite (calls_fun _ _ _ _ C C'), (IH _ E'). reflexivity.
Qed.
Lemma filled_fun t h os l : filled real t h os l -> forall l', filled real t h os l' -> l = l'.
Proof.
  induction 1 as [h|h o os l N F IH|h o os l M F IH|h o os s cs l N M C F IH]; intros l' H; inversion H; subst; try reflexivity; auto; try congruence; try contradiction.
  match goal with A : t o = Some ?x, B : t o = Some ?y |- _ => rewrite A in B; injection B as -> end.
  match goal with A : calls o _ ?x, B : calls o _ ?y |- _ => pose proof (calls_fun _ _ _ _ A B); subst end. f_equal. auto.
Qed.
Lemma history_fun os us h h' : history real getenv os us h -> history real getenv os us h' -> h = h'.
Proof.
  intros (a & b & c & A & B & C & ->) (a' & b' & c' & A' & B' & C' & ->). pose proof (entered_fun _ _ _ A _ A'); subst a'. pose proof (filled_fun _ _ _ _ B _ B'); subst b'. pose proof (filled_fun _ _ _ _ C _ C'); subst c'. reflexivity.
Qed.
End S.
