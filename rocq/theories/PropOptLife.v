(** Properties C87 and C88: parsers after a throw, and copies of parsers. *)
Require Import ZArith Bool Lia Arith Ascii String List Sorted.
From Verif Require Import OptModel OptModel2 OptSpec OptSpec2 OptSpec3 OptProofs OptProofs2 OptProofs3 OptProofs4 OptProofs5 OptProofs6 OptLifeModel OptLifeSpec OptLifeProofs OptLifeProofs2 OptLifeProofs3 PropOpt PropOpt2 PropOpt3.
Import ListNotations.
Open Scope string_scope.
Open Scope list_scope.
Open Scope Z_scope.

Section Props.
Variables (real : type -> list Z -> Z) (getenv : list Z -> option (list Z)).
Notation used := (used real getenv).
Notation beside := (beside real getenv).
Notation parse_args := (parse_args real getenv).
Notation alone_call := (alone_call real getenv).

(** C87: a parse_args on a parser ends as in the other properties, and leaves the same
    parser if it returns. *)
Theorem C87_parse : forall p argv, match parse_args p argv with
  | Ok (p', st) => alone_call p (PParse argv) = (p', Returned st)
  | Throw e => snd (alone_call p (PParse argv)) = Threw e
  | Fault f => snd (alone_call p (PParse argv)) = Faulted f
  end.
Proof.
  intros p argv. unfold OptLifeSpec.alone_call. cbn [do_call]. destruct (parse_object_ends real getenv p p (repeat 0%nat (length (options p))) argv eq_refl eq_refl (repeat_length _ _)) as (A & B).
  destruct (parse_args p argv) as [(p', st)|e|f]; [|exact A..]. rewrite (surjective_pairing (parse_object _ _ _ _ _ _)), A, (B p' st eq_refl). reflexivity.
Qed.
(** After a parse_args, however it ended, the next one does what it would have done
    without it. *)
Theorem C87_retry : forall p argv argv2, used p ->
  (do (q, st) <- parse_args (fst (alone_call p (PParse argv))) argv2; Ok (st, invalid_args q, options q)) = (do (q, st) <- parse_args p argv2; Ok (st, invalid_args q, options q)).
Proof. intros p argv argv2 U. exact (retry real getenv p p (repeat 0%nat (length (options p))) argv argv2 (used_good _ _ _ U) eq_refl eq_refl (repeat_length _ _)). Qed.
(** And what it lists as not recognised are arguments, in order and each once. *)
Theorem C87_listed : forall p argv, argv <> [] -> let p' := fst (alone_call p (PParse argv)) in
  StronglySorted lt (invalid_args p') /\ forall i, In i (invalid_args p') -> (1 <= i < length argv)%nat.
Proof.
  intros p argv NE. destruct argv as [|a0 av]; [congruence|]. cbn zeta. destruct (parse_lists real getenv (fun _ => Some p) p (repeat 0%nat (length (options p))) a0 av) as (A & B). split; [exact A|]. intros i I. rewrite Forall_forall in B. specialize (B i I). cbn [length]. lia.
Qed.

(** C88: parsers are values, as far as those parsed with have only options that have
    a destination or were declared on a parser that is still there. *)
Theorem C88_value_semantics_partial : forall W V o V' e, beside W V -> vstep real getenv V o V' e -> parses_at_home W V o ->
  exists W', wstep real getenv W o = Some (W', e) /\ beside W' V'.
Proof.
  intros W V o V' e B ST H. destruct (beside_step real getenv _ _ _ _ _ (beside_together _ _ _ _ B) ST H) as (W' & E & _). exists W'. split; [exact E|]. eapply b_step; eassumption.
Qed.
Theorem C88_parsers : forall W V i p, beside W V -> nth_error V i = Some (Live p) -> look W i = Some p /\ used p.
Proof. intros W V i p B N. pose proof (beside_together _ _ _ _ B) as T. split; [exact (t_same _ _ _ _ T _ _ N)|exact (t_good _ _ _ _ T _ _ N)]. Qed.
(** So with destinations given, copies and moves do not matter. *)
Theorem C88_with_destinations : forall W V i p argv, beside W V -> nth_error V i = Some (Live p) -> Forall (fun o => dest o <> []) (options p) ->
  exists W', wstep real getenv W (WCall i (PParse argv)) = Some (W', snd (alone_call p (PParse argv))).
Proof.
  intros W V i p argv B N F. destruct (C88_value_semantics_partial W V (WCall i (PParse argv)) _ _ B (v_call real getenv V i p (PParse argv) N)) as (W' & E & _); [|exists W'; exact E].
  intros x k o r L NO _. left. destruct (C88_parsers _ _ _ _ B N) as (LK & _). unfold look in LK. rewrite L in LK. injection LK as <-. rewrite Forall_forall in F. apply F. eapply nth_error_In. exact NO.
Qed.
(** And after one parse_args that returned, every option has its destination. *)
Theorem C88_settled : forall p argv st, used p -> snd (alone_call p (PParse argv)) = Returned st -> Forall (fun o => dest o <> []) (options (fst (alone_call p (PParse argv)))).
Proof.
  intros p argv st U R. pose proof (used_good _ _ _ U) as G. pose proof (C87_parse p argv) as H. destruct (parse_args p argv) as [(p', st')|e|f] eqn:P; try congruence. rewrite H. cbn [fst]. clear H R.
  destruct argv as [|a0 av]; [discriminate|]. rewrite parse_args_prep in P. destruct (prep p) as [q|e|f] eqn:Q; cbn [bnd] in P; try discriminate. destruct (finish_parser _ _ _ _ _ _ P) as (l & ->). cbn [options with_invalid with_args].
  destruct (prep_ok _ _ G Q) as (own & V & _ & _ & O & _). apply (validate_all_iff p (proj2 (proj2 (proj1 G)))) in V. destruct V as (S & _). rewrite O. apply Forall_app. split.
  - clear -S. induction S as [|o o' os own SE S IH]; constructor; [|exact IH]. exact (proj1 (proj2 (proj2 (proj2 (proj2 (proj2 (proj2 SE))))))).
  - apply Forall_forall. intros o I. apply in_map_iff in I. destruct I as (a & <- & I). apply filter_In in I. destruct (auto_settled p a (proj1 I)) as (SE & _). exact (proj1 (proj2 (proj2 (proj2 (proj2 (proj2 (proj2 SE))))))).
Qed.
End Props.
Print Assumptions C87_parse.
Print Assumptions C87_retry.
Print Assumptions C87_listed.
Print Assumptions C88_value_semantics_partial.
Print Assumptions C88_parsers.
Print Assumptions C88_with_destinations.
Print Assumptions C88_settled.

(** ** Where copies are not values *)
(** Worlds after some operations. *)
Fixpoint worlds real getenv (W : world) (l : list wop) : option (world * list ending) :=
  match l with
  | [] => Some (W, [])
  | o :: r => match wstep real getenv W o with
              | None => None
              | Some (W1, e) => match worlds real getenv W1 r with None => None | Some (W2, es) => Some (W2, e :: es) end
              end
  end.
(** An option -f --file of type string, without a destination, as in the documentation. *)
Definition an_option : option_ := {| names := []; act := Store; typ := TString; dest := []; default := []; choices := []; env := [] |}.
Definition declaring : list wop := [WNew default_parser; WCall 0 (PAdd [t "-f"; t "--file"]); WCall 0 (PSet 0 an_option)].
Definition an_argv : list (list Z) := [t "prog"; t "-f"; t "a"].
Definition ends (r : option (world * list ending)) : list ending := match r with None => [] | Some (_, es) => skipn 4 es end.
Definition returned_file (e : ending) : Prop := exists st, e = Returned st /\ get st (t "file") = Some (VStr (t "a")).
(** Operations other than parse_args keep objects and values side by side. *)
Definition not_parse (o : wop) : bool := match o with WCall _ (PParse _) => false | _ => true end.
Fixpoint values_after real getenv (V : values_) (l : list wop) : option values_ :=
  match l with
  | [] => Some V
  | o :: r =>
      if negb (not_parse o) then None else
      match o with
      | WNew _ => values_after real getenv (V ++ [Live default_parser]) r
      | WCall i c => match nth_error V i with Some (Live p) => values_after real getenv (replace V i (Live (fst (alone_call real getenv p c)))) r | _ => None end
      | WCopy i => match nth_error V i with Some (Live p) => values_after real getenv (V ++ [Live p]) r | _ => None end
      | WMove i => match nth_error V i with Some (Live p) => values_after real getenv (replace V i MovedFrom ++ [Live p]) r | _ => None end
      | WDestroy i => match nth_error V i with Some Destroyed | None => None | Some _ => values_after real getenv (replace V i Destroyed) r end
      end
  end.
Lemma side_by_side real getenv : forall l W V, beside real getenv W V -> Forall (fun o => match o with WNew p => p = default_parser | _ => True end) l ->
  match values_after real getenv V l, worlds real getenv W l with Some V', Some (W', _) => beside real getenv W' V' | Some _, None => False | None, _ => True end.
Proof.
  induction l as [|o l IH]; intros W V B F; [exact B|]. inversion F as [|? ? F1 F2]; subst.
  assert (ST : forall V' e, vstep real getenv V o V' e -> not_parse o = true -> match values_after real getenv V' l, worlds real getenv W (o :: l) with Some V', Some (W', _) => beside real getenv W' V' | Some _, None => False | None, _ => True end).
  { intros V' e S N. destruct (C88_value_semantics_partial real getenv W V o V' e B S) as (W' & E & B'); [destruct o as [| |? |? |?]; try exact I; destruct c; (exact I || discriminate)|]. cbn [worlds]. rewrite E. specialize (IH W' V' B' F2). destruct (values_after real getenv V' l); [|exact I]. destruct (worlds real getenv W' l) as [(W2, es)|]; exact IH. }
  cbn [values_after]. destruct (not_parse o) eqn:N; cbn [negb]; [|exact I]. destruct o as [p|i c|i|i|i]; [subst p; eapply ST; [apply v_new; apply n_default|reflexivity]|..]; (destruct (nth_error V i) as [[p| |]|] eqn:E; try exact I; (eapply ST; [first [eapply v_destroy; [exact E|discriminate] | (apply v_call || apply v_copy || apply v_move); exact E]|reflexivity])).
Qed.
Definition side (l : list wop) : option (world * values_) :=
  match values_after no_real no_env [] l, worlds no_real no_env [] l with Some V, Some (W, _) => Some (W, V) | _, _ => None end.
Lemma side_beside l W V : forallb (fun o => match o with WNew p => false | _ => true end) (tl l) = true -> hd (WNew default_parser) l = WNew default_parser -> side l = Some (W, V) -> beside no_real no_env W V.
Proof.
  intros A H E. unfold side in E. pose proof (side_by_side no_real no_env l [] [] (b_none _ _)) as X. destruct (values_after no_real no_env [] l) as [V1|]; [|discriminate]. destruct (worlds no_real no_env [] l) as [(W1, es)|]; [|discriminate]. injection E as <- <-. apply X.
  destruct l as [|o l]; [constructor|]. cbn in A, H. constructor; [subst o; reflexivity|]. apply Forall_forall. intros o0 I. rewrite forallb_forall in A. specialize (A o0 I). destruct o0; auto. discriminate.
Qed.
(** C88: the copy of a parser that was destroyed, or the parser it was moved to, follows
    a reference to the destroyed one; while the latter is there but moved from, its
    prefix is empty, and no option declared before has a destination. *)
Definition goes_wrong (l : list wop) (i : nat) (bad : ending) : Prop := exists W V V' e, side l = Some (W, V) /\ beside no_real no_env W V /\
  vstep no_real no_env V (WCall i (PParse an_argv)) V' e /\ returned_file e /\ exists W', wstep no_real no_env W (WCall i (PParse an_argv)) = Some (W', bad).
Ltac wrong := unfold goes_wrong; lazymatch goal with |- context [side ?l] => let x := eval vm_compute in (side l) in
  lazymatch x with Some (?W, ?V) => exists W, V; do 2 eexists; assert (SI : side l = Some (W, V)) by (vm_compute; reflexivity);
    split; [exact SI|]; split; [exact (side_beside l W V eq_refl eq_refl SI)|]; split; [apply v_call; reflexivity|]; split; [vm_compute; eexists; split; reflexivity|]; eexists; vm_compute; reflexivity end end.
Theorem C88_destroyed_refuted : goes_wrong (declaring ++ [WCopy 0; WDestroy 0]) 1 Dangling /\ goes_wrong (declaring ++ [WMove 0; WDestroy 0]) 1 Dangling.
Proof. split; wrong. Qed.
Theorem C88_moved_from_refuted : goes_wrong (declaring ++ [WMove 0]) 1 (Threw LogicError).
Proof. wrong. Qed.
Print Assumptions C88_destroyed_refuted.
Print Assumptions C88_moved_from_refuted.

(** ** Examples *)
(** A parser used once before its options are complete, then parsed with a value missing. *)
Definition a_number : option_ := {| names := []; act := Store; typ := TInt; dest := []; default := []; choices := []; env := [] |}.
Definition after (p : parser) (cs : list pcall) : parser := fold_left (fun q c => fst (alone_call no_real no_env q c)) cs p.
Lemma after_used : forall cs p, used no_real no_env p -> used no_real no_env (after p cs).
Proof. induction cs as [|c cs IH]; intros p U; [exact U|]. apply IH. apply u_call. exact U. Qed.
Definition worn : parser := after default_parser [PAdd [t "-n"; t "--number"]; PParse [t "prog"]; PSet 0 a_number; PParse [t "prog"; t "x"; t "-n"]].
Example worn_used : used no_real no_env worn.
Proof. apply after_used. apply u_new. apply n_default. Qed.
(** Both calls of parse_args threw; the second listed the first argument, and the third parse returns. *)
Example worn_threw : snd (alone_call no_real no_env (after default_parser [PAdd [t "-n"; t "--number"]]) (PParse [t "prog"])) = Threw LogicError /\
  (exists e, snd (alone_call no_real no_env worn (PParse [t "prog"; t "x"; t "-n"])) = Threw e) /\ invalid_args worn = [1%nat] /\
  (exists q st, alone_call no_real no_env worn (PParse [t "prog"; t "-n"; t "12"; t "z"]) = (q, Returned st) /\ get st (t "number") = Some (VInt 12) /\ invalid_args q = [3%nat]).
Proof. split; [vm_compute; reflexivity|]. split; [eexists; vm_compute; reflexivity|]. split; [vm_compute; reflexivity|]. do 2 eexists. split; [vm_compute; reflexivity|]. split; vm_compute; reflexivity. Qed.
(** A copy of a parser that is still there is parsed with like the original; and after
    its first parse_args, the original may go. *)
Definition copied : list wop := declaring ++ [WCopy 0].
Example copied_beside : exists W V p, side copied = Some (W, V) /\ beside no_real no_env W V /\ nth_error V 1 = Some (Live p) /\ length (options p) = 1%nat /\ at_home W V 1.
Proof.
  let x := eval vm_compute in (side copied) in match x with Some (?W, ?V) => exists W, V; eexists; assert (SI : side copied = Some (W, V)) by (vm_compute; reflexivity) end.
  split; [exact SI|]. split; [exact (side_beside copied _ _ eq_refl eq_refl SI)|]. split; [reflexivity|]. split; [reflexivity|]. intros x k o r L NO NR. injection L as <-. right. right. destruct k as [|k]; [injection NR as <-; eexists; reflexivity|]. destruct k; discriminate.
Qed.
Example copy_survives : exists W es st st2, worlds no_real no_env [] (copied ++ [WCall 1 (PParse an_argv); WDestroy 0; WCall 1 (PParse [t "prog"; t "--file"; t "b"])]) = Some (W, es) /\
  skipn 4 es = [Returned st; Returned empty_store; Returned st2] /\ get st (t "file") = Some (VStr (t "a")) /\ get st2 (t "file") = Some (VStr (t "b")).
Proof. do 4 eexists. split; [vm_compute; reflexivity|]. split; [reflexivity|]. split; vm_compute; reflexivity. Qed.
