(** Properties C93 and C94: ValueStore, and what user_set says after parse_args. *)
Require Import ZArith Bool Lia Arith Ascii String List.
From Verif Require Import OptModel OptModel2 OptSpec OptSpec2 OptProofs OptProofs2 OptProofs3 OptProofs4 OptProofs5 OptStoreModel OptStoreSpec OptStoreProofs PropOpt PropOpt2.
Import ListNotations.
Open Scope string_scope.
Open Scope list_scope.
Open Scope Z_scope.

(** C93: after any calls a key has the value last set for it, one more for each
    increment since, whatever was done with other keys. *)
Theorem C93_value : forall calls st returned k, perform empty_store calls = Ok (st, returned) -> value_of k returned (get st k).
Proof. intros l st d k H. exact (proj1 (told_perform l _ [] _ _ told_empty H k)). Qed.
(** The list is everything appended, in order; there is one as soon as append was called, with an empty list too. *)
Theorem C93_list : forall calls st returned k, perform empty_store calls = Ok (st, returned) ->
  ((exists c, In c returned /\ appends k c) /\ exists vs, get_list st k = Some vs /\ list_of k returned vs) \/
  ((forall c, In c returned -> ~ appends k c) /\ get_list st k = None).
Proof.
  intros l st d k H. destruct (told_perform l _ [] _ _ told_empty H k) as (_ & (vs & L & [(G & E)|(G & N)]) & _); [left|right]; [|auto]. split; [exact E|]. exists vs. auto.
Qed.
(** user_set tells whether set or append was called; increment does not count. *)
Theorem C93_user_set : forall calls st returned k, perform empty_store calls = Ok (st, returned) ->
  (user_set st k = true <-> exists c, In c returned /\ (sets k c \/ appends k c)).
Proof. intros l st d k H. exact (proj2 (proj2 (told_perform l _ [] _ _ told_empty H k))). Qed.
(** Only increment can throw, and does exactly when the key has a value that is not an
    int; then nothing changes.  Only increment of the greatest int is undefined. *)
Theorem C93_throws : forall st c, (exists e, do_scall st c = Throw e) <-> exists k v, c = SIncrement k /\ get st k = Some v /\ forall n, v <> VInt n.
Proof.
  intros st c. split.
  - intros (e & H). destruct c as [k v|k v|k vs|k]; try discriminate. cbn [do_scall] in H. unfold increment in H. change (lookup k (values st)) with (get st k) in H. destruct (get st k) as [v|] eqn:G; [|discriminate]. exists k, v. split; [reflexivity|]. split; [exact G|].
    intros n ->. destruct (_ <? _); discriminate.
  - intros (k & v & -> & G & N). exists BadVariant. cbn [do_scall]. unfold increment. change (lookup k (values st)) with (get st k). rewrite G. destruct v; try reflexivity. exfalso. exact (N _ eq_refl).
Qed.
Theorem C93_undefined : forall st c, (exists f, do_scall st c = Fault f) <-> exists k n, c = SIncrement k /\ get st k = Some (VInt n) /\ 2 ^ 31 - 1 <= n.
Proof.
  intros st c. split.
  - intros (f & H). destruct c as [k v|k v|k vs|k]; try discriminate. cbn [do_scall] in H. unfold increment in H. change (lookup k (values st)) with (get st k) in H. destruct (get st k) as [[]|] eqn:G; try discriminate. exists k, n. split; [reflexivity|]. split; [exact G|].
    destruct (Z.ltb_spec (n + 1) (2 ^ 31)); [discriminate|lia].
  - intros (k & n & -> & G & L). exists Overflow. cbn [do_scall]. unfold increment. change (lookup k (values st)) with (get st k). rewrite G. destruct (Z.ltb_spec (n + 1) (2 ^ 31)); [lia|reflexivity].
Qed.
(** The calls that returned are those made, without the ones that threw. *)
Theorem C93_returned : forall calls st st' returned, perform st calls = Ok (st', returned) ->
  (Forall (fun c => forall k, c <> SIncrement k) calls -> returned = calls) /\ exists keep, List.length keep = List.length calls /\ returned = map snd (filter fst (combine keep calls)) /\
  Forall (fun b => fst b = false -> exists k, snd b = SIncrement k) (combine keep calls).
Proof.
  induction calls as [|c l IH]; intros st st' d H; cbn [perform] in H.
  - injection H as <- <-. split; [reflexivity|]. exists []. repeat split. constructor.
  - destruct (do_scall st c) as [st1|e|f] eqn:E; [| |discriminate].
    + destruct (perform st1 l) as [(st2, d1)|e|f] eqn:P; cbn [bnd] in H; try discriminate. injection H as <- <-. destruct (IH _ _ _ P) as (A & keep & L & K & F). split.
      * intros X. inversion X; subst. f_equal. auto.
      * exists (true :: keep). cbn [List.length combine filter map fst snd]. repeat split; [lia|f_equal; exact K|]. constructor; [discriminate|exact F].
    + destruct (IH _ _ _ H) as (A & keep & L & K & F). assert (C : exists k, c = SIncrement k). { destruct (proj1 (C93_throws st c) (ex_intro _ e E)) as (k & v & -> & _). eauto. } split.
      * intros X. inversion X as [|? ? Y _]; subst. destruct C as (k & ->). exfalso. exact (Y k eq_refl).
      * exists (false :: keep). cbn [List.length combine filter map fst snd]. repeat split; [lia|exact K|]. constructor; [intros _; exact C|exact F].
Qed.
(** What is claimed about value and list leaves no choice. *)
Theorem C93_determined : forall k l, (forall v w, value_of k l v -> value_of k l w -> v = w) /\ (forall v w, list_of k l v -> list_of k l w -> v = w).
Proof. intros k l. split; [exact (value_fun k l)|]. intros v w V. exact (list_fun k l v V w). Qed.

Example C93_ex : exists st, perform empty_store [SSet (t "a") (VInt 5); SIncrement (t "b"); SIncrement (t "a"); SAppend (t "l") (VBool true); SAppendList (t "l") [VInt 1; VInt 2];
    SSet (t "c") (VStr (t "x")); SIncrement (t "c"); SIncrement (t "a"); SAppendList (t "m") []] =
    Ok (st, [SSet (t "a") (VInt 5); SIncrement (t "b"); SIncrement (t "a"); SAppend (t "l") (VBool true); SAppendList (t "l") [VInt 1; VInt 2]; SSet (t "c") (VStr (t "x")); SIncrement (t "a"); SAppendList (t "m") []]) /\
  get st (t "a") = Some (VInt 7) /\ get st (t "b") = Some (VInt 1) /\ get_list st (t "l") = Some [VBool true; VInt 1; VInt 2] /\ get_list st (t "m") = Some [] /\
  user_set st (t "a") = true /\ user_set st (t "b") = false /\ user_set st (t "m") = true.
Proof. eexists. split; [vm_compute; reflexivity|]. vm_compute. repeat split. Qed.
Print Assumptions C93_value.
Print Assumptions C93_list.
Print Assumptions C93_user_set.
Print Assumptions C93_throws.
Print Assumptions C93_undefined.
Print Assumptions C93_returned.
Print Assumptions C93_determined.

Section Props.
Variables (real : type -> list Z -> Z) (getenv : list Z -> option (list Z)).
(** C94: for an option with a destination of its own that does not count, user_set
    says that there is a value, from wherever; so it does not miss a value given. *)
Theorem C94_value_partial : forall p argv p' st i o, made real getenv p -> Z.of_nat (List.length argv) < 2 ^ 31 -> parse_args real getenv p argv = Ok (p', st) ->
  nth_error (options p') i = Some o -> alone (options p') i -> act o <> Count ->
  (user_set st (dest o) = true <-> get st (dest o) <> None \/ get_list st (dest o) <> None).
Proof.
  intros p argv p' st i o M L H N AL A. destruct (parse_marks real getenv p argv p' st i o (made_good _ _ _ M) L H N AL) as (rs & us & _ & X & _). destruct (X A) as (vss & dv & ev & _ & _ & _ & HA & U). rewrite U. clear X U. unfold has in HA.
  revert HA. generalize (match concat vss with [] => match dv with [] => ev | _ => dv end | l => l end). intros l HA.
  assert (LA : forall (x : value) r, last_of (x :: r) <> None). { intros x r. revert x. induction r as [|y r IH]; intros x; [discriminate|]. cbn. exact (IH y). }
  destruct l as [|x l]; cbn [nullb negb].
  - split; [discriminate|]. intros [B|B]; exfalso; apply B; destruct (act o); cbn in HA; tauto.
  - split; [|reflexivity]. intros _. destruct (act o); destruct HA as (HA & _); try (left; rewrite HA; apply LA). right. rewrite HA. discriminate.
Qed.
(** When the option has no default value and no environment variable with a text,
    user_set says exactly whether the command line gave it a value. *)
Theorem C94_given_partial : forall p argv p' st i o, made real getenv p -> Z.of_nat (List.length argv) < 2 ^ 31 -> parse_args real getenv p argv = Ok (p', st) ->
  nth_error (options p') i = Some o -> alone (options p') i -> act o <> Count ->
  exists rs us vss, reading (prefix p') (find_opt p') (takes_many p') (tl argv) rs us /\ Forall2 (gives real o) (uses_of i us) vss /\
    (concat vss <> [] -> user_set st (dest o) = true) /\
    (default_text o = None -> env_text getenv o = None -> (user_set st (dest o) = true <-> concat vss <> [])).
Proof.
  intros p argv p' st i o M L H N AL A. destruct (parse_marks real getenv p argv p' st i o (made_good _ _ _ M) L H N AL) as (rs & us & R & X & _). destruct (X A) as (vss & dv & ev & F & GD & GE & _ & U).
  exists rs, us, vss. split; [exact R|]. split; [exact F|]. rewrite U. destruct (concat vss) as [|x l].
  - split; [congruence|]. intros D E. specialize (GD eq_refl). rewrite D in GD. cbn in GD. subst dv. specialize (GE eq_refl eq_refl). rewrite E in GE. cbn in GE. subst ev. cbn. split; [discriminate|congruence].
  - split; [reflexivity|]. intros _ _. cbn. split; [discriminate|reflexivity].
Qed.
(** Of an option that counts it says nothing: it is never set. *)
Theorem C94_count_partial : forall p argv p' st i o, made real getenv p -> Z.of_nat (List.length argv) < 2 ^ 31 -> parse_args real getenv p argv = Ok (p', st) ->
  nth_error (options p') i = Some o -> alone (options p') i -> act o = Count -> user_set st (dest o) = false.
Proof.
  intros p argv p' st i o M L H N AL A. destruct (parse_marks real getenv p argv p' st i o (made_good _ _ _ M) L H N AL) as (rs & us & _ & _ & X). specialize (X A). unfold counts, view in X. apply triple in X. apply X.
Qed.
End Props.
(** C94: user_set is true of options that were not given, once they have a default or a value from the environment ... *)
Definition marks (getenv : list Z -> option (list Z)) (p : parser) (argv : list string) (k : string) : out bool :=
  do (_, st) <- parse_args no_real getenv p (map (fun s => t s) argv); Ok (user_set st (t k)).
Theorem C94_not_given_refuted : exists p q, declared no_real an_env p /\ marks an_env p ["prog"] "s" = Ok true /\ declared no_real an_env q /\ marks an_env q ["prog"] "s" = Ok true.
Proof.
  exists (declare default_parser ["-s"] Store TInt "s" "5" [] ""), (declare default_parser ["-s"] Store TInt "s" "" [] "HOME").
  split; [repeat (apply declare_ok; [|vm_compute; reflexivity]); apply d_new; apply n_default|]. split; [vm_compute; reflexivity|].
  split; [repeat (apply declare_ok; [|vm_compute; reflexivity]); apply d_new; apply n_default|]. vm_compute. reflexivity.
Qed.
(** ... and false of an option that counts although it was given. *)
Theorem C94_count_refuted : exists p, declared no_real no_env p /\ marks no_env p ["prog"; "-n"; "-n"] "n" = Ok false.
Proof. exists (declare default_parser ["-n"] Count TBool "n" "" [] ""). split; [repeat (apply declare_ok; [|vm_compute; reflexivity]); apply d_new; apply n_default|]. vm_compute. reflexivity. Qed.
(** Given, not given, given something that is no choice. *)
Example C94_ex : marks an_env (declare default_parser ["-f"] Store TString "f" "" [] "") ["prog"; "-f"; "x"] "f" = Ok true /\
  marks an_env (declare default_parser ["-f"] Store TString "f" "" [] "") ["prog"; "x"] "f" = Ok false /\
  marks an_env (declare default_parser ["-m"] Append TChoice "m" "" ["a"] "") ["prog"; "-m=x"] "m" = Ok false.
Proof. vm_compute. repeat split. Qed.
Print Assumptions C94_value_partial.
Print Assumptions C94_given_partial.
Print Assumptions C94_count_partial.
Print Assumptions C94_not_given_refuted.
Print Assumptions C94_count_refuted.
