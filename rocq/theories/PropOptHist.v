(** Property C95: what parse_args finds, also for options that share destinations. *)
Require Import ZArith Bool Lia Arith Ascii String List.
From Verif Require Import OptModel OptModel2 OptSpec OptSpec2 OptSpec3 OptProofs OptProofs2 OptProofs3 OptProofs4 OptProofs5 OptProofs6 OptProofs7 OptStoreModel OptStoreSpec OptStoreProofs OptHistSpec OptHistProofs PropOpt PropOpt2.
Import ListNotations.
Open Scope string_scope.
Open Scope list_scope.
Open Scope Z_scope.

Section Props.
Variables (real : type -> list Z -> Z) (getenv : list Z -> option (list Z)).
Notation parse_args := (parse_args real getenv).
(** C95: the store has what the uses on the command line, in order, then the defaults
    and then the environment say. *)
Theorem C95_store : forall p argv p' st, made real getenv p -> Z.of_nat (List.length argv) < 2 ^ 31 -> parse_args p argv = Ok (p', st) ->
  exists rs us h, reading (prefix p') (find_opt p') (takes_many p') (tl argv) rs us /\ invalid_args p' = neither 1 rs /\ history real getenv (options p') us h /\ countable h /\ recorded h st.
Proof. intros p argv p' st M L H. exact (parse_history real getenv p argv p' st (made_good _ _ _ M) L H). Qed.
(** parse_args returns exactly when the options are complete, everything that is used
    can be read, and whatever is counted is a number. *)
Theorem C95_exactly : forall p argv, declared real getenv p -> argv <> [] -> Z.of_nat (List.length argv) < 2 ^ 31 ->
  ((exists p' st, parse_args p argv = Ok (p', st)) <->
   Forall complete (options p) /\ exists os known rs us h, equipped p os /\ (forall n, stands_for p os n (known n)) /\
     reading (prefix p) known (fun i => match nth_error os i with Some o => is_append (act o) | None => false end) (tl argv) rs us /\
     history real getenv os us h /\ countable h).
Proof.
  intros p argv D NE L. pose proof (declared_fine _ _ _ D) as F. split.
  - intros (p' & st & H). destruct (parse_history real getenv p argv p' st (proj1 F) L H) as (rs & us & h & R & _ & HI & CO & _). destruct (needed real getenv p argv p' st F L H) as (C & EQ & SF & rs' & us' & R' & _). split; [exact C|].
    exists (options p'), (find_opt p'), rs, us, h. split; [exact EQ|]. split; [exact SF|]. split; [|split; assumption].
    assert (P : prefix p' = prefix p). { destruct (parse_args_ok _ _ _ _ _ _ (proj1 F) L H) as (a0 & av & p3 & r3 & u3 & s0 & s1 & E & PR & -> & _). destruct (prepared_good _ _ _ PR) as (G3 & _). exact (proj2 (proj2 (G3 (proj1 F)))). }
    rewrite <- P. exact R.
  - intros (C & os & known & rs & us & h & EQ & ST & R & HI & CO). destruct (returns_exactly real getenv p argv os known rs us h F NE L C EQ ST R HI CO) as (p' & st & H & _). eauto.
Qed.
(** And then it finds this. *)
Theorem C95_returns : forall p argv os known rs us h, declared real getenv p -> argv <> [] -> Z.of_nat (List.length argv) < 2 ^ 31 -> Forall complete (options p) -> equipped p os ->
  (forall n, stands_for p os n (known n)) -> reading (prefix p) known (fun i => match nth_error os i with Some o => is_append (act o) | None => false end) (tl argv) rs us ->
  history real getenv os us h -> countable h -> exists p' st, parse_args p argv = Ok (p', st) /\ options p' = os /\ invalid_args p' = neither 1 rs /\ recorded h st.
Proof. intros p argv os known rs us h D. exact (returns_exactly real getenv p argv os known rs us h (declared_fine _ _ _ D)). Qed.
(** The calls are determined by the uses, and with them every value. *)
Theorem C95_determined : forall os us h h' st st' k, history real getenv os us h -> history real getenv os us h' -> recorded h st -> recorded h' st' ->
  get st k = get st' k /\ get_list st k = get_list st' k /\ user_set st k = user_set st' k.
Proof.
  intros os us h h' st st' k H H' R R'. pose proof (history_fun real getenv os us h h' H H'); subst h'. destruct (R k) as (V & (l & L & X) & U). destruct (R' k) as (V' & (l' & L' & X') & U'). split; [exact (value_fun _ _ _ _ V V')|]. split.
  - pose proof (list_fun _ _ _ L _ L'); subst l'. destruct X as [(-> & (c & I & A))|(-> & N)], X' as [(-> & (c' & I' & A'))|(-> & N')]; try reflexivity; exfalso; [exact (N' _ I A)|exact (N _ I' A')].
  - destruct (user_set st k), (user_set st' k); try reflexivity; [symmetry; apply U', U|apply U, U']; reflexivity.
Qed.
End Props.
Print Assumptions C95_store.
Print Assumptions C95_exactly.
Print Assumptions C95_returns.
Print Assumptions C95_determined.

(** Three options for one destination: one stores, one counts, one has a default that
    is not used as the destination is set by then. *)
Definition shared : parser :=
  declare (declare (declare default_parser ["-s"] Store TInt "n" "" [] "") ["-c"] Count TBool "n" "" [] "") ["-d"] Store TInt "n" "9" [] "".
Example C95_ex : declared no_real no_env shared /\ (forall i, (i < 3)%nat -> ~ alone (options shared) i) /\
  run no_env shared ["prog"; "-s=5"; "-c"; "-c"] ["n"] = Ok ([], [Some (VInt 7)], [None]) /\
  run no_env shared ["prog"; "-c"; "-c"] ["n"] = Ok ([], [Some (VInt 9)], [None]) /\
  history no_real no_env (options shared) [(0%nat, Some (t "5")); (1%nat, None); (1%nat, None)] [SSet (t "n") (VInt 5); SIncrement (t "n"); SIncrement (t "n")] /\
  countable [SSet (t "n") (VInt 5); SIncrement (t "n"); SIncrement (t "n")].
Proof.
  split; [repeat (apply declare_ok; [|vm_compute; reflexivity]); apply d_new; apply n_default|]. split.
  { intros i I A. destruct i as [|[|[|i]]]; try lia; [refine (A 1%nat _ _ eq_refl eq_refl ltac:(lia) eq_refl)|refine (A 0%nat _ _ eq_refl eq_refl ltac:(lia) eq_refl)|refine (A 0%nat _ _ eq_refl eq_refl ltac:(lia) eq_refl)]. }
  split; [vm_compute; reflexivity|]. split; [vm_compute; reflexivity|]. split.
  - exists [SSet (t "n") (VInt 5); SIncrement (t "n"); SIncrement (t "n")], [], []. split; [|split; [|split; [|reflexivity]]].
    + refine (en_use no_real (options shared) 0%nat (Some (t "5")) (nth 0 (options shared) (fresh [])) [SSet (t "n") (VInt 5)] _ _ eq_refl _ _).
      * refine (ca_set no_real (nth 0 (options shared) (fresh [])) (Some (t "5")) [VInt 5] _ _ _); try discriminate. refine (g_store no_real (nth 0 (options shared) (fresh [])) (t "5") (Some (VInt 5)) _ _); [left; reflexivity|]. apply parse_ok. vm_compute. reflexivity.
      * refine (en_use no_real (options shared) 1%nat None (nth 1 (options shared) (fresh [])) [SIncrement (t "n")] _ _ eq_refl _ _); [refine (ca_count no_real (nth 1 (options shared) (fresh [])) None _ _); reflexivity|]. refine (en_use no_real (options shared) 1%nat None (nth 1 (options shared) (fresh [])) [SIncrement (t "n")] [] [] eq_refl _ _); [refine (ca_count no_real (nth 1 (options shared) (fresh [])) None _ _); reflexivity|constructor].
    + assert (M : marked (t "n") [SSet (t "n") (VInt 5); SIncrement (t "n"); SIncrement (t "n")]) by (eexists; split; [left; reflexivity|left; eexists; reflexivity]). do 3 (apply fi_there; [exact M|]). constructor.
    + do 3 (apply fi_none; [reflexivity|]). constructor.
  - intros h1 k h2 E. right.
    assert (NI : forall c, In c [SIncrement (t "n")] -> ~ sets (t "n") c) by (intros c [<-|[]] (v & [=])).
    destruct h1 as [|c1 [|c2 [|c3 h1]]]; try discriminate.
    + injection E as <- <- _. exists 5. split; [|lia]. apply (vo_set _ _ [] _ []); [reflexivity|intros c []|constructor].
    + injection E as <- <- <- _. exists (5 + 1). split; [|lia]. eapply (vo_more _ _ [] 5 [SIncrement (t "n")] 1); [reflexivity|exact NI|apply (cn_this _ [] 0); constructor|lia].
    + injection E as _ _ _ E. destruct h1; discriminate E.
Qed.
