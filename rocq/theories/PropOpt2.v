(** Examples for the theorems of PropOpt.v, and what does not hold of the code. *)
Require Import ZArith Bool Lia Arith Ascii String List.
From Verif Require Import OptModel OptSpec OptSpec2 PropOpt.
Import ListNotations.
Open Scope string_scope.
Open Scope list_scope.
Open Scope Z_scope.

Definition no_real (ty : type) (s : list Z) : Z := 0.
Definition no_env (s : list Z) : option (list Z) := None.
Definition an_env (s : list Z) : option (list Z) := if seqb s (t "HOME") then Some (t "7") else None.
(** add_option and the setters *)
Definition declare (p : parser) (ns : list string) (a : action) (ty : type) (d df : string) (cs : list string) (e : string) : parser :=
  let p1 := fst (add_option p (map (fun s => t s) ns)) in
  configure p1 (length (options p1) - 1) {| names := []; act := a; typ := ty; dest := t d; default := t df; choices := map (fun s => t s) cs; env := t e |}.
Lemma declare_ok real getenv p ns a ty d df cs e : declared real getenv p -> snd (add_option p (map (fun s => t s) ns)) = None -> declared real getenv (declare p ns a ty d df cs e).
Proof.
  intros D H. unfold declare. destruct (add_option p (map (fun s => t s) ns)) as (p1, x) eqn:A. cbn [fst snd] in *. subst x.
  eapply d_call; [eapply d_call; [exact D|eapply c_add; exact A]|apply c_set].
Qed.
(** What a run gives: the rest of the arguments, values and lists. *)
Definition run (getenv : list Z -> option (list Z)) (p : parser) (args : list string) (ds : list string) : out (list nat * list (option value) * list (option (list value))) :=
  do (p', st) <- parse_args no_real getenv p (map (fun s => t s) args);
  Ok (invalid_args p', map (fun d => get st (t d)) ds, map (fun d => get_list st (t d)) ds).

(** The parser of test/optparse_test.cc, extended. *)
Definition demo : parser :=
  declare (declare (declare (declare (declare default_parser ["-f"; "--file"] Store TString "filename" "" [] "")
    ["-q"; "--quiet"] StoreFalse TBool "quiet" "true" [] "") ["-sz"; "--size"] Store TInt "size" "" [] "HOME")
    ["-r"; "--ratio"] Append TInt "ratio" "" [] "") ["-n"] Count TBool "n" "" [] "".
Example demo_declared : declared no_real an_env demo /\ conflict demo = OnError.
Proof. split; [|reflexivity]. repeat (apply declare_ok; [|vm_compute; reflexivity]). apply d_new. apply n_default. Qed.
(** Options, values, an unknown option, a stray argument; the environment is used for the size. *)
Example demo_run : run an_env demo ["prog"; "-f"; "x.txt"; "-cfg"; "--ratio=1, 2"; "3"; "-n"; "-f=y.txt"; "extra"; "-n"; "-q"] ["filename"; "quiet"; "size"; "n"; "ratio"] =
  Ok ([3; 8]%nat, [Some (VStr (t "y.txt")); Some (VBool false); Some (VInt 7); Some (VInt 2); None], [None; None; None; None; Some [VInt 1; VInt 2; VInt 3]]).
Proof. vm_compute. reflexivity. Qed.
(** The hypotheses of the theorems hold of this run. *)
Example demo_hypotheses : exists p' st, parse_args no_real an_env demo (map (fun s => t s) ["prog"; "-f"; "x.txt"; "-n"; "a"]%string) = Ok (p', st) /\
  (forall i, (i < 5)%nat -> alone (options p') i) /\ map act (options p') = [Store; StoreFalse; Store; Append; Count; StoreTrue; StoreTrue; StoreTrue].
Proof.
  eexists _, _. split; [vm_compute; reflexivity|]. split; [|reflexivity]. intros i Hi j o oj. cbn [options].
  do 5 (destruct i as [|i]; [intros E; injection E as <-; do 8 (destruct j as [|j]; [intros E NE; injection E as <-; first [congruence | discriminate]|]); intros E; destruct j; discriminate E|]). lia.
Qed.
Example demo_resolves : In (t "--size") (names (nth 2 (options demo) (fresh []))) /\ option_like (prefix demo) (t "--size") /\ t "--size" <> long_prefix demo /\
  trimmed (t "--size") (t "--size") /\ cut (t "--size=5=6") (t "--size") (Some (t "5=6")) /\ find_opt demo (t "--size") = Some 2%nat.
Proof.
  split; [right; left; reflexivity|]. split; [eexists; reflexivity|]. split; [discriminate|]. split.
  - exists [], []. split; [reflexivity|]. split; [constructor|]. split; [constructor|]. unfold white. split; intros c r E.
    + injection E as <- _. vm_compute. intros [|(? & ?)]; [discriminate|]. auto.
    + assert (c = last (t "--size") 0) as -> by (rewrite E, last_last; reflexivity). vm_compute. intros [|(? & Q)]; [discriminate|]. apply Q. reflexivity.
  - split; [|reflexivity]. split; [|reflexivity]. vm_compute. intuition discriminate.
Qed.
Example demo_split : split (t "a, b ,c") [44] true = Ok [t "a"; t "b"; t "c"] /\ split (t "a,,b") [44] false = Ok [t "a"; []; t "b"].
Proof. vm_compute. auto. Qed.

(** ** What does not hold *)
(** C54: the option whose name was reported stays; two options share a name, and parse_args throws ever after. *)
Theorem C54_after_report_refuted : exists p p' argv, declared no_real no_env p /\ conflict p = OnError /\ add_option p [t "-f"] = (p', Some LogicError) /\
  (exists i j oi oj, i <> j /\ nth_error (options p') i = Some oi /\ nth_error (options p') j = Some oj /\ In (t "-f") (names oi) /\ In (t "-f") (names oj)) /\
  (exists r, parse_args no_real no_env p argv = Ok r) /\ parse_args no_real no_env p' argv = Throw LogicError.
Proof.
  exists demo, (fst (add_option demo [t "-f"])), [t "prog"]. split; [repeat (apply declare_ok; [|vm_compute; reflexivity]); apply d_new; apply n_default|]. split; [reflexivity|]. split; [vm_compute; reflexivity|]. split.
  - exists 0%nat, 5%nat. eexists _, _. split; [discriminate|]. split; [vm_compute; reflexivity|]. split; [vm_compute; reflexivity|]. split; left; vm_compute; reflexivity.
  - split; [eexists; vm_compute; reflexivity|vm_compute; reflexivity].
Qed.
(** C54: with ConflictHandler::Replace options may share a name. *)
Theorem C54_replace_refuted : exists p i j oi oj n, declared no_real no_env p /\ i <> j /\ nth_error (options p) i = Some oi /\ nth_error (options p) j = Some oj /\ In n (names oi) /\ In n (names oj).
Proof.
  exists (declare (declare (handler_parser OnReplace) ["-a"] Store TString "a" "" [] "") ["-a"; "-b"] Store TString "b" "" [] ""), 0%nat, 1%nat. eexists _, _, (t "-a").
  split; [repeat (apply declare_ok; [|vm_compute; reflexivity]); apply d_new; apply n_handler|]. split; [discriminate|]. split; [vm_compute; reflexivity|]. split; [vm_compute; reflexivity|]. split; left; vm_compute; reflexivity.
Qed.
(** C54: "--" can be registered, but is never found; with another prefix and a handler neither is "--foo". *)
Theorem C54_unresolved_refuted : exists p q, declared no_real no_env p /\ In (t "--") (names (nth 0 (options p) (fresh []))) /\ run no_env p ["prog"; "--"; "v"] ["d"] = Ok ([1; 2]%nat, [None], [None]) /\
  declared no_real no_env q /\ In (t "--foo") (names (nth 0 (options q) (fresh []))) /\ run no_env q ["prog"; "--foo=v"] ["d"] = Ok ([1]%nat, [None], [None]).
Proof.
  exists (declare default_parser ["--"] Store TString "d" "" [] ""), (declare (prefix_handler_parser 43 OnError) ["--foo"] Store TString "d" "" [] "").
  split; [repeat (apply declare_ok; [|vm_compute; reflexivity]); apply d_new; apply n_default|]. split; [left; vm_compute; reflexivity|]. split; [vm_compute; reflexivity|].
  split; [repeat (apply declare_ok; [|vm_compute; reflexivity]); apply d_new; apply n_both|]. split; [left; vm_compute; reflexivity|]. vm_compute. reflexivity.
Qed.
(** C55: Append does not keep all values: after one that is not a choice those in the same list are dropped. *)
Theorem C55_append_refuted : exists p, declared no_real no_env p /\ run no_env p ["prog"; "-m=a,x,b"] ["m"] = Ok ([], [None], [Some [VStr (t "a")]]) /\
  run no_env p ["prog"; "-m"; "a"; "x"; "b"] ["m"] = Ok ([], [None], [Some [VStr (t "a"); VStr (t "b")]]).
Proof.
  exists (declare default_parser ["-m"] Append TChoice "m" "" ["a"; "b"] ""). split; [repeat (apply declare_ok; [|vm_compute; reflexivity]); apply d_new; apply n_default|]. vm_compute. auto.
Qed.
(** C55: Count is one more than the occurrences when there is a default, or an environment variable. *)
Theorem C55_count_refuted : exists p q, declared no_real an_env p /\ run an_env p ["prog"; "-n"; "-n"] ["n"] = Ok ([], [Some (VInt 3)], [None]) /\
  declared no_real an_env q /\ run an_env q ["prog"; "-n"; "-n"] ["n"] = Ok ([], [Some (VInt 3)], [None]).
Proof.
  exists (declare default_parser ["-n"] Count TBool "n" "0" [] ""), (declare default_parser ["-n"] Count TBool "n" "" [] "HOME").
  split; [repeat (apply declare_ok; [|vm_compute; reflexivity]); apply d_new; apply n_default|]. split; [vm_compute; reflexivity|].
  split; [repeat (apply declare_ok; [|vm_compute; reflexivity]); apply d_new; apply n_default|]. vm_compute. reflexivity.
Qed.
(** C55: StoreTrue followed by a file name makes the flag false, and the file is gone; so does "=true". *)
Theorem C55_flag_refuted : exists p, declared no_real no_env p /\ act (nth 0 (options p) (fresh [])) = StoreTrue /\
  run no_env p ["prog"; "-v"; "in.txt"] ["v"] = Ok ([], [Some (VBool false)], [None]) /\ run no_env p ["prog"; "-v=true"] ["v"] = Ok ([], [Some (VBool false)], [None]).
Proof.
  exists (declare default_parser ["-v"] StoreTrue TBool "v" "" [] ""). split; [repeat (apply declare_ok; [|vm_compute; reflexivity]); apply d_new; apply n_default|]. vm_compute. auto.
Qed.
(** C56: the environment does not come before the default. *)
Theorem C56_env_refuted : exists p, declared no_real an_env p /\ an_env (t "HOME") = Some (t "7") /\ run an_env p ["prog"] ["s"] = Ok ([], [Some (VInt 5)], [None]) /\
  run an_env p ["prog"; "-s"; "6"] ["s"] = Ok ([], [Some (VInt 6)], [None]).
Proof.
  exists (declare default_parser ["-s"] Store TInt "s" "5" [] "HOME"). split; [repeat (apply declare_ok; [|vm_compute; reflexivity]); apply d_new; apply n_default|]. vm_compute. auto.
Qed.
(** C57: a value that is recognised as no choice is taken away all the same. *)
Theorem C57_choice_refuted : exists p, declared no_real no_env p /\ run no_env p ["prog"; "-m"; "x"] ["m"] = Ok ([], [None], [None]).
Proof.
  exists (declare default_parser ["-m"] Store TChoice "m" "" ["a"; "b"] ""). split; [repeat (apply declare_ok; [|vm_compute; reflexivity]); apply d_new; apply n_default|]. vm_compute. auto.
Qed.
(** C57: the other parse_args, which takes a vector, leaves _argc alone: before any call of the first, argv is taken to be empty. *)
Theorem C57_vector_refuted : exists p av, declared no_real no_env p /\ parse_vector no_real no_env p av = Fault BadIndex.
Proof. exists demo, [t "extra"]. split; [repeat (apply declare_ok; [|vm_compute; reflexivity]); apply d_new; apply n_default|]. vm_compute. reflexivity. Qed.
(** C57: a blank value for a number is a variable without a value; an option without names is front() of an empty vector;
    options with a common destination can make an int overflow. *)
Theorem C57_undefined_refuted : exists p q r, declared no_real no_env p /\ run no_env p ["prog"; "-n"; ""] ["n"] = Fault Uninit /\ run no_env p ["prog"; "-l=1, ,2"] ["l"] = Fault Uninit /\
  declared no_real no_env q /\ run no_env q ["prog"] [] = Fault NoFront /\ declared no_real no_env r /\ run no_env r ["prog"; "-s=2147483647"; "-c"] ["n"] = Fault Overflow.
Proof.
  exists (declare (declare default_parser ["-n"] Store TInt "n" "" [] "") ["-l"] Append TInt "l" "" [] ""), (declare default_parser [] Store TInt "n" "" [] ""),
    (declare (declare default_parser ["-s"] Store TInt "n" "" [] "") ["-c"] Count TBool "n" "" [] "").
  split; [repeat (apply declare_ok; [|vm_compute; reflexivity]); apply d_new; apply n_default|]. split; [vm_compute; reflexivity|]. split; [vm_compute; reflexivity|].
  split; [repeat (apply declare_ok; [|vm_compute; reflexivity]); apply d_new; apply n_default|]. split; [vm_compute; reflexivity|].
  split; [repeat (apply declare_ok; [|vm_compute; reflexivity]); apply d_new; apply n_default|]. vm_compute. reflexivity.
Qed.
(** C58: with empty pieces left out the joined pieces differ. *)
Theorem C58_empty_refuted : exists s ts, split s [44] true = Ok ts /\ unblank (join 44 ts) <> unblank s.
Proof. exists (t "a,,b"), [t "a"; t "b"]. split; [vm_compute; reflexivity|]. vm_compute. discriminate. Qed.
(** C61: numbers too large, and no numbers. *)
Example C61_examples : parse_value no_real (t " -12x") {| names := []; act := Store; typ := TInt; dest := []; default := []; choices := []; env := [] |} = Ok (Some (VInt (-12))) /\
  parse_value no_real (t "99999999999") {| names := []; act := Store; typ := TInt; dest := []; default := []; choices := []; env := [] |} = Ok (Some (VInt 2147483647)) /\
  parse_value no_real (t "true") {| names := []; act := Store; typ := TBool; dest := []; default := []; choices := []; env := [] |} = Ok (Some (VBool false)).
Proof. vm_compute. auto. Qed.
Print Assumptions C54_after_report_refuted.
Print Assumptions C54_replace_refuted.
Print Assumptions C54_unresolved_refuted.
Print Assumptions C55_append_refuted.
Print Assumptions C55_count_refuted.
Print Assumptions C55_flag_refuted.
Print Assumptions C56_env_refuted.
Print Assumptions C57_choice_refuted.
Print Assumptions C57_vector_refuted.
Print Assumptions C57_undefined_refuted.
Print Assumptions C58_empty_refuted.
