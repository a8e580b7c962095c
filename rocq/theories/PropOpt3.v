(** Properties C62 to C65, and more on C53, C55 and C58: the option parser. *)
Require Import ZArith Bool Lia Arith Ascii String List.
From Verif Require Import OptModel OptModel2 OptSpec OptSpec2 OptSpec3 OptProofs OptProofs2 OptProofs3 OptProofs4 OptProofs5 OptProofs6 OptProofs7 PropOpt PropOpt2.
Import ListNotations.
Open Scope string_scope.
Open Scope list_scope.
Open Scope Z_scope.

(** C58: a text is split at every occurrence of a separator that is not empty; the
    parts lose their blanks, and the empty ones are left out if so asked. *)
Theorem C58_split_text : forall s d skip_empty, d <> [] -> exists l, chunks d s l /\
  split s d skip_empty = Ok (map trim_string (if skip_empty then filter (fun x => negb (Nat.eqb (length x) 0)) l else l)).
Proof.
  intros s d skip ND. unfold split. destruct (split_text_loop d skip ND (S (length s)) s 0 [] ltac:(lia) ltac:(lia)) as (l & C & E). exists l. split; [exact C|]. rewrite E. cbn [app]. unfold kept. destruct skip; [|reflexivity]. do 2 f_equal.
  clear. induction l as [|x l IH]; [reflexivity|]. cbn [filter]. rewrite IH. destruct x; reflexivity.
Qed.
(** The parts are determined, joined they are the text, and none contains the separator. *)
Theorem C58_chunks : forall d s l, d <> [] -> chunks d s l -> joined d l = s /\ Forall (fun x => forall a b, x <> a ++ d ++ b) l /\ forall l', chunks d s l' -> l' = l.
Proof. intros d s l ND C. split; [apply chunks_joined; exact C|]. split; [exact (chunks_inside d s l C ND)|]. intros l' C'. symmetry. eapply chunks_unique; eassumption. Qed.
(** With an empty separator split never ends, whatever the number of rounds. *)
Theorem C58_split_nothing_refuted : forall s skip_empty fuel, s <> [] -> split_loop fuel s [] skip_empty 0 [] = Fault NoFuel.
Proof. intros s skip fuel NE. apply split_empty_never. destruct s; [congruence|cbn; lia]. Qed.
Example split_text_example : split (t "a -- b----c") (t "--") false = Ok [t "a"; t "b"; []; t "c"].
Proof. vm_compute. reflexivity. Qed.
Print Assumptions C58_split_text.
Print Assumptions C58_chunks.
Print Assumptions C58_split_nothing_refuted.

Section Props.
Variables (real : type -> list Z -> Z) (getenv : list Z -> option (list Z)).
Notation made := (made real getenv).
Notation declared := (declared real getenv).
Notation parse_args := (parse_args real getenv).

(** C55: parse_args works with the options declared, each with its destination, and
    with -u --usage, -h --help and -v --version, as far as these names are not taken. *)
Theorem C55_options : forall p argv p' st, declared p -> parse_args p argv = Ok (p', st) -> equipped p (options p') /\ Forall complete (options p).
Proof. intros p argv p' st D H. exact (parse_equipped _ _ _ _ _ _ (declared_fine _ _ _ D) H). Qed.
(** C53, C54: a name stands for the last option that has it, and for no other. *)
Theorem C54_names : forall p n, declared p -> stands_for p (options p) n (find_opt p n).
Proof. intros p n D. apply find_stands. eapply declared_fine. exact D. Qed.

(** C62: a parser that was used before does the same as one that was not. *)
Theorem C62_again : forall p argv p1 st1, made p -> parse_args p argv = Ok (p1, st1) ->
  forall argv2, (do (q, st) <- parse_args p1 argv2; Ok (st, invalid_args q, options q)) = (do (q, st) <- parse_args p argv2; Ok (st, invalid_args q, options q)).
Proof. intros p argv p1 st1 M H argv2. exact (again real getenv p argv p1 st1 (made_good _ _ _ M) H argv2). Qed.

(** C63: for an option with a destination of its own get<T>, with the type of the
    option, gives the value, and does not end the program. *)
Theorem C63_get : forall p argv p' st i o, made p -> Z.of_nat (length argv) < 2 ^ 31 -> parse_args p argv = Ok (p', st) ->
  nth_error (options p') i = Some o -> alone (options p') i -> act o <> Count -> act o <> Append ->
  (act o = StoreTrue \/ act o = StoreFalse -> typ o = TBool) -> get_as (alt_of (typ o)) st (dest o) = Answer (get st (dest o)).
Proof.
  intros p argv p' st i o M L H N AL NC NA B. destruct (parse_typed real getenv p argv p' st i o (made_good _ _ _ M) L H N AL NC B) as (vs & HA & F). unfold has in HA. unfold get_as. change (lookup (dest o) (values st)) with (get st (dest o)).
  assert (G : get st (dest o) = last_of vs) by (destruct (act o); try congruence; exact (proj1 HA)). rewrite G. destruct (last_of vs) as [v|] eqn:E; [|reflexivity]. apply last_of_in in E. rewrite Forall_forall in F. rewrite (F v E). reflexivity.
Qed.
Theorem C63_get_list : forall p argv p' st i o, made p -> Z.of_nat (length argv) < 2 ^ 31 -> parse_args p argv = Ok (p', st) ->
  nth_error (options p') i = Some o -> alone (options p') i -> act o = Append -> get_list_as (alt_of (typ o)) st (dest o) = Ok (get_list st (dest o)).
Proof.
  intros p argv p' st i o M L H N AL A. destruct (parse_typed real getenv p argv p' st i o (made_good _ _ _ M) L H N AL) as (vs & HA & F); [rewrite A; discriminate|rewrite A; intros [?|?]; discriminate|].
  unfold has in HA. rewrite A in HA. destruct HA as (G & _). unfold get_list_as. rewrite G. destruct vs as [|v vs]; [reflexivity|]. cbn [some_list]. rewrite all_as_ok by exact F. reflexivity.
Qed.
Theorem C63_count : forall p argv p' st i o, made p -> Z.of_nat (length argv) < 2 ^ 31 -> parse_args p argv = Ok (p', st) ->
  nth_error (options p') i = Some o -> alone (options p') i -> act o = Count -> get_as AInt st (dest o) = Answer (get st (dest o)).
Proof.
  intros p argv p' st i o M L H N AL A. destruct (C55_count real getenv p argv p' st i o M L H N AL A) as (rs & us & _ & E). unfold get_as. change (lookup (dest o) (values st)) with (get st (dest o)). rewrite E. cbv zeta. destruct (_ + _ + _)%nat; reflexivity.
Qed.

(** C64: after a call of parse_args that returned every option has a name, and there are options. *)
Theorem C64_after_parse : forall p argv p' st, declared p -> parse_args p argv = Ok (p', st) -> options p' <> [] /\ Forall (fun o => names o <> []) (options p').
Proof.
  intros p argv p' st D H. destruct (C55_options p argv p' st D H) as ((own & fr & E & S & FR) & C). rewrite E. split.
  - destruct own as [|o own]; [|discriminate]. inversion S as [EO|]. cbn [app]. assert (Q : fr (117, s_usage) = true).
    { apply FR; [cbn; auto|]. intros (o & n & I & _). rewrite <- EO in I. destruct I. }
    change automatic with [(117, s_usage); (104, s_help); (118, s_version)]. cbn [filter]. rewrite Q. discriminate.
  - apply Forall_app. split.
    + clear - S C. induction S as [|o o' l l' S0 S IH]; inversion C; subst; constructor; auto. destruct S0 as (-> & _). match goal with X : complete o |- _ => exact (proj1 X) end.
    + apply Forall_forall. intros o I. apply in_map_iff in I. destruct I as (a & <- & _). discriminate.
Qed.

(** C65: parse_args returns when the options are complete, and every use of an
    option, every default value and every environment variable can be read. *)
Theorem C65_returns : forall p argv os known roles uses, declared p -> argv <> [] -> Z.of_nat (length argv + 2 * length os) < 2 ^ 31 ->
  Forall complete (options p) -> equipped p os -> counted_apart os -> (forall n, stands_for p os n (known n)) ->
  reading (prefix p) known (fun i => match nth_error os i with Some o => is_append (act o) | None => false end) (tl argv) roles uses ->
  Forall (fun u => exists o, nth_error os (fst u) = Some o /\ usable real o (snd u)) uses ->
  Forall (fun o => usable_opt real o (default_text o) /\ usable_opt real o (env_text getenv o)) os ->
  exists p' st, parse_args p argv = Ok (p', st) /\ options p' = os /\ invalid_args p' = neither 1 roles.
Proof. intros p argv os known rs us D. exact (returns real getenv p argv os known rs us (declared_fine _ _ _ D)). Qed.
(** And when it returns they are, and every use can be read. *)
Theorem C65_needed : forall p argv p' st, declared p -> Z.of_nat (length argv) < 2 ^ 31 -> parse_args p argv = Ok (p', st) ->
  Forall complete (options p) /\ equipped p (options p') /\ exists known roles uses, (forall n, stands_for p (options p') n (known n)) /\
  reading (prefix p) known (fun i => match nth_error (options p') i with Some o => is_append (act o) | None => false end) (tl argv) roles uses /\
  Forall (fun u => exists o, nth_error (options p') (fst u) = Some o /\ usable real o (snd u)) uses /\ invalid_args p' = neither 1 roles.
Proof.
  intros p argv p' st D L H. destruct (needed real getenv p argv p' st (declared_fine _ _ _ D) L H) as (A & B & C & rs & us & E). split; [exact A|]. split; [exact B|]. exists (find_opt p'), rs, us. split; [exact C|exact E].
Qed.
End Props.
Print Assumptions C55_options.
Print Assumptions C54_names.
Print Assumptions C62_again.
Print Assumptions C63_get.
Print Assumptions C63_get_list.
Print Assumptions C63_count.
Print Assumptions C64_after_parse.
Print Assumptions C65_returns.
Print Assumptions C65_needed.

(** C64: the usage text has every option; the help text has a line for each, its
    help text beginning in one column, after at least one blank and no further than needed. *)
Theorem C64_usage : forall p, Forall (fun o => names o <> []) (options p) -> format_usage p [] = Ok (usage_text p).
Proof. exact usage_ok. Qed.
Theorem C64_help : forall p help, options p <> [] -> Forall (fun o => names o <> []) (options p) ->
  exists w, format_help p help [] = Ok (usage_text p ++ t " " ++ [10] ++ t " options: " ++ [10] ++ help_lines p help w, usage_text p) /\
    (forall o, In o (options p) -> (length (help_item o) < w)%nat) /\ (exists o, In o (options p) /\ w = S (length (help_item o))).
Proof. exact help_ok. Qed.
Theorem C64_version : forall p, version p <> [] -> format_version p = (version p, p).
Proof. intros p N. unfold format_version. destruct p. cbn in *. destruct version; [congruence|reflexivity]. Qed.
Print Assumptions C64_usage.
Print Assumptions C64_help.
Print Assumptions C64_version.

(** ** Examples *)
(** The options of the example parser in parse_args. *)
Example demo_equipped : exists p' st, parse_args no_real an_env demo (map (fun s => t s) ["prog"; "-n"]%string) = Ok (p', st) /\ map dest (options p') = map (fun s => t s) ["filename"; "quiet"; "size"; "ratio"; "n"; "usage"; "help"; "version"]%string.
Proof. eexists _, _. split; vm_compute; reflexivity. Qed.
(** Destinations taken from a long name, and an automatic option that is left out. *)
Definition demo2 : parser := declare (declare default_parser ["-f"; "--file"; "--name"] Store TString "" "" [] "") ["-h"; "--host"] Append TInt "" "" [] "".
Example demo2_declared : declared no_real no_env demo2.
Proof. repeat (apply declare_ok; [|vm_compute; reflexivity]). apply d_new. apply n_default. Qed.
Example demo2_options : exists p' st, parse_args no_real no_env demo2 (map (fun s => t s) ["prog"; "-h"; "1"; "2"; "x"; "-f=a"]%string) = Ok (p', st) /\
  map dest (options p') = map (fun s => t s) ["file"; "host"; "usage"; "version"]%string /\
  get_as AString st (t "file") = Answer (Some (VStr (t "a"))) /\ get_list_as AInt st (t "host") = Ok (Some [VInt 1; VInt 2; VInt 0]).
Proof. eexists _, _. split; [vm_compute; reflexivity|]. vm_compute. auto. Qed.
(** Used twice. *)
Example demo2_again : exists p1 st1 p2 st2, parse_args no_real no_env demo2 (map (fun s => t s) ["prog"; "-f"; "a"; "b"]%string) = Ok (p1, st1) /\ invalid_args p1 = [3%nat] /\
  parse_args no_real no_env p1 (map (fun s => t s) ["other"; "-h"; "7"]%string) = Ok (p2, st2) /\ get st2 (t "file") = None /\ get_list st2 (t "host") = Some [VInt 7] /\ invalid_args p2 = [].
Proof. eexists _, _, _, _. split; [vm_compute; reflexivity|]. split; [reflexivity|]. split; [vm_compute; reflexivity|]. vm_compute. auto. Qed.
(** The texts. *)
Definition nl : string := String (ascii_of_nat 10) EmptyString.
Example demo2_texts : exists p' st, parse_args no_real no_env demo2 [t "prog"] = Ok (p', st) /\
  format_usage p' [] = Ok (t ("usage: prog [-f] [-h] [-u USAGE] [-v VERSION]" ++ nl)) /\
  exists c u, format_help p' (fun i => nth i [t "the file"; t "hosts"] []) [] = Ok (c, u) /\
    c = t ("usage: prog [-f] [-h] [-u USAGE] [-v VERSION]" ++ nl ++ " " ++ nl ++ " options: " ++ nl ++
           "  -f, --file, --name=<string> the file" ++ nl ++
           "  -h, --host=<int>            hosts" ++ nl ++
           "  -u, --usage=<bool>          " ++ nl ++
           "  -v, --version=<bool>        " ++ nl).
Proof. eexists _, _. split; [vm_compute; reflexivity|]. split; [vm_compute; reflexivity|]. eexists _, _. split; vm_compute; reflexivity. Qed.

(** ** What does not hold *)
(** C63: when the destination is shared, or the flag is not of type bool, get<T> can end the program. *)
Theorem C63_get_refuted : exists p argv p' st i o, declared no_real no_env p /\ parse_args no_real no_env p argv = Ok (p', st) /\ nth_error (options p') i = Some o /\ act o = Store /\
  get_as (alt_of (typ o)) st (dest o) = Terminate.
Proof.
  exists (declare (declare default_parser ["-a"] Store TInt "x" "" [] "") ["-b"] Store TString "x" "" [] ""), (map (fun s => t s) ["prog"; "-b"; "1"]%string). eexists _, _, 0%nat, _.
  split; [repeat (apply declare_ok; [|vm_compute; reflexivity]); apply d_new; apply n_default|]. split; [vm_compute; reflexivity|]. split; [reflexivity|]. split; [reflexivity|]. vm_compute. reflexivity.
Qed.
Theorem C63_flag_refuted : exists p argv p' st i o, declared no_real no_env p /\ parse_args no_real no_env p argv = Ok (p', st) /\ nth_error (options p') i = Some o /\ alone (options p') i /\ act o = StoreTrue /\
  get_as (alt_of (typ o)) st (dest o) = Terminate.
Proof.
  exists (declare default_parser ["-a"] StoreTrue TInt "x" "" [] ""), [t "prog"; t "-a"; []]. eexists _, _, 0%nat, _.
  split; [repeat (apply declare_ok; [|vm_compute; reflexivity]); apply d_new; apply n_default|]. split; [vm_compute; reflexivity|]. split; [reflexivity|]. split.
  - intros j o oj E. cbn in E. injection E as <-. do 4 (destruct j as [|j]; [intros E NE; cbn in E; injection E as <-; first [congruence|discriminate]|]). intros E. destruct j; discriminate E.
  - split; [reflexivity|]. vm_compute. reflexivity.
Qed.
(** C64: without options (before parse_args) format_help dereferences the end of an empty vector. *)
Theorem C64_no_options_refuted : forall help u, format_help default_parser help u = Fault BadIndex.
Proof. reflexivity. Qed.
(** An option without a name is accepted by add_option; format_usage then takes front() of an empty vector. *)
Theorem C64_no_name_refuted : exists p, declared no_real no_env p /\ format_usage p [] = Fault NoFront.
Proof. exists (declare default_parser [] Store TInt "x" "" [] ""). split; [apply declare_ok; [apply d_new, n_default|reflexivity]|reflexivity]. Qed.
(** The usage text is kept: options added later, as by parse_args, are missing. *)
Theorem C64_kept_refuted : exists p u p' st, declared no_real no_env p /\ format_usage p [] = Ok u /\ parse_args no_real no_env p [t "prog"] = Ok (p', st) /\ format_usage p' u = Ok u /\ u <> usage_text p'.
Proof.
  exists demo2. eexists _, _, _. split; [exact demo2_declared|]. split; [vm_compute; reflexivity|]. split; [vm_compute; reflexivity|]. split; [vm_compute; reflexivity|]. vm_compute. discriminate.
Qed.
(** parse_args forgets the version given by the user. *)
Theorem C64_version_refuted : exists p argv p' st, declared no_real no_env p /\ version p = t "1.2.3" /\ parse_args no_real no_env p argv = Ok (p', st) /\ fst (format_version p') = t "prog : 0.0.0".
Proof.
  exists (with_version demo2 (t "1.2.3")), [t "prog"]. eexists _, _. split; [eapply d_call; [exact demo2_declared|apply c_version]|]. split; [reflexivity|]. split; vm_compute; reflexivity.
Qed.
(** C65: with a counted destination shared, parse_args can throw though every use can be read. *)
Theorem C65_shared_refuted : exists p argv, declared no_real no_env p /\ parse_args no_real no_env p argv = Throw BadVariant /\
  Forall (fun o => act o = Count \/ act o = Store /\ typ o = TString) (options p).
Proof.
  exists (declare (declare default_parser ["-a"] Count TBool "x" "" [] "") ["-b"] Store TString "x" "" [] ""), (map (fun s => t s) ["prog"; "-b"; "1"; "-a"]%string).
  split; [repeat (apply declare_ok; [|vm_compute; reflexivity]); apply d_new; apply n_default|]. split; [vm_compute; reflexivity|]. vm_compute. repeat (constructor; [tauto|]). constructor.
Qed.
Print Assumptions C63_get_refuted.
Print Assumptions C63_flag_refuted.
Print Assumptions C64_no_options_refuted.
Print Assumptions C64_no_name_refuted.
Print Assumptions C64_kept_refuted.
Print Assumptions C64_version_refuted.
Print Assumptions C65_shared_refuted.
