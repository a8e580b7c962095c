(** Properties C53 to C58 and C61: the option parser.

    [made p]: [p] came about by calls of the interface, with exceptions of
    add_option caught; [declared p]: and there were none.  An argument vector has
    less than 2^31 entries, argc being an int.  [real] reads floating point
    numbers, [getenv] is the environment. *)
Require Import ZArith Bool Lia Arith Ascii String Sorted List.
From Verif Require Import OptModel OptSpec OptSpec2 OptProofs OptProofs2 OptProofs3 OptProofs4 OptProofs5.
Import ListNotations.
Open Scope Z_scope.

(** Texts, for examples. *)
Definition t (s : string) : list Z := map (fun c => Z.of_N (N_of_ascii c)) (list_ascii_of_string s).
Arguments t s%string.

Section Props.
Variables (real : type -> list Z -> Z) (getenv : list Z -> option (list Z)).
Notation made := (made real getenv).
Notation declared := (declared real getenv).
Notation parse_args := (parse_args real getenv).
(** The reading of arguments by the options of [p]; those with action Append take many values. *)
Notation reads p := (reading (prefix p) (find_opt p) (fun i => match nth_error (options p) i with Some o => is_append (act o) | None => false end)).

(** C53: the positions of the arguments neither consumed as option nor as value. *)
Theorem C53_arguments : forall p argv p' st, made p -> Z.of_nat (length argv) < 2 ^ 31 -> parse_args p argv = Ok (p', st) ->
  exists roles uses, reads p' (tl argv) roles uses /\ invalid_args p' = neither 1 roles /\
    get_raw_argv p' = Ok (0%nat :: neither 1 roles) /\ get_raw_argc p' = Z.of_nat (length (0%nat :: neither 1 roles)).
Proof.
  intros p argv p' st M L H. apply made_good in M. destruct (parse_args_ok _ _ _ _ _ _ M L H) as (a0 & av & p3 & rs & us & st0 & st1 & -> & PR & -> & R & _).
  destruct (prepared_good _ _ _ PR) as (G & _). destruct (G M) as (_ & AC & _). exists rs, us. split; [exact R|]. split; [reflexivity|]. unfold get_raw_argv, get_raw_argc. cbn [argc invalid with_invalid]. rewrite AC. cbn [length].
  destruct (Z.eqb_spec (Z.of_nat (S (length av))) 0); [lia|]. split; [reflexivity|]. lia.
Qed.
(** They are in order, and just those whose role is to be neither. *)
Theorem C53_order : forall roles k, StronglySorted lt (neither k roles) /\ forall i, In i (neither k roles) <-> exists j, i = (k + j)%nat /\ nth_error roles j = Some Neither.
Proof.
  intros roles. induction roles as [|r rs IH]; intros k; cbn [neither].
  - split; [constructor|]. intros i. split; [intros []|]. intros (j & _ & N). destruct j; discriminate.
  - destruct (IH (S k)) as (S1 & I1).
    assert (ST : forall i, In i (neither (S k) rs) <-> exists j, i = (k + S j)%nat /\ nth_error (r :: rs) (S j) = Some Neither).
    { intros i. rewrite I1. split; intros (j & -> & N); exists j; (split; [lia|exact N]). }
    destruct r.
    + split; [exact S1|]. intros i. rewrite ST. split; [intros (j & E & N); eauto|]. intros ([|j] & E & N); [discriminate|eauto].
    + split; [exact S1|]. intros i. rewrite ST. split; [intros (j & E & N); eauto|]. intros ([|j] & E & N); [discriminate|eauto].
    + split.
      * constructor; [exact S1|]. apply Forall_forall. intros x I. apply I1 in I. destruct I as (j & -> & _). lia.
      * intros i. cbn [In]. rewrite ST. split.
        -- intros [<-|(j & E & N)]; [exists 0%nat; split; [lia|reflexivity]|eauto].
        -- intros ([|j] & E & N); [left; lia|right; eauto].
Qed.
(** A command line has one reading, in which every argument has its role. *)
Theorem C53_reading_total : forall c known many l, exists roles uses, reading c known many l roles uses /\ length roles = length l.
Proof. intros c known many l. destruct (reading_total c known many (S (length l)) l (Nat.lt_succ_diag_r _)) as (rs & us & R). exists rs, us. split; [exact R|]. eapply reading_length. exact R. Qed.
Theorem C53_reading_unique : forall c known many l roles uses roles' uses', reading c known many l roles uses -> reading c known many l roles' uses' -> roles = roles' /\ uses = uses'.
Proof. intros c known many l rs us rs' us' A B. exact (reading_unique c known many l rs us A rs' us' B). Qed.

(** C54: without exceptions and with the default way to treat conflicts, no two
    options share a name. *)
Theorem C54_no_sharing : forall p i j oi oj n, declared p -> conflict p = OnError -> nth_error (options p) i = Some oi -> nth_error (options p) j = Some oj ->
  In n (names oi) -> In n (names oj) -> i = j.
Proof.
  intros p i j oi oj n D C Ni Nj Ii Ij. apply declared_fine in D. destruct D as (_ & _ & S). specialize (S C). destruct (S _ _ n Ni) as (_ & Si). destruct (S _ _ n Nj) as (_ & Sj). specialize (Si Ii). specialize (Sj Ij). congruence.
Qed.
Theorem C54_no_repetition : forall p i o, declared p -> conflict p = OnError -> nth_error (options p) i = Some o -> NoDup (names o).
Proof. intros p i o D C N. apply declared_fine in D. destruct D as (_ & _ & S). exact (proj1 (S C _ _ [] N)). Qed.
(** A name for an option starts with the prefix, or is more than the long prefix.
    (opt[0] of an empty string is the zero character.) *)
Definition is_name (p : parser) (n : list Z) : Prop := option_like (prefix p) n \/ (exists c r, n = long_prefix p ++ c :: r) \/ (n = [] /\ prefix p = 0).
Lemma type_name p n : typed p -> (extract_option_type p n <> InvalidOpt <-> is_name p n).
Proof.
  intros (_ & _ & L). unfold extract_option_type, is_name, option_like. destruct (long_prefix p) as [|x [|y [|z q]]]; try discriminate L.
  destruct n as [|a [|b [|c r]]]; cbn [length Nat.ltb Nat.leb andb nth substr skipn firstn].
  - destruct (Z.eqb_spec 0 (prefix p)) as [E|E]; split; intros H; try discriminate.
    + auto.
    + congruence.
    + exfalso. destruct H as [(r & E1)|[(c & r & E1)|(_ & E1)]]; try discriminate. congruence.
  - destruct (Z.eqb_spec a (prefix p)) as [->|E]; split; intros H; try discriminate; [eauto|congruence|]. exfalso. destruct H as [(r & E1)|[(c & r & E1)|(E1 & _)]]; try discriminate. congruence.
  - destruct (Z.eqb_spec a (prefix p)) as [->|E]; split; intros H; try discriminate; [eauto|congruence|]. exfalso. destruct H as [(r & E1)|[(c & r & E1)|(E1 & _)]]; try discriminate. congruence.
  - change (substr 0 2 (a :: b :: c :: r)) with [a; b]. destruct (seqb [a; b] [x; y]) eqn:S.
    + apply seqb_eq in S. injection S as -> ->. split; intros H; [|discriminate]. right. left. exists c, r. reflexivity.
    + destruct (Z.eqb_spec a (prefix p)) as [->|E]; split; intros H; try discriminate; [eauto|congruence|]. exfalso. destruct H as [(q & E1)|[(d & q & E1)|(E1 & _)]]; try discriminate; [congruence|]. cbn [app] in E1. injection E1 as -> -> _ _. rewrite seqb_refl in S. discriminate.
Qed.
(** add_option throws exactly when a name is not one, is given twice, or belongs to another option. *)
Theorem C54_reported : forall p ns p' e, declared p -> conflict p = OnError -> add_option p ns = (p', e) ->
  (e = None <-> NoDup ns /\ forall n, In n ns -> is_name p n /\ forall o, In o (options p) -> ~ In n (names o)).
Proof.
  intros p ns p' e D C H. apply declared_fine in D. destruct D as ((T & SO) & _ & S). rewrite (add_reports _ _ _ _ H T SO (S C) C). split; intros (A & B); (split; [exact A|]); intros n I; destruct (B n I) as (X & Y); (split; [|exact Y]); apply (type_name p n T); exact X.
Qed.
(** An argument that is a name of an option, perhaps with a value, is taken for that option. *)
Theorem C54_resolves : forall p i o n v a, declared p -> conflict p = OnError -> nth_error (options p) i = Some o -> In n (names o) ->
  option_like (prefix p) n -> n <> long_prefix p -> trimmed n n -> cut a n v -> names_option (prefix p) (find_opt p) a v i.
Proof.
  intros p i o n v a D C N I O NL T CU. apply declared_fine in D. destruct D as ((TY & SO) & _ & S). split.
  - destruct O as (r & ->). destruct CU as (_ & E). destruct v; subst; eexists; reflexivity.
  - exists n, n. split; [exact CU|]. split; [exact T|]. apply kept_find; auto; [apply (S C _ _ n N); exact I|]. destruct O as (r & ->). discriminate.
Qed.
(** Whatever the way to treat conflicts, it is the option declared last. *)
Theorem C54_last_wins : forall p i o n v a, declared p -> nth_error (options p) i = Some o -> In n (names o) ->
  option_like (prefix p) n -> n <> long_prefix p -> trimmed n n -> cut a n v ->
  exists j oj, names_option (prefix p) (find_opt p) a v j /\ nth_error (options p) j = Some oj /\ In n (names oj) /\
    forall k ok, nth_error (options p) k = Some ok -> In n (names ok) -> (k <= j)%nat.
Proof.
  intros p i o n v a D N I O NL T CU. apply declared_fine in D. destruct D as ((TY & SO) & W & _). destruct (W _ _ _ N I) as (_ & j & K & _). destruct (SO _ _ K) as (oj & NJ & IJ). exists j, oj. split; [|split; [exact NJ|split; [exact IJ|]]].
  - split; [destruct O as (r & ->); destruct CU as (_ & E); destruct v; subst; eexists; reflexivity|]. exists n, n. split; [exact CU|]. split; [exact T|]. apply kept_find; auto. destruct O as (r & ->). discriminate.
  - intros k ok NK IK. destruct (W _ _ _ NK IK) as (_ & j' & K' & LE). congruence.
Qed.
(** An argument is taken only for an option that has its name. *)
Theorem C54_only_named : forall p n i, made p -> find_opt p n = Some i -> exists o, nth_error (options p) i = Some o /\ In n (names o).
Proof. intros p n i M H. apply made_good in M. destruct M as (T & S). apply S. apply find_kept; assumption. Qed.

(** C55: with a destination of its own an option has the values given by its uses:
    the last of them, or all of them for Append. *)
Theorem C55_values : forall p argv p' st i o, made p -> Z.of_nat (length argv) < 2 ^ 31 -> parse_args p argv = Ok (p', st) ->
  nth_error (options p') i = Some o -> alone (options p') i -> act o <> Count ->
  exists roles uses vss, reads p' (tl argv) roles uses /\ Forall2 (gives real o) (uses_of i uses) vss /\
    (concat vss <> [] -> has o st (concat vss)).
Proof.
  intros p argv p' st i o M L H N AL A. apply made_good in M. destruct (parse_has _ _ _ _ _ _ _ _ M L H N AL) as (rs & us & R & _ & X & _). destruct (X A) as (vss & dv & ev & F & _ & _ & HA).
  exists rs, us, vss. split; [exact R|]. split; [exact F|]. intros NE. destruct (concat vss); [congruence|exact HA].
Qed.
(** What a use gives is determined by it. *)
Theorem C55_gives_unique : forall o u vs vs', gives real o u vs -> gives real o u vs' -> vs = vs'.
Proof. exact (gives_unique real). Qed.
(** Count counts the uses; a default or an environment variable counts as one. *)
Theorem C55_count : forall p argv p' st i o, made p -> Z.of_nat (length argv) < 2 ^ 31 -> parse_args p argv = Ok (p', st) ->
  nth_error (options p') i = Some o -> alone (options p') i -> act o = Count ->
  exists roles uses, reads p' (tl argv) roles uses /\
    get st (dest o) = let n := (length (uses_of i uses) + (match default_text o with Some _ => 1 | None => 0 end) + (match env_text getenv o with Some _ => 1 | None => 0 end))%nat in
                      match n with O => None | _ => Some (VInt (Z.of_nat n)) end.
Proof.
  intros p argv p' st i o M L H N AL A. apply made_good in M. destruct (parse_has _ _ _ _ _ _ _ _ M L H N AL) as (rs & us & R & _ & _ & X). specialize (X A). unfold counts, view in X. apply triple in X. destruct X as (X & _).
  exists rs, us. split; [exact R|]. exact X.
Qed.

(** C56: what is given on the command line comes first, then the default (!), then
    the environment.  Missing: the environment does not come before the default. *)
Theorem C56_value_partial : forall p argv p' st i o, made p -> Z.of_nat (length argv) < 2 ^ 31 -> parse_args p argv = Ok (p', st) ->
  nth_error (options p') i = Some o -> alone (options p') i -> act o <> Count ->
  exists roles uses vss dv ev, reads p' (tl argv) roles uses /\ Forall2 (gives real o) (uses_of i uses) vss /\
    (concat vss = [] -> gives_opt real o (default_text o) dv) /\ (concat vss = [] -> dv = [] -> gives_opt real o (env_text getenv o) ev) /\
    has o st (if negb (nullb (concat vss)) then concat vss else if negb (nullb dv) then dv else ev).
Proof.
  intros p argv p' st i o M L H N AL A. apply made_good in M. destruct (parse_has _ _ _ _ _ _ _ _ M L H N AL) as (rs & us & R & _ & X & _). destruct (X A) as (vss & dv & ev & F & D & E & HA).
  exists rs, us, vss, dv, ev. split; [exact R|]. split; [exact F|]. split; [exact D|]. split; [exact E|]. destruct (concat vss); [destruct dv|]; exact HA.
Qed.
(** So without a default it is as it should be. *)
Theorem C56_no_default : forall p argv p' st i o, made p -> Z.of_nat (length argv) < 2 ^ 31 -> parse_args p argv = Ok (p', st) ->
  nth_error (options p') i = Some o -> alone (options p') i -> act o <> Count -> default o = [] ->
  exists roles uses vss ev, reads p' (tl argv) roles uses /\ Forall2 (gives real o) (uses_of i uses) vss /\
    (concat vss = [] -> gives_opt real o (env_text getenv o) ev) /\ has o st (if negb (nullb (concat vss)) then concat vss else ev).
Proof.
  intros p argv p' st i o M L H N AL A DN. destruct (C56_value_partial p argv p' st i o M L H N AL A) as (rs & us & vss & dv & ev & R & F & D & E & HA). exists rs, us, vss, ev. split; [exact R|]. split; [exact F|].
  unfold default_text in D. rewrite DN in D. destruct (concat vss) as [|x l]; cbn [nullb negb] in *; [|split; [discriminate|exact HA]]. rewrite (D eq_refl) in *. split; [auto|exact HA].
Qed.

(** C57: the argument list and argv are not read beyond their ends, and the loops end. *)
Theorem C57_no_overread : forall p argv f, made p -> Z.of_nat (length argv) < 2 ^ 31 -> parse_args p argv = Fault f -> f <> BeyondArgs /\ f <> BadIndex /\ f <> NoFuel.
Proof. intros p argv f M. apply made_good in M. exact (parse_args_fault real getenv p argv f M). Qed.
(** Every argument has one role, and those kept out of the rest are options and their values:
    an option starts with the prefix, and without blanks and '=' it is a name that is known;
    a value comes after one. *)
Theorem C57_roles : forall p argv p' st, made p -> Z.of_nat (length argv) < 2 ^ 31 -> parse_args p argv = Ok (p', st) ->
  exists roles uses, reads p' (tl argv) roles uses /\ invalid_args p' = neither 1 roles /\ S (length roles) = length argv /\
    forall k, nth_error roles k = Some Opt -> exists a v i, nth_error argv (S k) = Some a /\ names_option (prefix p') (find_opt p') a v i /\ In i (map fst uses).
Proof.
  intros p argv p' st M L H. destruct (C53_arguments _ _ _ _ M L H) as (rs & us & R & I & _). exists rs, us. split; [exact R|]. split; [exact I|].
  destruct argv as [|a0 av]; [discriminate|]. cbn [tl length] in *. split; [f_equal; eapply reading_length; exact R|]. cbn [nth_error]. clear - R.
  assert (NV : forall (b : bool) (run : list (list Z)) rs' k, nth_error (map (fun _ => if b then Val else Neither) run ++ rs') k = Some Opt -> (length run <= k)%nat /\ nth_error rs' (k - length run) = Some Opt).
  { intros b run rs' k Q. destruct (Nat.lt_ge_cases k (length run)) as [LT|GE]; [|split; [exact GE|rewrite nth_error_app2 in Q by (rewrite map_length; exact GE); rewrite map_length in Q; exact Q]].
    exfalso. rewrite nth_error_app1 in Q by (rewrite map_length; exact LT). apply nth_error_In in Q. apply in_map_iff in Q. destruct Q as (x & E & _). destruct b; discriminate. }
  assert (AP : forall (run r : list (list Z)) k a, (length run <= k)%nat -> nth_error r (k - length run) = Some a -> nth_error (run ++ r) k = Some a) by (intros run r k a GE Q; rewrite nth_error_app2 by exact GE; exact Q).
  assert (MI : forall j i (b : bool) (run : list (list Z)) (us' : list (nat * option (list Z))), In j (map fst us') -> In j (i :: map fst ((if b then map (fun s => (i, Some s)) run else []) ++ us'))).
  { intros j i b run us' Q. right. rewrite map_app. apply in_or_app. right. exact Q. }
  remember (fun i => match nth_error (options p') i with Some o => is_append (act o) | None => false end) as many.
  induction R as [|a r rs us N H IH|a n v t0 r rs us O C1 T1 K1 H IH|a i r rs us NO EN H IH|a x i run r rs us NO NX F EN H IH|a v x i run r rs us NO V F EN H IH|a i NO]; intros k Q.
  - destruct k; discriminate.
  - destruct k as [|k]; [discriminate|]. exact (IH k Q).
  - destruct k as [|k]; [discriminate|]. exact (IH k Q).
  - destruct k as [|k]; [exists a, None, i; split; [reflexivity|split; [exact NO|left; reflexivity]]|]. destruct (IH k Q) as (a' & v' & i' & X & Y & W). exists a', v', i'. split; [exact X|]. split; [exact Y|right; exact W].
  - destruct k as [|k]; [exists a, (Some x), i; split; [reflexivity|split; [exact NO|left; reflexivity]]|]. cbn [nth_error] in Q. destruct (NV _ _ _ _ Q) as (GE & Q'). destruct (IH _ Q') as (a' & v' & i' & X & Y & W). exists a', v', i'. split; [cbn [nth_error]; apply AP; assumption|]. split; [exact Y|]. cbn [map fst]. apply MI. exact W.
  - destruct k as [|k]; [exists a, v, i; split; [reflexivity|split; [exact NO|left; reflexivity]]|]. destruct k as [|k]; [discriminate|]. cbn [nth_error] in Q. destruct (NV _ _ _ _ Q) as (GE & Q'). destruct (IH _ Q') as (a' & v' & i' & X & Y & W). exists a', v', i'. split; [cbn [nth_error]; apply AP; assumption|]. split; [exact Y|]. cbn [map fst]. apply MI. exact W.
  - destruct k as [|k]; [discriminate|destruct k; discriminate].
Qed.
End Props.
Print Assumptions C53_arguments.
Print Assumptions C53_order.
Print Assumptions C53_reading_total.
Print Assumptions C53_reading_unique.
Print Assumptions C54_no_sharing.
Print Assumptions C54_no_repetition.
Print Assumptions C54_reported.
Print Assumptions C54_resolves.
Print Assumptions C54_last_wins.
Print Assumptions C54_only_named.
Print Assumptions C55_values.
Print Assumptions C55_gives_unique.
Print Assumptions C55_count.
Print Assumptions C56_value_partial.
Print Assumptions C56_no_default.
Print Assumptions C57_no_overread.
Print Assumptions C57_roles.

(** C58: an argument is split at the first '='. *)
Theorem C58_cut : forall a n v, cut a n v -> extract_opt_name a = n /\ extract_opt_value a = match v with Some x => x | None => [] end.
Proof. exact cut_model. Qed.
Theorem C58_cut_exists : forall a, exists v, cut a (extract_opt_name a) v /\ extract_opt_value a = match v with Some x => x | None => [] end.
Proof. intros a. destruct (cut_ok a) as (v & C & E & _). exists v. split; [exact C|]. destruct v; exact E. Qed.
Theorem C58_cut_unique : forall a n v n' v', cut a n v -> cut a n' v' -> n = n' /\ v = v'.
Proof. exact cut_unique. Qed.
Theorem C58_trim : forall s, trimmed s (trim_string s).
Proof. exact trim_ok. Qed.
(** A list is split at every separator; the pieces lose their blanks, and the empty
    ones are left out if so asked. *)
Theorem C58_split : forall s d skip_empty, exists l, pieces d s l /\
  split s [d] skip_empty = Ok (map trim_string (if skip_empty then filter (fun x => negb (Nat.eqb (length x) 0)) l else l)).
Proof.
  intros s d skip. destruct (split_ok s d skip) as (l & P & E). exists l. split; [exact P|]. rewrite E. unfold kept. destruct skip; [|reflexivity]. do 2 f_equal. clear. induction l as [|x l IH]; [reflexivity|]. cbn [filter]. rewrite IH. destruct x; reflexivity.
Qed.
Theorem C58_pieces_unique : forall d s l l', pieces d s l -> pieces d s l' -> l = l'.
Proof. intros d s l l'. apply pieces_unique. Qed.
(** Joined they are what they were, up to blanks. *)
Theorem C58_join : forall s d skip_empty ts, split s [d] skip_empty = Ok ts -> (skip_empty = true -> forall l, pieces d s l -> ~ In [] l) -> unblank (join d ts) = unblank s.
Proof.
  intros s d skip ts H NE. destruct (split_ok s d skip) as (l & P & E). rewrite E in H. injection H as <-. assert (K : kept skip l = l).
  { unfold kept. destruct skip; [|reflexivity]. specialize (NE eq_refl l P). clear - NE. induction l as [|x l IH]; [reflexivity|]. cbn [filter]. destruct x; [exfalso; apply NE; left; reflexivity|]. cbn [nullb negb]. rewrite IH; [reflexivity|]. intros I. apply NE. right. exact I. }
  rewrite K, unblank_join. destruct P as (_ & <- & _). reflexivity.
Qed.
Print Assumptions C58_cut.
Print Assumptions C58_cut_exists.
Print Assumptions C58_cut_unique.
Print Assumptions C58_trim.
Print Assumptions C58_split.
Print Assumptions C58_pieces_unique.
Print Assumptions C58_join.

(** C61: a text is read as the type of its option says. *)
Theorem C61_reads : forall real o s v, parse_value real s o = Ok v <-> reads_as real o s v.
Proof. intros real o s v. split; [apply parse_ok|apply parse_is]. Qed.
Print Assumptions C61_reads.
