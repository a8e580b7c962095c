(** Parsers: the names they know. *)
Require Import ZArith List Bool Lia Arith.
From Verif Require Import OptModel OptSpec OptSpec2 OptProofs OptProofs2 OptProofs3.
Import ListNotations.
Open Scope Z_scope.

(** Where a name is registered. *)
Definition kept_in (p : parser) (n : str) : option nat :=
  match extract_option_type p n with LongOpt => lookup n (long_map p) | ShortOpt => lookup n (short_map p) | InvalidOpt => None end.
Definition typed (p : parser) : Prop :=
  (forall k i, lookup k (long_map p) = Some i -> extract_option_type p k = LongOpt) /\
  (forall k i, lookup k (short_map p) = Some i -> extract_option_type p k = ShortOpt) /\ length (long_prefix p) = 2%nat.
Definition sound (p : parser) : Prop := forall n i, kept_in p n = Some i -> exists o, nth_error (options p) i = Some o /\ In n (names o).
Definition whole (p : parser) : Prop := forall i o n, nth_error (options p) i = Some o -> In n (names o) ->
  extract_option_type p n <> InvalidOpt /\ exists j, kept_in p n = Some j /\ (i <= j)%nat.
Definition single (p : parser) : Prop := forall i o n, nth_error (options p) i = Some o -> NoDup (names o) /\ (In n (names o) -> kept_in p n = Some i).

Lemma prefixb_iff a s : prefixb a s = true <-> exists r, s = a ++ r.
Proof.
  revert s. induction a as [|x a IH]; intros s; cbn [prefixb].
  - split; [exists s; reflexivity|reflexivity].
  - destruct s as [|y s]; [split; [discriminate|intros (r & E); discriminate]|]. rewrite andb_true_iff, Z.eqb_eq, IH. split.
    + intros (-> & r & ->). exists r. reflexivity.
    + intros (r & E). injection E as -> ->. split; [reflexivity|]. exists r. reflexivity.
Qed.
Lemma type_long p n : length (long_prefix p) = 2%nat -> extract_option_type p n = LongOpt -> prefixb (long_prefix p) n = true.
Proof.
  unfold extract_option_type. intros L. destruct ((2 <? length n)%nat && seqb (substr 0 2 n) (long_prefix p)) eqn:E; [|destruct (nth 0 n 0 =? prefix p); discriminate].
  intros _. apply andb_prop in E. destruct E as (_ & E). apply seqb_eq in E. apply prefixb_iff. rewrite <- E. unfold substr. cbn [skipn]. exists (skipn 2 n). symmetry. apply firstn_skipn.
Qed.
Lemma type_short p n : length (long_prefix p) = 2%nat -> extract_option_type p n = ShortOpt -> n <> long_prefix p -> n <> [] ->
  prefixb (long_prefix p) n = false /\ starts_with n (prefix p) = true.
Proof.
  unfold extract_option_type. intros L T NL NE. destruct ((2 <? length n)%nat && seqb (substr 0 2 n) (long_prefix p)) eqn:E; [discriminate|].
  destruct (Z.eqb_spec (nth 0 n 0) (prefix p)) as [P|P]; [|discriminate]. split.
  - destruct (prefixb (long_prefix p) n) eqn:B; [|reflexivity]. exfalso. apply prefixb_iff in B. destruct B as (r & B). destruct r as [|c r]; [apply NL; rewrite B; apply app_nil_r|].
    subst n. rewrite app_length in E. cbn [length] in E. destruct (Nat.ltb_spec 2 (length (long_prefix p) + S (length r))); [|lia].
    unfold substr in E. cbn [skipn] in E. rewrite firstn_app in E. rewrite <- L, Nat.sub_diag, firstn_all, firstn_O, app_nil_r, seqb_refl in E. discriminate.
  - destruct n as [|c n]; [congruence|]. cbn in *. apply Z.eqb_eq. exact P.
Qed.
Lemma find_kept p n i : typed p -> find_opt p n = Some i -> kept_in p n = Some i.
Proof.
  intros (TL & TS & L). unfold find_opt, kept_in. destruct (prefixb (long_prefix p) n).
  - intros H. rewrite (TL _ _ H). exact H.
  - destruct (starts_with n (prefix p)); [|discriminate]. intros H. rewrite (TS _ _ H). exact H.
Qed.
Lemma kept_find p n i : typed p -> kept_in p n = Some i -> n <> long_prefix p -> n <> [] -> find_opt p n = Some i.
Proof.
  intros (TL & TS & L) H NL NE. unfold find_opt, kept_in in *. destruct (extract_option_type p n) eqn:E; [| |discriminate].
  - destruct (type_short _ _ L E NL NE) as (-> & ->). exact H.
  - rewrite (type_long _ _ L E). exact H.
Qed.
Lemma long_prefix_unknown p : typed p -> find_opt p (long_prefix p) = None.
Proof.
  intros (TL & TS & L). unfold find_opt. replace (prefixb (long_prefix p) (long_prefix p)) with true by (symmetry; apply prefixb_iff; exists []; symmetry; apply app_nil_r).
  destruct (lookup (long_prefix p) (long_map p)) as [i|] eqn:E; [|reflexivity]. apply TL in E. unfold extract_option_type in E. rewrite L in E. cbn [Nat.ltb Nat.leb andb] in E. destruct (nth 0 (long_prefix p) 0 =? prefix p); discriminate.
Qed.

(** ** Registering names *)
Record same (p q : parser) : Prop := { s_prefix : prefix q = prefix p; s_long : long_prefix q = long_prefix p; s_opts : options q = options p;
  s_conflict : conflict q = conflict p; s_argc : argc q = argc p; s_inv : invalid q = invalid p }.
Lemma same_refl p : same p p. Proof. constructor; reflexivity. Qed.
Lemma same_type p q n : same p q -> extract_option_type q n = extract_option_type p n.
Proof. intros H. unfold extract_option_type. rewrite (s_prefix _ _ H), (s_long _ _ H). reflexivity. Qed.
Lemma register_ok : forall ns p p' e, register p ns = (p', e) -> typed p ->
  typed p' /\ same p p' /\
  exists done rest, ns = done ++ rest /\
    (forall k, kept_in p' k = if member k done then Some (length (options p) - 1)%nat else kept_in p k) /\
    Forall (fun n => extract_option_type p n <> InvalidOpt) done /\
    (conflict p = OnError -> NoDup done /\ Forall (fun n => kept_in p n = None) done) /\
    match e with
    | None => rest = []
    | Some x => x = LogicError /\ exists n r, rest = n :: r /\ (extract_option_type p n = InvalidOpt \/ conflict p = OnError /\ kept_in p' n <> None)
    end.
Proof.
  induction ns as [|n ns IH]; intros p p' e H TY; cbn [register] in H.
  - injection H as <- <-. split; [exact TY|]. split; [apply same_refl|]. exists [], []. repeat split; auto; constructor.
  - assert (STOP : (extract_option_type p n = InvalidOpt \/ conflict p = OnError /\ kept_in p n <> None) -> p' = p -> e = Some LogicError ->
       typed p' /\ same p p' /\ exists done rest, n :: ns = done ++ rest /\
       (forall k, kept_in p' k = if member k done then Some (length (options p) - 1)%nat else kept_in p k) /\
       Forall (fun n => extract_option_type p n <> InvalidOpt) done /\
       (conflict p = OnError -> NoDup done /\ Forall (fun n => kept_in p n = None) done) /\
       match e with
       | None => rest = []
       | Some x => x = LogicError /\ exists n r, rest = n :: r /\ (extract_option_type p n = InvalidOpt \/ conflict p = OnError /\ kept_in p' n <> None)
       end).
    { intros W -> ->. split; [exact TY|]. split; [apply same_refl|]. exists [], (n :: ns). repeat split; auto; try constructor. exists n, ns. auto. }
    assert (GO : forall q, same p q -> typed q -> extract_option_type p n <> InvalidOpt -> (conflict p = OnError -> kept_in p n = None) ->
       (forall k, kept_in q k = if seqb k n then Some (length (options p) - 1)%nat else kept_in p k) -> register q ns = (p', e) ->
       typed p' /\ same p p' /\ exists done rest, n :: ns = done ++ rest /\
       (forall k, kept_in p' k = if member k done then Some (length (options p) - 1)%nat else kept_in p k) /\
       Forall (fun n => extract_option_type p n <> InvalidOpt) done /\
       (conflict p = OnError -> NoDup done /\ Forall (fun n => kept_in p n = None) done) /\
       match e with
       | None => rest = []
       | Some x => x = LogicError /\ exists n r, rest = n :: r /\ (extract_option_type p n = InvalidOpt \/ conflict p = OnError /\ kept_in p' n <> None)
       end).
    { intros q S TQ NI FR KQ R. destruct (IH _ _ _ R TQ) as (T' & S' & done & rest & -> & K & V & U & E). split; [exact T'|]. split.
      { destruct S, S'. constructor; congruence. }
      exists (n :: done), rest. split; [reflexivity|]. split.
      { intros k. rewrite K, (s_opts _ _ S), KQ. unfold member. cbn [existsb]. destruct (seqb k n); cbn [orb]; [|reflexivity]. destruct (existsb (seqb k) done); reflexivity. }
      split. { constructor; [exact NI|]. eapply Forall_impl; [|exact V]. intros x. cbn. rewrite (same_type _ _ x S). auto. }
      split.
      { intros C. rewrite (s_conflict _ _ S) in U. destruct (U C) as (ND & FN). assert (FN2 : Forall (fun x => x <> n /\ kept_in p x = None) done).
        { eapply Forall_impl; [|exact FN]. intros x. cbn. rewrite KQ. destruct (seqb x n) eqn:Q; [discriminate|]. intros ->. split; [|reflexivity]. intros ->. rewrite seqb_refl in Q. discriminate. }
        split.
        - constructor; [|exact ND]. intros I. rewrite Forall_forall in FN2. destruct (FN2 n I) as (Q & _). congruence.
        - constructor; [auto|]. eapply Forall_impl; [|exact FN2]. cbn. tauto. }
      destruct e as [x|]; [|exact E]. destruct E as (-> & m & r & -> & W). split; [reflexivity|]. exists m, r. split; [reflexivity|]. rewrite <- (same_type _ _ m S), <- (s_conflict _ _ S). exact W. }
    destruct (extract_option_type p n) eqn:TN.
    + destruct ((match conflict p with OnError => true | OnReplace => false end) && contains (short_map p) n) eqn:C.
      * injection H as <- <-. apply andb_prop in C. destruct C as (C1 & C2). apply STOP; auto. right. split; [destruct (conflict p); congruence|]. unfold kept_in. rewrite TN. unfold contains in C2. destruct (lookup n (short_map p)); discriminate.
      * apply GO with (q := with_short p (put n (length (options p) - 1)%nat (short_map p))); auto; try discriminate.
        { constructor; reflexivity. }
        { destruct TY as (TL & TS & L). repeat split; [exact TL| |exact L]. cbn [short_map with_short]. intros k i. rewrite lookup_put. destruct (seqb k n) eqn:Q; [|apply TS]. intros _. apply seqb_eq in Q. subst. exact TN. }
        { intros CE. rewrite CE in C. cbn in C. unfold kept_in. rewrite TN. unfold contains in C. destruct (lookup n (short_map p)); [discriminate|reflexivity]. }
        { intros k. unfold kept_in. change (extract_option_type (with_short p (put n (length (options p) - 1)%nat (short_map p))) k) with (extract_option_type p k). cbn [short_map long_map with_short].
          destruct (seqb k n) eqn:Q; [apply seqb_eq in Q; subst; rewrite TN, lookup_put, seqb_refl; reflexivity|]. rewrite lookup_put, Q. reflexivity. }
    + destruct ((match conflict p with OnError => true | OnReplace => false end) && contains (long_map p) n) eqn:C.
      * injection H as <- <-. apply andb_prop in C. destruct C as (C1 & C2). apply STOP; auto. right. split; [destruct (conflict p); congruence|]. unfold kept_in. rewrite TN. unfold contains in C2. destruct (lookup n (long_map p)); discriminate.
      * apply GO with (q := with_long p (put n (length (options p) - 1)%nat (long_map p))); auto; try discriminate.
        { constructor; reflexivity. }
        { destruct TY as (TL & TS & L). repeat split; [|exact TS|exact L]. cbn [long_map with_long]. intros k i. rewrite lookup_put. destruct (seqb k n) eqn:Q; [|apply TL]. intros _. apply seqb_eq in Q. subst. exact TN. }
        { intros CE. rewrite CE in C. cbn in C. unfold kept_in. rewrite TN. unfold contains in C. destruct (lookup n (long_map p)); [discriminate|reflexivity]. }
        { intros k. unfold kept_in. change (extract_option_type (with_long p (put n (length (options p) - 1)%nat (long_map p))) k) with (extract_option_type p k). cbn [short_map long_map with_long].
          destruct (seqb k n) eqn:Q; [apply seqb_eq in Q; subst; rewrite TN, lookup_put, seqb_refl; reflexivity|]. rewrite lookup_put, Q. reflexivity. }
    + injection H as <- <-. apply STOP; auto.
Qed.

(** ** add_option *)
Lemma nth_snoc {A} (l : list A) x i y : nth_error (l ++ [x]) i = Some y <-> nth_error l i = Some y \/ i = length l /\ y = x.
Proof.
  destruct (Nat.lt_ge_cases i (length l)) as [L|L].
  - rewrite nth_error_app1 by exact L. split; [auto|]. intros [H|(-> & _)]; [exact H|lia].
  - rewrite nth_error_app2 by exact L. split.
    + destruct (i - length l)%nat as [|k] eqn:D; cbn; [|destruct k; discriminate]. intros H. injection H as <-. right. split; [lia|reflexivity].
    + intros [H|(-> & ->)]; [|rewrite Nat.sub_diag; reflexivity]. assert (i < length l)%nat by (apply nth_error_Some; congruence). lia.
Qed.
Lemma nth_lt {A} (l : list A) i x : nth_error l i = Some x -> (i < length l)%nat.
Proof. intros H. apply nth_error_Some. congruence. Qed.
Lemma kept_opts p os n : kept_in (with_options p os) n = kept_in p n. Proof. reflexivity. Qed.
Lemma add_typed p ns p' e : add_option p ns = (p', e) -> typed p -> typed p' /\ options p' = options p ++ [fresh ns] /\ prefix p' = prefix p /\ long_prefix p' = long_prefix p /\ conflict p' = conflict p /\ argc p' = argc p /\ (e = None \/ e = Some LogicError).
Proof.
  intros H T. destruct (register_ok _ _ _ _ H T) as (T' & S & done & rest & _ & _ & _ & _ & E). split; [exact T'|]. destruct S as [S1 S2 S3 S4 S5 S6]. repeat split; auto. destruct e; [destruct E as (-> & _)|]; auto.
Qed.
Lemma add_sound p ns p' e : add_option p ns = (p', e) -> typed p -> sound p -> sound p'.
Proof.
  intros H T SO. destruct (register_ok _ _ _ _ H T) as (T' & S & done & rest & -> & K & _ & _ & _). intros n i Q. rewrite (s_opts _ _ S). cbn [options with_options]. rewrite K in Q. destruct (member n done) eqn:M.
  - injection Q as <-. exists (fresh (done ++ rest)). split; [|cbn; apply in_or_app; left; apply member_ok; exact M]. cbn [options with_options]. rewrite app_length. cbn [length]. apply nth_snoc. right. split; [lia|reflexivity].
  - rewrite kept_opts in Q. destruct (SO _ _ Q) as (o & N & I). exists o. split; [apply nth_snoc; left; exact N|exact I].
Qed.
Lemma add_whole p ns p' : add_option p ns = (p', None) -> typed p -> whole p -> whole p'.
Proof.
  intros H T W. destruct (register_ok _ _ _ _ H T) as (T' & S & done & rest & -> & K & V & _ & ->). rewrite app_nil_r in *. cbn [options with_options] in *. intros i o n N I. rewrite (s_opts _ _ S) in N. cbn [options with_options] in N.
  rewrite (same_type _ _ n S), K. rewrite app_length. cbn [length]. replace (length (options p) + 1 - 1)%nat with (length (options p)) by lia. apply nth_snoc in N. destruct N as [N|(-> & ->)].
  - destruct (W _ _ _ N I) as (X & j & Y & L). split; [exact X|]. destruct (member n done); [|exists j; auto]. exists (length (options p)). split; [reflexivity|]. apply nth_lt in N. lia.
  - cbn [names fresh] in I. split; [rewrite Forall_forall in V; exact (V n I)|]. apply member_ok in I. rewrite I. eauto.
Qed.
Lemma add_single p ns p' : add_option p ns = (p', None) -> typed p -> conflict p = OnError -> single p -> single p'.
Proof.
  intros H T C W. destruct (register_ok _ _ _ _ H T) as (T' & S & done & rest & -> & K & V & U & ->). rewrite app_nil_r in *. cbn [options with_options] in *. destruct (U C) as (ND & FN). intros i o n N. rewrite (s_opts _ _ S) in N. cbn [options with_options] in N.
  rewrite K, app_length. cbn [length]. replace (length (options p) + 1 - 1)%nat with (length (options p)) by lia. apply nth_snoc in N. destruct N as [N|(-> & ->)].
  - destruct (W _ _ n N) as (X & Y). split; [exact X|]. intros I. specialize (Y I). destruct (member n done) eqn:M; [|exact Y]. exfalso. apply member_ok in M. rewrite Forall_forall in FN. specialize (FN n M). rewrite kept_opts in FN. congruence.
  - cbn [names fresh]. split; [exact ND|]. intros I. apply member_ok in I. rewrite I. reflexivity.
Qed.
(** A name that is there already is reported, and nothing else is. *)
Lemma add_reports p ns p' e : add_option p ns = (p', e) -> typed p -> sound p -> single p -> conflict p = OnError ->
  (e = None <-> NoDup ns /\ forall n, In n ns -> extract_option_type p n <> InvalidOpt /\ forall o, In o (options p) -> ~ In n (names o)).
Proof.
  intros H T SO SI C. destruct (register_ok _ _ _ _ H T) as (T' & S & done & rest & -> & K & V & U & E). destruct (U C) as (ND & FN).
  assert (FR : forall n, In n done -> extract_option_type p n <> InvalidOpt /\ forall o, In o (options p) -> ~ In n (names o)).
  { intros n I. split; [rewrite Forall_forall in V; exact (V n I)|]. intros o IO IN. destruct (In_nth_error _ _ IO) as (i & N). destruct (SI _ _ n N) as (_ & Y). rewrite Forall_forall in FN. specialize (FN n I). rewrite kept_opts in FN. rewrite (Y IN) in FN. discriminate. }
  destruct e as [x|].
  - split; [discriminate|]. intros (NR & A). exfalso. destruct E as (-> & n & r & -> & W). specialize (A n ltac:(apply in_or_app; right; left; reflexivity)). destruct A as (A1 & A2).
    destruct W as [W|(_ & W)]; [exact (A1 W)|]. rewrite K in W. destruct (member n done) eqn:M.
    + apply member_ok in M. apply NoDup_remove_2 in NR. apply NR. apply in_or_app. left. exact M.
    + rewrite kept_opts in W. destruct (kept_in p n) as [i|] eqn:Q; [|congruence]. destruct (SO _ _ Q) as (o & N & I). apply nth_error_In in N. exact (A2 o N I).
  - subst rest. rewrite app_nil_r. split; [|reflexivity]. intros _. split; [exact ND|exact FR].
Qed.

(** ** The other calls *)
Lemma alter_nth {A} (f : A -> A) : forall l i j, nth_error (alter i f l) j = if Nat.eqb i j then option_map f (nth_error l j) else nth_error l j.
Proof.
  induction l as [|x l IH]; intros [|i] [|j]; cbn [alter nth_error Nat.eqb option_map]; auto; destruct (Nat.eqb i j); reflexivity.
Qed.
(** Options changed, the names kept. *)
Definition renamed (os os' : list option_) : Prop := forall i, option_map names (nth_error os' i) = option_map names (nth_error os i).
Lemma configure_renamed p i c : renamed (options p) (options (configure p i c)).
Proof. intros j. cbn [options configure with_options]. rewrite alter_nth. destruct (Nat.eqb i j); [|reflexivity]. destruct (nth_error (options p) j); reflexivity. Qed.
Lemma renamed_some os os' i o : renamed os os' -> nth_error os' i = Some o -> exists o0, nth_error os i = Some o0 /\ names o0 = names o.
Proof. intros R H. specialize (R i). rewrite H in R. destruct (nth_error os i) as [o0|]; cbn in R; [injection R as R; eauto|discriminate]. Qed.
Lemma renamed_sym os os' : renamed os os' -> renamed os' os. Proof. intros R i. symmetry. apply R. Qed.
Lemma renamed_trans a b c : renamed a b -> renamed b c -> renamed a c. Proof. intros R S i. rewrite S. apply R. Qed.
(** [q] is [p] up to parts that do not matter for names. *)
Definition alike (p q : parser) : Prop := prefix q = prefix p /\ long_prefix q = long_prefix p /\ long_map q = long_map p /\ short_map q = short_map p /\ conflict q = conflict p /\ renamed (options p) (options q).
Lemma alike_kept p q n : alike p q -> kept_in q n = kept_in p n /\ extract_option_type q n = extract_option_type p n.
Proof. intros (A & B & C & D & _ & _). unfold kept_in, extract_option_type. rewrite A, B, C, D. auto. Qed.
Lemma alike_typed p q : alike p q -> typed p -> typed q.
Proof.
  intros H (TL & TS & L). pose proof (fun n => proj2 (alike_kept p q n H)) as E. destruct H as (A & B & C & D & _). repeat split.
  - intros k i. rewrite C, E. apply TL.
  - intros k i. rewrite D, E. apply TS.
  - rewrite B. exact L.
Qed.
Lemma alike_sound p q : alike p q -> sound p -> sound q.
Proof. intros H S n i. rewrite (proj1 (alike_kept p q n H)). intros K. destruct (S _ _ K) as (o & N & I). destruct H as (_ & _ & _ & _ & _ & R). destruct (renamed_some _ _ _ _ (renamed_sym _ _ R) N) as (o' & N' & E). exists o'. split; [exact N'|rewrite E; exact I]. Qed.
Lemma alike_whole p q : alike p q -> whole p -> whole q.
Proof. intros H W i o n N I. destruct (alike_kept p q n H) as (-> & ->). destruct H as (_ & _ & _ & _ & _ & R). destruct (renamed_some _ _ _ _ R N) as (o' & N' & E). apply (W i o' n N'). rewrite E. exact I. Qed.
Lemma alike_single p q : alike p q -> single p -> single q.
Proof. intros H W i o n N. destruct (alike_kept p q n H) as (-> & _). destruct H as (_ & _ & _ & _ & _ & R). destruct (renamed_some _ _ _ _ R N) as (o' & N' & E). rewrite <- E. exact (W i o' n N'). Qed.
Lemma renamed_refl os : renamed os os. Proof. intros i. reflexivity. Qed.
Lemma alike_configure p i c : alike p (configure p i c). Proof. repeat split. apply configure_renamed. Qed.

(** Everything above, for all parsers ([e]) and for those where no add_option failed. *)
Definition good (p : parser) : Prop := typed p /\ sound p.
Definition fine (p : parser) : Prop := good p /\ whole p /\ (conflict p = OnError -> single p).
Lemma good_alike p q : alike p q -> good p -> good q. Proof. intros H (A & B). split; [eapply alike_typed|eapply alike_sound]; eassumption. Qed.
Lemma fine_alike p q : alike p q -> fine p -> fine q.
Proof. intros H (A & B & C). split; [eapply good_alike; eassumption|]. split; [eapply alike_whole; eassumption|]. intros E. eapply alike_single; [exact H|]. apply C. destruct H as (_ & _ & _ & _ & Q & _). congruence. Qed.
Lemma good_add p ns p' e : add_option p ns = (p', e) -> good p -> good p'.
Proof. intros H (T & S). split; [eapply add_typed; eassumption|eapply add_sound; eassumption]. Qed.
Lemma fine_add p ns p' : add_option p ns = (p', None) -> fine p -> fine p'.
Proof. intros H (G & W & S). split; [eapply good_add; eassumption|]. destruct G as (T & SO). split; [eapply add_whole; eassumption|]. destruct (add_typed _ _ _ _ H T) as (_ & _ & _ & _ & C & _). rewrite C. intros E. eapply add_single; eauto. Qed.
Lemma flag_cases p c nm p' : add_flag p c nm = Ok p' -> p' = p \/ exists p1, add_option p [[prefix p; c]; long_prefix p ++ nm] = (p1, None) /\ p' = configure p1 (length (options p1) - 1) (flag nm).
Proof.
  unfold add_flag. destruct (negb (contains (short_map p) [prefix p; c]) && negb (contains (long_map p) (long_prefix p ++ nm))).
  - destruct (add_option p [[prefix p; c]; long_prefix p ++ nm]) as (p1, [e|]) eqn:A; [discriminate|]. intros H. injection H as <-. right. eauto.
  - intros H. injection H as <-. auto.
Qed.
Lemma good_flag p c nm p' : add_flag p c nm = Ok p' -> good p -> good p'.
Proof. intros H G. destruct (flag_cases _ _ _ _ H) as [->|(p1 & A & ->)]; [exact G|]. eapply good_alike; [apply alike_configure|]. eapply good_add; eassumption. Qed.
Lemma fine_flag p c nm p' : add_flag p c nm = Ok p' -> fine p -> fine p'.
Proof. intros H G. destruct (flag_cases _ _ _ _ H) as [->|(p1 & A & ->)]; [exact G|]. eapply fine_alike; [apply alike_configure|]. eapply fine_add; eassumption. Qed.
Lemma flag_argc p c nm p' : add_flag p c nm = Ok p' -> typed p -> argc p' = argc p /\ prefix p' = prefix p /\ long_prefix p' = long_prefix p /\ conflict p' = conflict p.
Proof. intros H T. destruct (flag_cases _ _ _ _ H) as [->|(p1 & A & ->)]; [auto|]. destruct (add_typed _ _ _ _ A T) as (_ & _ & B & C & D & E & _). cbn. auto. Qed.
Lemma validate_all_ok p : forall os os', validate_all p os = Ok os' -> os' = map (fun o => fst (validate p o)) os /\ Forall (fun o => snd (validate p o) = true) os.
Proof.
  induction os as [|o os IH]; intros os' H; cbn [validate_all] in H; [injection H as <-; split; [reflexivity|constructor]|]. destruct (validate p o) as (o1, [|]) eqn:V.
  - destruct (validate_all p os) as [r|e|f]; cbn [bnd] in H; try discriminate. injection H as <-. destruct (IH _ eq_refl) as (-> & F). split; [cbn [map]; rewrite V; reflexivity|]. constructor; [rewrite V; reflexivity|exact F].
  - destruct (names o1); discriminate.
Qed.
Lemma validate_renamed p os : renamed os (map (fun o => fst (validate p o)) os).
Proof. intros i. rewrite nth_error_map. destruct (nth_error os i); reflexivity. Qed.
