(** Typed access, texts, and calls of parse_args that return. *)
Require Import ZArith List Bool Lia Arith.
From Verif Require Import OptModel OptModel2 OptSpec OptSpec2 OptSpec3 OptProofs OptProofs2 OptProofs3 OptProofs4 OptProofs5 OptProofs6.
Import ListNotations.
Open Scope Z_scope.

Ltac ulia := unfold str in *; lia.
(** ** Texts *)
Lemma upper_letters s : to_upper s = letters s.
Proof. unfold to_upper, letters. apply map_ext. intros c. unfold upper. destruct (97 <=? c), (c <=? 122); reflexivity. Qed.
Definition named (o : option_) : Prop := names o <> [].
Lemma usage_loop_ok os : Forall named os -> forall u, usage_loop os u = Ok (u ++ concat (map usage_item os)).
Proof.
  induction 1 as [|o os N F IH]; intros u; cbn [usage_loop map concat]; [rewrite app_nil_r; reflexivity|]. unfold usage_item at 1. unfold named in N. destruct (names o) as [|n r]; [congruence|]. cbn [front bnd hd].
  destruct (typ o); rewrite IH, ?upper_letters, <- !app_assoc; reflexivity.
Qed.
Lemma usage_ok p : Forall named (options p) -> format_usage p [] = Ok (usage_text p).
Proof. intros F. unfold format_usage, usage_text. cbn [nullb]. rewrite usage_loop_ok by exact F. cbn [bnd]. rewrite <- !app_assoc. reflexivity. Qed.
Lemma more_names_ok r : forall m, more_names r m = joined [44; 32] (m :: r).
Proof.
  induction r as [|n r IH]; intros m; cbn [more_names]; [reflexivity|]. rewrite IH. cbn [joined]. destruct r; rewrite <- ?app_assoc; reflexivity.
Qed.
Lemma lines_ok help os : Forall named os -> forall i, lines_of help os i = Ok (map (fun x => (help_item (snd x), help (fst x))) (combine (seq i (length os)) os)).
Proof.
  induction 1 as [|o os N F IH]; intros i; cbn [lines_of length seq combine map]; [reflexivity|]. unfold named in N. unfold format_opt_names. destruct (names o) as [|n r] eqn:E; [congruence|]. cbn [bnd]. rewrite IH. cbn [bnd fst snd]. unfold help_item at 2. rewrite E, more_names_ok. reflexivity.
Qed.
Lemma max_line_ok ls : forall b, In (max_line b ls) (b :: ls) /\ Forall (fun l => (length (fst l) <= length (fst (max_line b ls)))%nat) (b :: ls).
Proof.
  induction ls as [|l ls IH]; intros b; cbn [max_line]; [split; [left; reflexivity|constructor; [ulia|constructor]]|]. destruct (Nat.ltb_spec (length (fst b)) (length (fst l))).
  - destruct (IH l) as (I & F). split; [right; exact I|]. inversion F; subst. constructor; [ulia|]. constructor; assumption.
  - destruct (IH b) as (I & F). split; [destruct I as [I|I]; [left|right; right]; assumption|]. inversion F; subst. constructor; [assumption|]. constructor; [ulia|assumption].
Qed.
Lemma help_loop_ok w ls : Forall (fun l : str * str => (length (fst l) <= w)%nat) ls -> forall c, help_loop w ls c = Ok (c ++ concat (map (fun l => [32; 32] ++ fst l ++ repeat 32 (w - length (fst l)) ++ snd l ++ [10]) ls)).
Proof.
  induction 1 as [|(l, h) ls N F IH]; intros c; cbn [help_loop map concat]; [rewrite app_nil_r; reflexivity|]. cbn [fst snd] in *. destruct (Nat.ltb_spec w (length l)); [ulia|]. rewrite IH. rewrite <- !app_assoc. reflexivity.
Qed.
Lemma help_ok p help : options p <> [] -> Forall named (options p) ->
  exists w, format_help p help [] = Ok (usage_text p ++ [32; 10; 32; 111; 112; 116; 105; 111; 110; 115; 58; 32; 10] ++ help_lines p help w, usage_text p) /\
    (forall o, In o (options p) -> (length (help_item o) < w)%nat) /\ (exists o, In o (options p) /\ w = S (length (help_item o))).
Proof.
  intros NE F. unfold format_help. rewrite (lines_ok help _ F 0%nat). cbn [bnd]. rewrite (usage_ok _ F). set (ls := map _ _).
  assert (IL : forall l, In l ls -> exists o, In o (options p) /\ fst l = help_item o).
  { intros l I. apply in_map_iff in I. destruct I as ((i, o) & <- & I). exists o. split; [eapply in_combine_r; exact I|reflexivity]. }
  assert (LI : forall o, In o (options p) -> exists l, In l ls /\ fst l = help_item o).
  { intros o I. destruct (In_nth_error _ _ I) as (k & N). exists (help_item o, help k). split; [|reflexivity]. apply in_map_iff. exists (k, o). split; [reflexivity|]. pose proof (nth_lt _ _ _ N) as LT.
    assert (X : nth_error (combine (seq 0 (length (options p))) (options p)) k = Some (k, o)).
    { clear - N LT. change (k, o) with ((0 + k)%nat, o). generalize 0%nat as b. revert k N LT. induction (options p) as [|x l IH]; intros k N LT b; [destruct k; discriminate|]. destruct k as [|k]; cbn [length seq combine nth_error] in *; [injection N as ->; rewrite Nat.add_0_r; reflexivity|].
      rewrite Nat.add_succ_r. apply (IH k N ltac:(ulia) (S b)). }
    eapply nth_error_In. exact X. }
  destruct ls as [|l0 r] eqn:E; [exfalso; destruct (options p) as [|o q]; [congruence|]; destruct (LI o ltac:(left; reflexivity)) as (l & [] & _)|].
  destruct (max_line_ok r l0) as (I & M). set (w := S (length (fst (max_line l0 r)))). exists w. split.
  - cbn [bnd]. rewrite help_loop_ok.
    + cbn [bnd]. rewrite <- app_assoc. do 4 f_equal. unfold help_lines. f_equal. rewrite <- E. subst ls. rewrite map_map. reflexivity.
    + eapply Forall_impl; [|exact M]. cbn. intros l H. unfold w. ulia.
  - split.
    + intros o IO. destruct (LI o IO) as (l & IN & EQ). rewrite <- EQ. rewrite Forall_forall in M. specialize (M l IN). cbn in M. unfold w. ulia.
    + destruct (IL _ I) as (o & IO & EQ). exists o. split; [exact IO|]. unfold w. f_equal. exact (f_equal (@length Z) EQ).
Qed.

(** ** Names *)
Lemma last_with_some t : forall os i j, last_with t os i = Some j -> exists k o, j = (i + k)%nat /\ nth_error os k = Some o /\ In t (names o) /\ forall k' o', nth_error os k' = Some o' -> In t (names o') -> (k' <= k)%nat.
Proof.
  induction os as [|o os IH]; intros i j; cbn [last_with]; [discriminate|]. destruct (last_with t os (S i)) as [j'|] eqn:E.
  - intros Q. injection Q as <-. destruct (IH _ _ E) as (k & x & -> & N & I & M). exists (S k), x. split; [lia|]. split; [exact N|]. split; [exact I|]. intros [|k'] o' N' I'; [lia|]. specialize (M _ _ N' I'). lia.
  - destruct (in_dec (list_eq_dec Z.eq_dec) t (names o)) as [I|I]; [|discriminate]. intros Q. injection Q as <-. exists 0%nat, o. split; [lia|]. split; [reflexivity|]. split; [exact I|]. intros [|k'] o' N' I'; [lia|]. exfalso. clear - E N' I'. cbn [nth_error] in N'. revert i k' E N'.
    induction os as [|x os IH]; intros i k' E N'; [destruct k'; discriminate|]. cbn [last_with] in E. destruct (last_with t os (S (S i))) eqn:E2; [discriminate|]. destruct (in_dec (list_eq_dec Z.eq_dec) t (names x)); [discriminate|]. destruct k' as [|k']; [injection N' as ->; contradiction|]. exact (IH _ _ E2 N').
Qed.
Lemma last_with_none t : forall os i, last_with t os i = None -> forall o, In o os -> ~ In t (names o).
Proof.
  induction os as [|o os IH]; intros i; cbn [last_with]; [intros _ o []|]. destruct (last_with t os (S i)) eqn:E; [discriminate|]. destruct (in_dec (list_eq_dec Z.eq_dec) t (names o)) as [I|I]; [discriminate|]. intros _ x [<-|X]; [exact I|eapply IH; eassumption].
Qed.
Lemma kept_last p t : fine p -> t <> [] -> kept_in p t = last_with t (options p) 0.
Proof.
  intros ((T & S) & W & _) NE. destruct (last_with t (options p) 0) as [j|] eqn:E.
  - destruct (last_with_some _ _ _ _ E) as (k & o & -> & N & I & M). destruct (W _ _ _ N I) as (_ & j & K & LE). rewrite K. destruct (S _ _ K) as (oj & NJ & IJ). specialize (M _ _ NJ IJ). f_equal. lia.
  - pose proof (last_with_none _ _ _ E) as N. destruct (kept_in p t) as [i|] eqn:K; [|reflexivity]. exfalso. destruct (S _ _ K) as (o & NO & I). apply nth_error_In in NO. exact (N o NO I).
Qed.
Lemma find_stands p t : fine p -> stands_for p (options p) t (find_opt p t).
Proof.
  intros F. pose proof F as ((T & S) & W & _). pose proof T as (TL & TS & L). unfold stands_for. destruct (list_eq_dec Z.eq_dec t (long_prefix p)) as [->|NL].
  { right. split; [apply long_prefix_unknown; exact T|]. right. reflexivity. }
  destruct (prefixb (long_prefix p) t) eqn:P.
  - apply prefixb_iff in P as P'. destruct P' as (r & ->). destruct r as [|c r]; [rewrite app_nil_r in NL; congruence|].
    assert (LN : long_name p (long_prefix p ++ c :: r)) by (exists c, r; reflexivity). left. split; [|auto]. rewrite <- kept_last by (auto; destruct (long_prefix p); discriminate).
    unfold find_opt, kept_in. rewrite P. rewrite (proj2 (long_type p _ L) LN). reflexivity.
  - assert (NN : ~ long_name p t) by (intros (c & r & ->); assert (prefixb (long_prefix p) (long_prefix p ++ c :: r) = true) by (apply prefixb_iff; eauto); congruence).
    unfold find_opt. rewrite P. destruct (starts_with t (prefix p)) eqn:ST.
    + left. pose proof ST as O. apply starts_ok in O. split; [|auto]. destruct O as (r & ->). rewrite <- kept_last by (auto; discriminate). unfold kept_in. destruct (extract_option_type p (prefix p :: r)) eqn:E.
      * reflexivity.
      * apply long_type in E; [contradiction|exact L].
      * exfalso. unfold extract_option_type in E. destruct (_ && _); [discriminate|]. cbn in E. rewrite Z.eqb_refl in E. discriminate.
    + right. split; [reflexivity|]. left. split; [apply starts_no; exact ST|exact NN].
Qed.
Lemma stands_unique p os t a b : stands_for p os t a -> stands_for p os t b -> a = b.
Proof. intros [(-> & A & B)|(-> & A)] [(-> & C & D)|(-> & C)]; try reflexivity; exfalso; tauto. Qed.
Lemma reading_ext c k1 k2 m1 m2 l rs us : (forall t, k1 t = k2 t) -> (forall i, m1 i = m2 i) -> reading c k1 m1 l rs us -> reading c k2 m2 l rs us.
Proof.
  intros K M. assert (NO : forall a v i, names_option c k1 a v i -> names_option c k2 a v i) by (intros a v i (O & n & t & C & T & E); split; [exact O|]; exists n, t; rewrite <- K; auto).
  induction 1 as [|a r rs us N H IH|a n v t r rs us O C1 T1 K1 H IH|a i r rs us N EN H IH|a x i run r rs us N NX F EN H IH|a v x i run r rs us N V F EN H IH|a i N].
  - constructor.
  - apply r_stray; assumption.
  - eapply r_unknown; try eassumption. rewrite <- K. exact K1.
  - apply r_flag; auto.
  - rewrite M. apply r_inline; auto.
  - rewrite M. eapply r_next; eauto.
  - eapply r_dangling. apply NO. exact N.
Qed.

Section S.
Variables (real : type -> str -> Z) (getenv : str -> option str).
Notation process_opt := (process_opt real).
Notation parse_args := (parse_args real getenv).
Notation use_env := (use_env real getenv).
Notation use_defaults := (use_defaults real).
Notation do_uses := (do_uses real).
Notation gives := (gives real).
Notation env_text := (env_text getenv).
Notation usable := (usable real).
Notation usable_opt := (usable_opt real).
Notation finish := (finish real getenv).

(** ** Typed access *)
Lemma reads_holds o s v : reads_as real o s (Some v) -> holds (alt_of (typ o)) v = true.
Proof. intros R. inversion R; subst; match goal with H : typ o = _ |- _ => rewrite H end; reflexivity. Qed.
Lemma each_holds o ts vs : each real o ts vs -> Forall (fun v => holds (alt_of (typ o)) v = true) vs.
Proof. induction 1; constructor; auto. eapply reads_holds; eassumption. Qed.
Lemma gives_holds o u vs : gives o u vs -> (act o = StoreTrue \/ act o = StoreFalse -> typ o = TBool) -> Forall (fun v => holds (alt_of (typ o)) v = true) vs.
Proof.
  intros [u' A U|u' A U|s v A R|s v A N R|s l ts vs' A I P F E] B.
  - rewrite B by auto. repeat constructor.
  - rewrite B by auto. repeat constructor.
  - destruct v; cbn [only]; constructor; [|constructor]. eapply reads_holds; eassumption.
  - destruct v; cbn [only]; constructor; [|constructor]. eapply reads_holds; eassumption.
  - eapply each_holds; eassumption.
Qed.
Lemma last_of_in {A} (l : list A) x : last_of l = Some x -> In x l.
Proof. induction l as [|y l IH]; [discriminate|]. destruct l as [|z l]; [intros E; injection E as ->; left; reflexivity|]. intros E. right. apply IH. exact E. Qed.
Lemma all_as_ok a l : Forall (fun v => holds a v = true) l -> forall d, all_as a l d = Ok (d ++ l).
Proof. induction 1 as [|v l H F IH]; intros d; cbn [all_as]; [rewrite app_nil_r; reflexivity|]. rewrite H, IH, <- app_assoc. reflexivity. Qed.
Lemma parse_typed p argv p' st i o : good p -> Z.of_nat (length argv) < 2 ^ 31 -> parse_args p argv = Ok (p', st) -> nth_error (options p') i = Some o -> alone (options p') i ->
  act o <> Count -> (act o = StoreTrue \/ act o = StoreFalse -> typ o = TBool) -> exists vs, has o st vs /\ Forall (fun v => holds (alt_of (typ o)) v = true) vs.
Proof.
  intros G L H N AL NC B. destruct (parse_has _ _ _ _ _ _ _ _ G L H N AL) as (rs & us & _ & _ & X & _). destruct (X NC) as (vss & dv & ev & F & D & E & HA). eexists. split; [exact HA|].
  destruct (concat vss) as [|x l] eqn:C.
  - specialize (D eq_refl). specialize (E eq_refl). destruct dv as [|y dv].
    + specialize (E eq_refl). unfold gives_opt in E. destruct (env_text o); [eapply gives_holds; eassumption|rewrite E; constructor].
    + unfold gives_opt in D. destruct (default_text o); [eapply gives_holds; eassumption|discriminate].
  - rewrite <- C. clear - F B. induction F as [|u vs us2 vss GV F IH]; cbn [concat]; [constructor|]. apply Forall_app. split; [eapply gives_holds; eassumption|exact IH].
Qed.

(** ** Calls that return *)
Lemma append_all_total o ts vs : each real o ts vs -> forall st, exists st' b, append_all real o st ts = Ok (st', b).
Proof.
  induction 1 as [|s v l vs R E IH|s l R]; intros st; cbn [append_all].
  - eauto.
  - rewrite (parse_is _ _ _ _ R). cbn [bnd]. apply IH.
  - rewrite (parse_is _ _ _ _ R). cbn [bnd]. eauto.
Qed.
Lemma process_total o st u vs : gives o u vs -> exists st' b, process_opt o st (text u) = Ok (st', b).
Proof.
  assert (ST : forall s v, reads_as real o s v -> exists st' b, (do x <- parse_value real s o; match x with Some v => Ok (set_value st (dest o) v, true) | None => Ok (st, false) end) = Ok (st', b)).
  { intros s v R. rewrite (parse_is _ _ _ _ R). cbn [bnd]. destruct v; eauto. }
  intros [u' A U|u' A U|s v A R|s v A N R|s l ts vs' A I P F E]; unfold OptModel.process_opt.
  - rewrite A. assert (text u' = []) as -> by (destruct U as [(-> & _)|E]; [reflexivity|rewrite E; reflexivity]). cbn. eauto.
  - rewrite A. assert (text u' = []) as -> by (destruct U as [(-> & _)|E]; [reflexivity|rewrite E; reflexivity]). cbn. eauto.
  - cbn [text]. destruct A as [A|([A|A] & NS)]; rewrite A; [eapply ST; exact R| |]; (destruct s; [congruence|]; cbn [nullb]; eapply ST; exact R).
  - cbn [text]. rewrite A. assert (is_multi_value s = false) as -> by (destruct (is_multi_value s) eqn:M; [apply multi_ok in M; contradiction|reflexivity]). cbn [negb]. rewrite (parse_is _ _ _ _ R). cbn [bnd]. destruct v; eauto.
  - cbn [text]. rewrite A. apply multi_ok in I. rewrite I. cbn [negb]. destruct (split_ok s 44 true) as (l' & P' & S). rewrite S. cbn [bnd].
    rewrite (pieces_unique _ _ _ _ P P') in F. assert (map trim_string (kept true l') = ts) as ->.
    { clear - F. unfold kept. replace (filter (fun x : list Z => negb (length x =? 0)%nat) l') with (filter (fun x : list Z => negb (nullb x)) l') in F.
      - change (list str) with (list (list Z)). change str with (list Z). induction F as [|x t0 q ts0 T F IH]; cbn [map]; [reflexivity|]. f_equal; [exact (trim_is _ _ T)|exact IH].
      - clear. induction l' as [|x l IH]; [reflexivity|]. cbn [filter]. rewrite IH. destruct x; reflexivity. }
    eapply append_all_total. exact E.
Qed.
(** Counted destinations have numbers up to [k]. *)
Definition cinv (os : list option_) (st : vstore) (k : Z) : Prop :=
  forall o, In o os -> act o = Count -> get st (dest o) = None \/ exists n, get st (dest o) = Some (VInt n) /\ n <= k.
Lemma view_get st st' d : view st' d = view st d -> get st' d = get st d.
Proof. unfold view. intros E. apply triple in E. exact (proj1 E). Qed.
Lemma process_usable os o st u k : counted_apart os -> In o os -> usable o u -> cinv os st k -> 0 <= k -> k + 1 < 2 ^ 31 ->
  exists st' b, process_opt o st (text u) = Ok (st', b) /\ cinv os st' (k + 1).
Proof.
  intros CA I U CI K0 K1. assert (CC : act o = Count \/ act o <> Count) by (destruct (act o); auto; right; discriminate). destruct CC as [C|NC].
  - unfold OptModel.process_opt. rewrite C. assert (X : exists st1, increment st (dest o) = Ok st1).
    { unfold increment. destruct (CI o I C) as [E|(n & E & LE)]; unfold get in E; rewrite E; [eauto|]. destruct (Z.ltb_spec (n + 1) (2 ^ 31)); [eauto|lia]. }
    destruct X as (st1 & E). rewrite E. cbn [bnd]. exists st1, true. split; [reflexivity|]. intros o' I' C'. pose proof (view_increment _ _ _ (dest o') E) as V. destruct (seqb (dest o') (dest o)) eqn:Q.
    + unfold view in V. apply triple in V. destruct V as (V & _). rewrite V. destruct (CI o I C) as [G|(n & G & LE)]; rewrite G; right; eexists; (split; [reflexivity|lia]).
    + apply view_get in V. rewrite V. destruct (CI o' I' C') as [G|(n & G & LE)]; [left; exact G|right; exists n; split; [exact G|lia]].
  - assert (X : exists vs, gives o u vs) by (unfold OptSpec3.usable in U; destruct (act o); try exact U; congruence). destruct X as (vs & GV). destruct (process_total o st u vs GV) as (st' & b & P). exists st', b. split; [exact P|].
    intros o' I' C'. pose proof (CA o' o I' I C' NC) as D. assert (V : view st' (dest o') = view st (dest o')) by (eapply process_frame; [exact P|congruence]). apply view_get in V. rewrite V.
    destruct (CI o' I' C') as [G|(n & G & LE)]; [left; exact G|right; exists n; split; [exact G|lia]].
Qed.
Lemma gives_none o vs : gives o None vs -> typ o = TBool.
Proof. intros G. remember None as u eqn:E. destruct G as [u A U|u A U|s v A R|s v A N R|s l ts vs' A I P F E']; try discriminate; destruct U as [(_ & T)|U]; congruence. Qed.
Lemma uses_total p us : counted_apart (options p) -> Forall (fun u => exists o, nth_error (options p) (fst u) = Some o /\ usable o (snd u)) us ->
  forall st k, cinv (options p) st k -> 0 <= k -> k + Z.of_nat (length us) < 2 ^ 31 -> exists st', do_uses p st us = Ok st' /\ cinv (options p) st' (k + Z.of_nat (length us)).
Proof.
  intros CA. induction 1 as [|(iu, ut) us (o & N & U) F IH]; intros st k CI K0 K1; cbn [OptProofs2.do_uses length] in *; [exists st; split; [reflexivity|]; rewrite Z.add_0_r; exact CI|].
  destruct (process_usable _ o st ut k CA (nth_error_In _ _ N) U CI K0 ltac:(lia)) as (st1 & b & P & CI1).
  assert (E : use1 real p st (iu, ut) = Ok st1).
  { unfold use1. cbn [fst snd] in *. rewrite N. destruct ut as [s|] eqn:SU; cbn [text] in P; [rewrite P; reflexivity|]. assert (typ o = TBool) as ->; [|rewrite P; reflexivity]. unfold OptSpec3.usable in U. destruct (act o); try (destruct U as (vs & U); exact (gives_none _ _ U)). exact (U eq_refl). }
  replace (use1 real p st (iu, ut)) with (@Ok vstore st1) by (symmetry; exact E). cbn [bnd]. destruct (IH st1 (k + 1) CI1 ltac:(lia) ltac:(lia)) as (st' & R & CI'). exists st'. split; [exact R|]. replace (k + Z.of_nat (S (length us))) with (k + 1 + Z.of_nat (length us)) by lia. exact CI'.
Qed.
Lemma defaults_total all os : counted_apart all -> incl os all -> Forall (fun o => usable_opt o (default_text o)) os ->
  forall st k, cinv all st k -> 0 <= k -> k + Z.of_nat (length os) < 2 ^ 31 -> exists st', use_defaults os st = Ok st' /\ cinv all st' (k + Z.of_nat (length os)).
Proof.
  intros CA IN F. induction F as [|o os U F IH]; intros st k CI K0 K1; cbn [OptModel.use_defaults length] in *; [exists st; split; [reflexivity|]; rewrite Z.add_0_r; exact CI|].
  assert (IN' : incl os all) by (intros x X; apply IN; right; exact X).
  replace (k + Z.of_nat (S (length os))) with (k + 1 + Z.of_nat (length os)) by lia. assert (CI1 : cinv all st (k + 1)) by (intros o' I' C'; destruct (CI o' I' C') as [G|(n & G & LE)]; [left; exact G|right; exists n; split; [exact G|lia]]).
  destruct (negb (nullb (default o)) && negb (user_set st (dest o))) eqn:B; [|apply IH; auto; lia]. apply andb_prop in B. destruct B as (B & _).
  unfold default_text in U. destruct (default o) as [|c r]; [discriminate|]. cbn [OptSpec3.usable_opt] in U. destruct (process_usable all o st (Some (c :: r)) k CA (IN o ltac:(left; reflexivity)) U CI K0 ltac:(lia)) as (st1 & b & P & CI2). cbn [text] in P. rewrite P. cbn [bnd]. apply IH; auto; lia.
Qed.
Lemma env_total all os : counted_apart all -> incl os all -> Forall (fun o => usable_opt o (env_text o)) os ->
  forall st k, cinv all st k -> 0 <= k -> k + Z.of_nat (length os) < 2 ^ 31 -> exists st', use_env os st = Ok st' /\ cinv all st' (k + Z.of_nat (length os)).
Proof.
  intros CA IN F. induction F as [|o os U F IH]; intros st k CI K0 K1; cbn [OptModel.use_env length] in *; [exists st; split; [reflexivity|]; rewrite Z.add_0_r; exact CI|].
  assert (IN' : incl os all) by (intros x X; apply IN; right; exact X).
  replace (k + Z.of_nat (S (length os))) with (k + 1 + Z.of_nat (length os)) by lia. assert (CI1 : cinv all st (k + 1)) by (intros o' I' C'; destruct (CI o' I' C') as [G|(n & G & LE)]; [left; exact G|right; exists n; split; [exact G|lia]]).
  destruct (negb (nullb (env o)) && negb (user_set st (dest o))) eqn:B; [|apply IH; auto; lia]. apply andb_prop in B. destruct B as (B & _).
  unfold OptSpec2.env_text in U. destruct (env o) as [|c r]; [discriminate|]. destruct (getenv (cstr (c :: r))) as [v|]; [|apply IH; auto; lia]. cbn [OptSpec3.usable_opt] in U.
  destruct (process_usable all o st (Some v) k CA (IN o ltac:(left; reflexivity)) U CI K0 ltac:(lia)) as (st1 & b & P & CI2). cbn [text] in P. rewrite P. cbn [bnd]. apply IH; auto; lia.
Qed.
Lemma reading_uses c known many l rs us : reading c known many l rs us -> (length us <= length l)%nat.
Proof.
  induction 1 as [|a r rs us N H IH|a n v t r rs us O C1 T1 K1 H IH|a i r rs us N EN H IH|a x i run r rs us N NX F EN H IH|a v x i run r rs us N V F EN H IH|a i N]; cbn [length] in *; try lia.
  - rewrite !app_length. destruct (many i); cbn [length]; rewrite ?map_length; lia.
  - rewrite !app_length. destruct (many i); cbn [length]; rewrite ?map_length; lia.
Qed.
Lemma finish_steps q av rs us : good q -> argc q = Z.of_nat (S (length av)) -> argc q < 2 ^ 31 -> reading (prefix q) (find_opt q) (takes_many q) av rs us ->
  finish q av = (do st0 <- do_uses q empty_store us; do st1 <- use_defaults (options q) st0; do st2 <- use_env (options q) st1; Ok (with_invalid q (neither 1 rs), st2)).
Proof.
  intros G AC L R. unfold OptProofs6.finish. rewrite AC in *. rewrite Z.mod_small by lia. change {| w_store := empty_store; w_args := {| args := av; it := 0 |}; w_invalid := [] |} with (mkw empty_store av 0 []).
  rewrite (loop_ok real q (Z.of_nat (S (length av))) av) with (rs := rs) (us := us) (rest := av); auto; try lia.
  - rewrite bnd_assoc. apply bnd_ext. intros st0. reflexivity.
  - ulia.
  - intros t i. apply find_lt. exact G.
Qed.
Lemma settled_unique p o a b : length (long_prefix p) = 2%nat -> complete o -> settled p o a -> settled p o b -> a = b.
Proof. intros L C A B. pose proof (validate_complete p o a L A C). pose proof (validate_complete p o b L B C). congruence. Qed.
Lemma equipped_prep p os : fine p -> Forall complete (options p) -> equipped p os -> exists q, prep p = Ok q /\ options q = os.
Proof.
  intros F C (own & fr & -> & S & FR). pose proof (proj1 F) as G. pose proof (proj2 (proj2 (proj1 G))) as L. assert (V : validate_all p (options p) = Ok own) by (apply (validate_all_iff p L); auto). destruct (prep_exists p own G V) as (q & P). exists q. split; [exact P|].
  destruct (prep_ok _ _ G P) as (own' & V' & _ & _ & O & _). rewrite V in V'. injection V' as <-. rewrite O. do 2 f_equal. apply filter_ext_in. intros a I. pose proof (taken_free p a F I) as X. specialize (FR a I). destruct (free p a), (fr a); try reflexivity; intuition congruence.
Qed.
Lemma returns p argv os known rs us : fine p -> argv <> [] -> Z.of_nat (length argv + 2 * length os) < 2 ^ 31 -> Forall complete (options p) -> equipped p os -> counted_apart os ->
  (forall t, stands_for p os t (known t)) -> reading (prefix p) known (fun i => match nth_error os i with Some o => is_append (act o) | None => false end) (tl argv) rs us ->
  Forall (fun u => exists o, nth_error os (fst u) = Some o /\ usable o (snd u)) us -> Forall (fun o => usable_opt o (default_text o) /\ usable_opt o (env_text o)) os ->
  exists p' st, parse_args p argv = Ok (p', st) /\ options p' = os /\ invalid_args p' = neither 1 rs.
Proof.
  intros F NE LEN C EQ CA ST R U DE. destruct argv as [|a0 av]; [congruence|]. cbn [tl] in R. destruct (equipped_prep p os F C EQ) as (q & P & O). pose proof (proj1 F) as G. destruct (prep_ok _ _ G P) as (own & _ & Gq & Fq & _ & _ & K). specialize (Fq F).
  rewrite parse_args_prep, P. cbn [bnd]. set (n := Z.of_nat (length (a0 :: av))). set (s := if nullb (program p) then a0 else program p). set (q' := with_args q n s).
  assert (KN : forall t, known t = find_opt q' t).
  { intros t. apply (stands_unique p os t); [apply ST|]. pose proof (find_stands q t Fq) as X. unfold stands_for, long_name in *. rewrite (k_prefix _ _ K), (k_long _ _ K), O in X. exact X. }
  assert (R' : reading (prefix q') (find_opt q') (takes_many q') av rs us).
  { change (prefix q') with (prefix q). rewrite (k_prefix _ _ K). change (prefix (with_version (with_invalid p []) [])) with (prefix p). eapply reading_ext; [exact KN| |exact R]. intros i. unfold takes_many. cbn [q' options with_args]. rewrite O. reflexivity. }
  match goal with |- context [OptProofs6.finish real getenv ?x ?y] => change (OptProofs6.finish real getenv x y) with (OptProofs6.finish real getenv q' av) end.
  rewrite (finish_steps q' av rs us); [|exact Gq|cbn; lia|cbn [argc q' with_args]; unfold n; lia|exact R'].
  assert (OQ : options q' = os) by exact O. pose proof (reading_uses _ _ _ _ _ _ R) as LU. cbn [length] in LEN.
  destruct (uses_total q' us ltac:(rewrite OQ; exact CA) ltac:(rewrite OQ; exact U) empty_store 0) as (st0 & E0 & CI0); [intros o I A; left; reflexivity|lia|lia|]. rewrite E0. cbn [bnd]. rewrite OQ in *.
  destruct (defaults_total os os CA (incl_refl os) ltac:(eapply Forall_impl; [|exact DE]; cbn; tauto) st0 (0 + Z.of_nat (length us)) CI0) as (st1 & E1 & CI1); [lia|lia|]. rewrite E1. cbn [bnd].
  destruct (env_total os os CA (incl_refl os) ltac:(eapply Forall_impl; [|exact DE]; cbn; tauto) st1 _ CI1) as (st2 & E2 & _); [lia|lia|]. rewrite E2. cbn [bnd]. eexists _, _. split; [reflexivity|]. split; [exact OQ|reflexivity].
Qed.
Lemma uses_needed p us : forall st st', do_uses p st us = Ok st' -> Forall (fun u => exists o, nth_error (options p) (fst u) = Some o /\ usable o (snd u)) us.
Proof.
  induction us as [|(iu, ut) us IH]; intros st st' H; [constructor|]. cbn [OptProofs2.do_uses] in H. destruct (use1 real p st (iu, ut)) as [st1|e|f] eqn:E; cbn [bnd] in H; try discriminate. constructor; [|eapply IH; exact H]. unfold use1 in E. cbn [fst snd] in *.
  destruct (nth_error (options p) iu) as [o|]; [|discriminate]. exists o. split; [reflexivity|]. unfold OptSpec3.usable.
  assert (PT : (ut = None -> typ o = TBool) /\ exists b, process_opt o st (text ut) = Ok (st1, b)).
  { destruct ut as [s|]; cbn [text].
    - split; [discriminate|]. destruct (process_opt o st s) as [(x, b)|e|f]; cbn [bnd] in E; try discriminate. injection E as <-. eauto.
    - destruct (typ o); try discriminate. split; [reflexivity|]. destruct (process_opt o st []) as [(x, b)|e|f]; cbn [bnd] in E; try discriminate. injection E as <-. eauto. }
  destruct PT as (T & b & P). assert (X : act o <> Count -> exists vs, gives o ut vs) by (intros NC; destruct (process_gives _ _ _ _ _ _ T P NC) as (vs & GV & _); eauto).
  destruct (act o); try (apply X; discriminate). exact T.
Qed.
Lemma needed p argv p' st : fine p -> Z.of_nat (length argv) < 2 ^ 31 -> parse_args p argv = Ok (p', st) ->
  Forall complete (options p) /\ equipped p (options p') /\ (forall t, stands_for p (options p') t (find_opt p' t)) /\
  exists rs us, reading (prefix p) (find_opt p') (fun i => match nth_error (options p') i with Some o => is_append (act o) | None => false end) (tl argv) rs us /\
    Forall (fun u => exists o, nth_error (options p') (fst u) = Some o /\ usable o (snd u)) us /\ invalid_args p' = neither 1 rs.
Proof.
  intros F L H. destruct (parse_equipped _ _ _ _ _ _ F H) as (EQ & C). split; [exact C|]. split; [exact EQ|]. pose proof (proj1 F) as G. destruct (parse_args_ok _ _ _ _ _ _ G L H) as (a0 & av & p3 & rs & us & st0 & st1 & -> & PR & -> & R & E0 & _).
  destruct (prepared_good _ _ _ PR) as (G3 & F3). destruct (G3 G) as (_ & _ & PX). specialize (F3 F). cbn [options with_invalid]. split.
  - intros t. pose proof (find_stands p3 t F3) as X. assert (LP : long_prefix p3 = long_prefix p).
    { destruct PR as (prog & os & p1 & p2 & V & A & B & D). cbn [options with_args] in V. pose proof (validated_alike _ _ _ _ V) as AL. pose proof (good_alike _ _ AL G) as Ga. pose proof (good_flag _ _ _ _ A Ga) as G1. pose proof (good_flag _ _ _ _ B G1) as G2.
      destruct (flag_argc _ _ _ _ A (proj1 Ga)) as (_ & _ & X1 & _). destruct (flag_argc _ _ _ _ B (proj1 G1)) as (_ & _ & X2 & _). destruct (flag_argc _ _ _ _ D (proj1 (good_alike _ _ (alike_version p2 []) G2))) as (_ & _ & X3 & _). rewrite X3. cbn [long_prefix with_version]. rewrite X2, X1. reflexivity. }
    unfold stands_for, long_name in *. rewrite PX, LP in X. exact X.
  - exists rs, us. rewrite <- PX. split; [exact R|]. split; [|reflexivity]. eapply uses_needed. exact E0.
Qed.
End S.
