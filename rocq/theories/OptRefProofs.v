(** References to options stay valid exactly while the vector has not grown
    past the capacity it had when they were returned. *)
Require Import ZArith List Bool Lia Arith.
From Verif Require Import Base BaseProofs OptModel OptSpec2 OptLifeModel OptLifeSpec OptLifeProofs2 OptRefModel OptRefSpec.
From Verif Require VecModel.
Import ListNotations.
Open Scope Z_scope.

Lemma list_ext_nth {A} (l l' : list A) : (forall j, nth_error l j = nth_error l' j) -> l = l'.
Proof.
  revert l'. induction l as [|x l IH]; intros [|y l'] H; auto; try discriminate (H 0%nat).
  pose proof (H 0%nat) as H0. injection H0 as <-. f_equal. apply IH. intros j. exact (H (S j)).
Qed.

Section P.
Variable sz : Z.
Hypothesis SZ : 64 <= sz <= 131072.
Notation cno := (capacity_no sz).

Lemma cno_pos k : 1 <= cno k.
Proof.
  induction k as [|k IH]; cbn [capacity_no]; [lia|]. destruct (_ <=? _); [|lia].
  apply Z.div_le_lower_bound; lia.
Qed.
Lemma cno_step k : cno k < cno (S k).
Proof.
  pose proof (cno_pos k). cbn [capacity_no]. destruct (_ <=? _); [|lia].
  assert (cno k + 1 <= (3 * cno k + 1) / 2); [apply Z.div_le_lower_bound; lia|lia].
Qed.
Lemma cno_mono a b : (a <= b)%nat -> cno a <= cno b.
Proof. induction 1 as [|b _ IH]; [lia|]. pose proof (cno_step b). lia. Qed.

Lemma room_size : (131072 / sz) * sz <= 131072 < (131072 / sz + 1) * sz.
Proof. pose proof (Z.div_mod 131072 sz). pose proof (Z.mod_pos_bound 131072 sz). nia. Qed.
Lemma next_first : VecModel.next_capacity sz 0 = 1.
Proof.
  unfold VecModel.next_capacity, VecModel.init_capacity. destruct (Z.leb_spec 64 sz); [|lia].
  replace (1 <=? 0) with false by reflexivity. rewrite andb_false_r.
  assert (1 <= 131072 / sz) by (apply Z.div_le_lower_bound; lia). destruct (Z.leb_spec (131072 / sz) 0); [lia|reflexivity].
Qed.
Lemma next_cno k : cno k <= 2 ^ 32 -> VecModel.next_capacity sz (cno k) = cno (S k).
Proof.
  intros B. pose proof (cno_pos k). pose proof room_size as R. unfold VecModel.next_capacity, VecModel.init_capacity. destruct (Z.leb_spec 64 sz); [|lia].
  destruct (Z.leb_spec 1 (cno k)); [|lia]. rewrite andb_true_r. cbn [capacity_no].
  unfold add64, mul64. change M64 with (2 ^ 64). rewrite (Z.mod_small (cno k * 3)) by lia. rewrite (Z.mod_small (cno k * 3 + 1)) by lia. rewrite (Z.mod_small (cno k * 2)) by lia.
  destruct (Z.ltb_spec (cno k) (131072 / sz)); destruct (Z.leb_spec (cno k * sz + sz) 131072); try nia.
  - f_equal. lia.
  - destruct (Z.leb_spec (131072 / sz) (cno k)); lia.
Qed.

(** Number of elements, capacity, buffer. *)
Record room (n cap : Z) (buf : nat) : Prop := {
  rm_fits : 0 <= n <= cap;
  rm_cap : (cap = 0 /\ buf = 0%nat) \/ exists k, cap = cno k /\ buf = S k;
  rm_past : forall j, (S j < buf)%nat -> cno j < n }.

Lemma push_room n cap buf : room n cap buf -> n < 2 ^ 32 ->
  if n =? cap then room (n + 1) (VecModel.next_capacity sz cap) (S buf) else room (n + 1) cap buf.
Proof.
  intros [F C P] B. destruct (Z.eqb_spec n cap) as [->|N].
  - destruct C as [(-> & ->)|(k & -> & ->)].
    + rewrite next_first. constructor; [lia|right; exists 0%nat; split; reflexivity|]. intros j J. lia.
    + rewrite next_cno by lia. constructor; [pose proof (cno_step k); lia|right; exists (S k); split; reflexivity|].
      intros j J. pose proof (cno_mono j k ltac:(lia)). lia.
  - constructor; [lia|exact C|]. intros j J. specialize (P j J). lia.
Qed.
Lemma make_room_ok m : forall n cap buf, room n cap buf -> n + Z.of_nat m <= 2 ^ 32 ->
  room (n + Z.of_nat m) (fst (make_room sz m n cap buf)) (snd (make_room sz m n cap buf)) /\ (buf <= snd (make_room sz m n cap buf))%nat.
Proof.
  induction m as [|m IH]; intros n cap buf R B; cbn [make_room].
  - cbn [fst snd]. rewrite Z.add_0_r. auto.
  - pose proof (push_room n cap buf R ltac:(lia)) as X. destruct (n =? cap).
    + destruct (IH (n + 1) _ _ X ltac:(lia)) as (A & C). split; [|lia]. replace (n + Z.of_nat (S m)) with (n + 1 + Z.of_nat m) by lia. exact A.
    + destruct (IH (n + 1) _ _ X ltac:(lia)) as (A & C). split; [|lia]. replace (n + Z.of_nat (S m)) with (n + 1 + Z.of_nat m) by lia. exact A.
Qed.

(** A reference: buffer and index. *)
Definition fine (n : nat) (buf : nat) (r : nat * nat) : Prop :=
  (snd r < n)%nat /\ exists j, fst r = S j /\ (fst r <= buf)%nat /\ Z.of_nat (snd r) < cno j /\ (forall a, (a < j)%nat -> cno a <= Z.of_nat (snd r)).

Lemma fine_valid n cap buf r : room (Z.of_nat n) cap buf -> fine n buf r -> (fst r = buf <-> in_place sz (snd r) n).
Proof.
  intros [F C P] (L & j & E & B & U & D). unfold in_place. split.
  - intros <-. intros k K. destruct (le_lt_dec j k) as [Q|Q]; [|specialize (D k Q); lia].
    destruct C as [(_ & C)|(k' & -> & Eb)]; [lia|]. assert (k' = j) by lia. subst k'. pose proof (cno_mono j k Q). lia.
  - intros H. specialize (H j U). destruct (le_lt_dec buf (fst r)); [lia|]. specialize (P j ltac:(lia)). lia.
Qed.

Variables (real : type -> list Z -> Z) (getenv : list Z -> option (list Z)).
Notation rstep := (rstep sz real getenv).
Notation runs := (runs sz real getenv).
Notation used := (used real getenv).

Record rinv (l : list nat) (x : refs) : Prop := {
  ri_used : used (r_parser x);
  ri_room : room (Z.of_nat (length (options (r_parser x)))) (r_cap x) (r_buf x);
  ri_small : Z.of_nat (length (options (r_parser x))) <= 2 ^ 32;
  ri_list : map snd (r_given x) = l;
  ri_fine : Forall (fine (length (options (r_parser x))) (r_buf x)) (r_given x) }.

Lemma fine_more n n' buf buf' r : (n <= n')%nat -> (buf <= buf')%nat -> fine n buf r -> fine n' buf' r.
Proof. intros N B (L & j & E & Q & U & D). split; [lia|]. exists j. repeat split; auto; lia. Qed.

Lemma alter_length {A} (f : A -> A) i l : length (alter i f l) = length l.
Proof. revert i. induction l as [|x l IH]; intros [|i]; simpl; auto. Qed.
Lemma alter_ext_at {A} (f g : A -> A) i : forall l x, nth_error l i = Some x -> f x = g x -> alter i f l = alter i g l.
Proof. induction i as [|i IH]; intros [|y l] x N E; try discriminate; simpl in *; [injection N as ->; now rewrite E|f_equal; eauto]. Qed.

Lemma setter_configured st o : apply_setter st o = configured o (apply_setter st o).
Proof. destruct o, st; reflexivity. Qed.

Lemma set_used p i st : used p -> used (with_options p (alter i (apply_setter st) (options p))).
Proof.
  intros U. destruct (nth_error (options p) i) as [o|] eqn:N.
  - replace (with_options p (alter i (apply_setter st) (options p))) with (fst (alone_call real getenv p (PSet i (apply_setter st o)))); [now apply u_call|].
    unfold alone_call. cbn [do_call fst]. unfold configure. f_equal. apply (alter_ext_at _ _ _ _ o N). symmetry. apply setter_configured.
  - replace (alter i (apply_setter st) (options p)) with (options p).
    + destruct p. exact U.
    + clear - N. revert i N. induction (options p) as [|x l IH]; intros [|i] N; simpl in *; try discriminate; auto. f_equal; auto.
Qed.

Lemma new_options p : new p -> options p = [].
Proof. intros H. destruct H as [|c p H| |]; try reflexivity. unfold prefix_parser in H. destruct (existsb _ _); [|discriminate]. now injection H as <-. Qed.

Lemma add_length p ns : length (options (fst (add_option p ns))) = S (length (options p)).
Proof. unfold add_option. destruct (register_kin ns (with_options p (options p ++ [fresh ns]))) as (_ & _ & ->). cbn [options with_options]. rewrite app_length. simpl. lia. Qed.

Lemma runs_inv l x : runs l x -> rinv l x.
Proof.
  induction 1 as [p N|l x c x' e R IH E B|l x k st x' e R IH E].
  - constructor; cbn [start r_parser r_cap r_buf r_given]; try rewrite (new_options p N); cbn [length map Z.of_nat]; auto; try lia; [now apply u_new|].
    constructor; [lia|left; auto|intros j J; lia].
  - destruct IH as [U RM SM LS FN]. cbn [OptRefModel.rstep] in E.
    assert (E' : (let p := r_parser x in let n := length (options p) in
                  let (p', e) := alone_call real getenv p c in
                  let (cap, buf) := make_room sz (length (options p') - n) (Z.of_nat n) (r_cap x) (r_buf x) in
                  Some ({| r_parser := p'; r_cap := cap; r_buf := buf;
                    r_given := if gives_reference c e then r_given x ++ [(buf, (length (options p') - 1)%nat)] else r_given x |}, e)) = Some (x', e)).
    { destruct c; try exact E. discriminate. }
    clear E. cbv zeta in E'. pose proof (u_call real getenv _ c U) as U'.
    pose proof (call_grown real getenv (fun _ => Some (r_parser x)) (r_parser x) (repeat 0%nat (length (options (r_parser x)))) c) as (_ & _ & G).
    change (do_call real getenv (fun _ => Some (r_parser x)) (r_parser x) (repeat 0%nat (length (options (r_parser x)))) c) with (alone_call real getenv (r_parser x) c) in G.
    assert (LA : forall ns, c = PAdd ns -> length (options (fst (alone_call real getenv (r_parser x) c))) = S (length (options (r_parser x)))).
    { intros ns ->. unfold alone_call. cbn [do_call]. pose proof (add_length (r_parser x) ns) as Q. destruct (add_option (r_parser x) ns). exact Q. }
    destruct (alone_call real getenv (r_parser x) c) as [p' e0] eqn:AC. cbn [fst] in *.
    destruct (make_room sz (length (options p') - length (options (r_parser x))) (Z.of_nat (length (options (r_parser x)))) (r_cap x) (r_buf x)) as [cap buf] eqn:MR.
    injection E' as <- <-. cbn [r_parser] in *.
    destruct (make_room_ok _ _ _ _ RM ltac:(instantiate (1 := (length (options p') - length (options (r_parser x)))%nat); lia)) as (A & Q). rewrite MR in A, Q. cbn [fst snd] in A, Q.
    replace (Z.of_nat (length (options (r_parser x))) + Z.of_nat (length (options p') - length (options (r_parser x)))) with (Z.of_nat (length (options p'))) in A by lia.
    assert (OLD : Forall (fine (length (options p')) buf) (r_given x)) by (eapply Forall_impl; [|exact FN]; intros r; apply fine_more; lia).
    constructor; cbn [r_parser r_cap r_buf r_given]; auto.
    + destruct c; cbn [gives_reference]; auto. destruct e0; auto. rewrite map_app, LS. reflexivity.
    + destruct c; cbn [gives_reference]; auto. destruct e0; auto. apply Forall_app. split; [exact OLD|]. constructor; [|constructor].
      specialize (LA ns eq_refl). pose proof A as [FT C P]. unfold fine. cbn [fst snd]. split; [lia|].
      destruct C as [(-> & _)|(j & -> & ->)]; [lia|]. exists j. repeat split; auto; [lia|]. intros a Ha. specialize (P a ltac:(lia)). lia.
  - destruct IH as [U RM SM LS FN]. cbn [OptRefModel.rstep] in E. destruct (nth_error (r_given x) k) as [[b i]|]; [|discriminate].
    destruct (b =? r_buf x)%nat; injection E as <- <-; constructor; cbn [r_parser r_cap r_buf r_given options with_options]; try rewrite alter_length; auto. now apply set_used.
Qed.

Lemma reference_valid l x k i st : runs l x -> nth_error l k = Some i ->
  (i < length (options (r_parser x)))%nat /\
  ((in_place sz i (length (options (r_parser x))) /\ exists b, nth_error (r_given x) k = Some (b, i) /\ b = r_buf x /\ exists x', rstep x (RSet k st) = Some (x', Returned empty_store)) \/
   (~ in_place sz i (length (options (r_parser x))) /\ rstep x (RSet k st) = Some (x, Dangling))).
Proof.
  intros R N. destruct (runs_inv l x R) as [U RM SM LS FN]. rewrite <- LS, nth_error_map in N.
  destruct (nth_error (r_given x) k) as [[b i']|] eqn:G; [|discriminate]. simpl in N. injection N as ->.
  rewrite Forall_forall in FN. pose proof (FN _ (nth_error_In _ _ G)) as F. pose proof (fine_valid _ _ _ _ RM F) as V. cbn [fst snd] in V.
  split; [apply F|]. cbn [OptRefModel.rstep]. rewrite G. destruct (Nat.eqb_spec b (r_buf x)) as [E|E]; [left|right]; (split; [tauto|]); eauto.
Qed.

Lemma last_of_app {A} (f : setter -> option A) s r a : last_of f (s :: r) a = last_of f r (last_of f [s] a).
Proof. reflexivity. Qed.
Lemma set_as_cons st l o o' : set_as l (apply_setter st o) o' -> set_as (st :: l) o o'.
Proof. intros (A & B & C & D & E & F & G). unfold set_as. cbn [last_of map concat]. rewrite A, B, C, D, E, F, G. destruct st; cbn [apply_setter names act typ dest default env choices to_action to_type to_dest to_default to_env to_choices app]; rewrite <- ?app_assoc; repeat split. Qed.

Lemma alter_nth {A} (f : A -> A) : forall i l j, nth_error (alter i f l) j = if (j =? i)%nat then option_map f (nth_error l j) else nth_error l j.
Proof.
  induction i as [|i IH]; intros [|x l] [|j]; simpl; auto; destruct (_ =? _)%nat; auto.
Qed.
Lemma rset_shape x k st x' e : rstep x (RSet k st) = Some (x', e) -> e = Returned empty_store -> forall b i, nth_error (r_given x) k = Some (b, i) ->
  r_given x' = r_given x /\ r_buf x' = r_buf x /\ r_parser x' = with_options (r_parser x) (alter i (apply_setter st) (options (r_parser x))).
Proof.
  cbn [OptRefModel.rstep]. intros E -> b i G. rewrite G in E. destruct (b =? r_buf x)%nat; [|discriminate]. injection E as <-. repeat split.
Qed.
Lemma sets_shape k x l x' : sets sz real getenv k x l x' -> forall b i o, nth_error (r_given x) k = Some (b, i) -> nth_error (options (r_parser x)) i = Some o ->
  only_at i (set_as l) (options (r_parser x)) (options (r_parser x')) /\ r_parser x' = with_options (r_parser x) (options (r_parser x')).
Proof.
  induction 1 as [x|x st x1 l x2 E _ IH]; intros b i o G N.
  - split; [|destruct x as [[] ? ? ?]; reflexivity]. split; [auto|]. exists o, o. repeat split; auto; cbn [map concat]; now rewrite app_nil_r.
  - destruct (rset_shape x k st x1 _ E eq_refl b i G) as (EG & _ & EP).
    assert (N1 : nth_error (options (r_parser x1)) i = Some (apply_setter st o)).
    { rewrite EP. cbn [options with_options]. rewrite alter_nth, Nat.eqb_refl, N. reflexivity. }
    destruct (IH b i _ ltac:(rewrite EG; exact G) N1) as ((A & y & y' & Ny & Ny' & S) & P). rewrite N1 in Ny. injection Ny as <-. split.
    + split.
      * intros j J. rewrite (A j J), EP. cbn [options with_options]. rewrite alter_nth. destruct (Nat.eqb_spec j i); [contradiction|reflexivity].
      * exists o, y'. repeat split; auto; try apply (set_as_cons _ _ _ _ S).
    + rewrite P, EP at 1. reflexivity.
Qed.
Lemma sets_exist l0 k : forall l x i, runs l0 x -> nth_error l0 k = Some i -> in_place sz i (length (options (r_parser x))) -> exists x', sets sz real getenv k x l x' /\ runs l0 x'.
Proof.
  induction l as [|st l IH]; intros x i R N V; [exists x; split; [constructor|exact R]|].
  destruct (reference_valid l0 x k i st R N) as (L & [(_ & b & G & _ & x1 & E)|(C & _)]); [|contradiction].
  destruct (rset_shape x k st x1 _ E eq_refl b i G) as (_ & _ & EP).
  destruct (IH x1 i (run_set _ _ _ _ _ _ _ _ _ R E) N) as (x2 & S & R2).
  - rewrite EP. cbn [options with_options]. rewrite alter_length. exact V.
  - exists x2. split; [econstructor; eauto|exact R2].
Qed.
End P.
