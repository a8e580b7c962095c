(** Arena strings together with arenas: the invariant of executions. *)
Require Import ZArith List Bool Lia Permutation.
From Verif Require Import Base BaseProofs ArenaSpec StrSpec StrModel StrStatements StrProofs9 StrProofs12 StrArenaModel StrArenaStatements StrAskProofs StrArenaProofs.
From Verif Require ArenaModel ArenaStatements.
Import ListNotations.
Open Scope Z_scope.
#[local] Existing Instance Char8.

(** ** Requests of one call *)
Lemma tree_path {X} (f : X -> option sig) t : forall s mal s', tree_ok f s t -> f (walk mal (g_calls s) t) = Some s' ->
  exists l : list (Z * bool), g_calls s' = (g_calls s + length l)%nat /\ g_bytes s' = g_bytes s ++ map fst (filter snd l) /\
    (g_refused s' = true -> g_refused s = true \/ exists n, In (n, false) l) /\
    (forall k x, nth_error l k = Some x -> mal (g_calls s + k)%nat (fst x) = snd x) /\
    (forall mal', (forall k x, nth_error l k = Some x -> mal' (g_calls s + k)%nat (fst x) = snd x) -> walk mal' (g_calls s) t = walk mal (g_calls s) t).
Proof.
  induction t as [x|n y IHy no IHn]; intros s mal s' T E; cbn in *.
  - rewrite E in T. subst s'. exists []. cbn. rewrite app_nil_r, Nat.add_0_r. repeat split; auto. intros [|k]; discriminate.
  - destruct T as [Ty Tn]. destruct (mal (g_calls s) n) eqn:M.
    + destruct (IHy _ mal _ Ty E) as (l & H1 & H2 & H3 & H4 & H5). exists ((n, true) :: l). cbn in *.
      rewrite H1, H2, <- app_assoc. split; [lia|]. split; [reflexivity|]. split; [intros R; destruct (H3 R) as [|(m & ?)]; eauto|]. split.
      * intros [|k] x K; cbn in K; [injection K as <-; rewrite Nat.add_0_r; exact M|]. rewrite <- plus_n_Sm. apply (H4 k x K).
      * intros mal' K. pose proof (K 0%nat _ eq_refl) as K0. cbn in K0. rewrite Nat.add_0_r in K0. rewrite K0. apply H5.
        intros k x Hk. rewrite plus_n_Sm. apply (K (S k) x Hk).
    + destruct (IHn _ mal _ Tn E) as (l & H1 & H2 & H3 & H4 & H5). exists ((n, false) :: l). cbn in *.
      rewrite H1, H2. split; [lia|]. split; [reflexivity|]. split; [intros R; right; exists n; auto|]. split.
      * intros [|k] x K; cbn in K; [injection K as <-; rewrite Nat.add_0_r; exact M|]. rewrite <- plus_n_Sm. apply (H4 k x K).
      * intros mal' K. pose proof (K 0%nat _ eq_refl) as K0. cbn in K0. rewrite Nat.add_0_r in K0. rewrite K0. apply H5.
        intros k x Hk. rewrite plus_n_Sm. apply (K (S k) x Hk).
Qed.

Lemma sg_clean h : sg (clean h) = {| g_bytes := map bytes (h_blocks h); g_calls := h_calls h; g_refused := false |}.
Proof. reflexivity. Qed.
(** The answers that matter are those to the requests made. *)
Lemma step_agree dbg mal mal' ar s o sgn : ss (step dbg true mal ar s o) = Some sgn ->
  (forall k n, (k < g_calls sgn)%nat -> mal' k n = mal k n) -> step dbg true mal' ar s o = step dbg true mal ar s o /\ (h_calls (s_heap s) <= g_calls sgn)%nat.
Proof.
  intros E A. unfold step in *. destruct (asks_step dbg ar {| s_heap := clean (s_heap s); s_objs := s_objs s |} o) as (t & T & W).
  rewrite W in E. cbn [s_heap] in *. rewrite sg_clean in *. cbn [g_calls] in *.
  destruct (tree_path ss t _ mal _ T E) as (l & H1 & _ & _ & H4 & H5). cbn [g_calls] in *. split; [|lia].
  rewrite !W. apply H5. intros k x K. rewrite A; [apply H4; exact K|]. rewrite H1. apply Nat.add_lt_mono_l. apply nth_error_Some. congruence.
Qed.
Lemma reach_agree dbg mal mal' ar n s : reach dbg true mal ar n s ->
  (forall k m, (k < h_calls (s_heap s))%nat -> mal' k m = mal k m) -> reach dbg true mal' ar n s.
Proof.
  induction 1 as [|n s vs o s' H IH SE AL ST RF]; intros A; [constructor|].
  assert (ES : ss (step dbg true mal ar s o) = Some (sg (s_heap s'))) by (destruct ST as [->|(x & ->)]; reflexivity).
  destruct (step_agree _ mal mal' _ _ _ _ ES A) as (E & L). eapply reach_next; [apply IH| | | |exact RF]; try eassumption.
  - intros k m K. apply A. cbn in *. lia.
  - rewrite E. exact ST.
Qed.
(** An oracle that gives the answers of a list. *)
Definition granted (ans : list bool) : nat -> Z -> bool := fun k n => fits n && nth k ans false.
Definition answers (l : list (Z * Z)) : list bool := map (fun x => negb (snd x =? 0)) l.
Lemma granted_sane ans : mal_sane (granted ans).
Proof. intros k n H. unfold granted in H. apply andb_true_iff in H as [H _]. apply fits_spec in H. unfold max_request in H. lia. Qed.
Lemma granted_more ans x k n : (k < length ans)%nat -> granted (ans ++ x) k n = granted ans k n.
Proof. intros H. unfold granted. rewrite app_nth1 by exact H. reflexivity. Qed.

Lemma answers_length l : length (answers l) = length l.
Proof. apply map_length. Qed.
Lemma places_length l : length (places l) = length (filter (fun x => negb (snd x =? 0)) l).
Proof. apply map_length. Qed.

Section J.
Variables (e : ArenaModel.env) (A : Z) (dbg : bool) (ar : Z) (i j : nat).
Hypothesis HA : block_alignment A.
Hypothesis HG : good_block_alloc A (ArenaModel.e_alloc e).
Hypothesis HAR : ar <> 0.
Notation jreach := (jreach e A dbg ar i j).

(** The requests of a call can be put to the arena one after the other. *)
Lemma tree_served {X} (f : X -> option sig) t : forall s S, tree_ok f s t -> ArenaStatements.reach e A S -> serves S i j ->
  exists l S' x, serve e i S l S' /\ (forall mal, answered (g_calls s) l mal -> walk mal (g_calls s) t = x) /\ forall s', f x = Some s' ->
    g_calls s' = (g_calls s + length l)%nat /\ g_bytes s' = g_bytes s ++ map fst (filter (fun x => negb (snd x =? 0)) l).
Proof.
  induction t as [x|n y IHy no IHn]; intros s S T HR HS; cbn [tree_ok walk] in *.
  - exists [], S, x. split; [reflexivity|]. split; [reflexivity|]. intros s' E. rewrite E in T. subst s'. cbn. rewrite app_nil_r. split; [lia|reflexivity].
  - destruct T as [Ty Tn]. destruct (ask_total e A HA HG S i j n HR HS) as (S1 & p & E).
    destruct (ask_ok e A HA HG _ _ _ _ _ _ HR HS E) as (R1 & R2 & C).
    assert (Y : exists l S' x, serve e i S1 l S' /\ (forall mal, answered (Datatypes.S (g_calls s)) l mal -> walk mal (Datatypes.S (g_calls s)) (if negb (p =? 0) then y else no) = x) /\ forall s', f x = Some s' ->
      g_calls s' = (Datatypes.S (g_calls s) + length l)%nat /\ g_bytes s' = (g_bytes s ++ if negb (p =? 0) then [n] else []) ++ map fst (filter (fun x => negb (snd x =? 0)) l)).
    { destruct (negb (p =? 0)); [apply (IHy (yes_ s n) S1 Ty R1 R2)|rewrite app_nil_r; apply (IHn (no_ s) S1 Tn R1 R2)]. }
    destruct Y as (l & S' & x & H1 & H2 & H3). exists ((n, p) :: l), S', x. split; [exists S1; auto|]. split.
    + intros mal M. pose proof (M 0%nat n p eq_refl) as M0. rewrite Nat.add_0_r in M0. rewrite M0. apply H2.
      intros k m q K. rewrite plus_Sn_m, plus_n_Sm. apply (M (Datatypes.S k)). exact K.
    + intros s' F. destruct (H3 s' F) as (K1 & K2). cbn. split; [lia|]. rewrite K2, <- app_assoc. destruct (negb (p =? 0)); reflexivity.
Qed.
Lemma served_answered l S S' ans : ArenaStatements.reach e A S -> serves S i j -> serve e i S l S' -> answered (length ans) l (granted (ans ++ answers l)).
Proof.
  intros HR HS SV k n p K. destruct (serve_ok e A HA HG i j l _ _ HR HS SV) as (_ & _ & _ & F). unfold granted.
  rewrite app_nth2 by lia. replace (length ans + k - length ans)%nat with k by lia.
  pose proof (map_nth_error (fun x : Z * Z => negb (snd x =? 0)) k l K) as N. unfold answers. rewrite (nth_error_nth _ _ false N). cbn [snd].
  rewrite Forall_forall in F. destruct (F _ (nth_error_In _ _ K)) as [Z0|(F1 & _)]; cbn in *; [subst p; apply andb_false_r|rewrite F1; reflexivity].
Qed.

Definition at_ok (J : jsys) : Prop :=
  length (j_at J) = length (h_blocks (s_heap (j_strs J))) /\ Forall (fun p => 0 < p /\ p mod 8 = 0) (j_at J).
Definition JInv (n : nat) (J : jsys) : Prop :=
  ArenaStatements.reach e A (j_arenas J) /\ serves (j_arenas J) i j /\
  (exists ans, reach dbg true (granted ans) ar n (j_strs J) /\ h_calls (s_heap (j_strs J)) = length ans) /\
  at_ok J /\ mine j (buffers j J) (ranges J).

Lemma AO : ar_ok dbg true ar. Proof. cbn. intros _. exact HAR. Qed.
Lemma buffers_mine J : Forall (fun x => fst (fst x) = j) (buffers j J).
Proof. apply Forall_forall. intros x H. apply in_map_iff in H as (y & <- & _). reflexivity. Qed.

(** What a call leaves, in terms of its requests. *)
Definition heap_after (r : sout) : option heap :=
  match r with SRet s | SThr _ s => Some (s_heap s) | STerm h | SUB h => Some h | SAFail => None end.
Lemma took_after J o l S' r h : string_call e dbg ar i J o l S' r -> heap_after r = Some h -> took (s_heap (j_strs J)) h l.
Proof. intros (_ & _ & T) E. destruct r; cbn in *; try discriminate; injection E as <-; exact T. Qed.
Lemma ss_heap r : ss r = option_map sg (heap_after r).
Proof. destruct r; reflexivity. Qed.

Lemma call_step n J o l S' r vs ans : ArenaStatements.reach e A (j_arenas J) -> serves (j_arenas J) i j ->
  reach dbg true (granted ans) ar n (j_strs J) -> h_calls (s_heap (j_strs J)) = length ans ->
  sees (j_strs J) vs -> allowed ar vs o -> string_call e dbg ar i J o l S' r ->
  reach dbg true (granted (ans ++ answers l)) ar n (j_strs J) /\ step dbg true (granted (ans ++ answers l)) ar (j_strs J) o = r.
Proof.
  intros R1 R2 HR HC SE AL (SV & E & _). split.
  - eapply reach_agree; [exact HR|]. intros k m K. apply granted_more. lia.
  - apply E. rewrite HC. eapply served_answered; eassumption.
Qed.
Lemma call_reach n J o l S' r s' vs ans : ArenaStatements.reach e A (j_arenas J) -> serves (j_arenas J) i j ->
  reach dbg true (granted ans) ar n (j_strs J) -> h_calls (s_heap (j_strs J)) = length ans -> short n ->
  sees (j_strs J) vs -> allowed ar vs o -> string_call e dbg ar i J o l S' r -> (r = SRet s' \/ exists x, r = SThr x s') ->
  reach dbg true (granted (ans ++ answers l)) ar (S n) s'.
Proof.
  intros R1 R2 HR HC SH SE AL SC C. destruct (call_step _ _ _ _ _ _ _ _ R1 R2 HR HC SE AL SC) as (HR' & E).
  eapply reach_next; try eassumption; [rewrite E; exact C|].
  pose proof (arena_step dbg _ ar n _ _ o (granted_sane (ans ++ answers l)) AO HR' SH SE AL) as RF. rewrite E in RF.
  destruct C as [->|(x & ->)]; exact RF.
Qed.

Lemma combine_app {X Y} (a a' : list X) (b b' : list Y) : length a = length b -> combine (a ++ a') (b ++ b') = combine a b ++ combine a' b'.
Proof. revert b. induction a as [|x a IH]; intros [|y b] H; cbn in *; try discriminate; [reflexivity|]. rewrite IH by lia. reflexivity. Qed.
Lemma places_combine l : map (fun x => (j, fst x, snd x)) (combine (places l) (map fst (filter (fun x => negb (snd x =? 0)) l))) = won j l.
Proof. unfold places, won. induction (filter _ l) as [|[n p] r IH]; [reflexivity|]. cbn. rewrite IH. reflexivity. Qed.
Lemma buffers_after J l S' s' : length (j_at J) = length (h_blocks (s_heap (j_strs J))) -> took (s_heap (j_strs J)) (s_heap s') l ->
  buffers j (after J l S' s') = buffers j J ++ won j l.
Proof.
  intros L (T & _). unfold buffers, after. cbn [j_at j_strs]. rewrite T, combine_app, map_app by (rewrite map_length; exact L). rewrite places_combine. reflexivity.
Qed.

Lemma jreach_inv n J : jreach n J -> short n -> JInv n J.
Proof.
  induction 1 as [S HR HS|n J o S' r H IH HP HL ST|n J vs o l S' r s' H IH SE AL SC C]; intros SH.
  - split; [exact HR|]. split; [exact HS|]. cbn. split; [exists []; split; [constructor|reflexivity]|]. split; [split; [reflexivity|constructor]|]. exists (live_ranges (hist S)). reflexivity.
  - destruct (IH SH) as (I1 & I2 & I3 & I5 & I6).
    destruct (other_ok e A HA HG _ _ _ _ i j (buffers j J) I1 I2 HP HL ST (buffers_mine J) I6) as (K1 & K2 & K3).
    split; [exact K1|]. split; [exact K2|]. split; [exact I3|]. split; [exact I5|]. exact K3.
  - assert (SH' : short n) by (unfold short in *; lia).
    destruct (IH SH') as (I1 & I2 & (ans & I3 & I4) & (I5 & I5') & I6). pose proof (proj1 SC) as SV.
    destruct (serve_ok e A HA HG i j l _ _ I1 I2 SV) as (K1 & K2 & K3 & K4).
    assert (T : took (s_heap (j_strs J)) (s_heap s') l) by (eapply took_after; [exact SC|]; destruct C as [->|(x & ->)]; reflexivity).
    split; [exact K1|]. split; [exact K2|]. cbn [j_strs j_at after]. destruct T as (T1 & T2).
    split; [exists (ans ++ answers l); split; [eapply call_reach; eassumption|rewrite T2, I4, app_length, answers_length; reflexivity]|]. split.
    + split.
      * cbn [j_at after j_strs]. rewrite app_length, I5, places_length. apply (f_equal (@length Z)) in T1. rewrite app_length, !map_length in T1. symmetry. exact T1.
      * cbn [j_at after]. apply Forall_app. split; [exact I5'|]. unfold places. rewrite Forall_forall in K4 |- *. intros p Hp. apply in_map_iff in Hp as ((m & q) & <- & Hq).
        apply filter_In in Hq as (Hq & NZ). destruct (K4 _ Hq) as [Z0|(_ & Z1 & Z2)]; [rewrite Z0 in NZ; discriminate|auto].
    + rewrite buffers_after by (try split; assumption). unfold ranges. cbn [j_arenas after]. rewrite K3.
      destruct I6 as (others & P). exists others. unfold ranges in P. rewrite P. rewrite <- (Permutation_rev (won j l)).
      rewrite app_assoc. apply Permutation_app_tail, Permutation_app_comm.
Qed.

(** ** Results for PropStrArena *)
Lemma J_progress n J vs o : jreach n J -> short n -> sees (j_strs J) vs -> allowed ar vs o ->
  exists l S' r, string_call e dbg ar i J o l S' r.
Proof.
  intros H SH SE AL. destruct (jreach_inv n J H SH) as (I1 & I2 & _).
  destruct (asks_step dbg ar {| s_heap := clean (s_heap (j_strs J)); s_objs := s_objs (j_strs J) |} o) as (t & T & W).
  cbn [s_heap] in *. rewrite sg_clean in *.
  destruct (tree_served ss t _ (j_arenas J) T I1 I2) as (l & S' & x & SV & K0 & K). cbn [g_calls g_bytes] in *.
  exists l, S', x. split; [exact SV|]. split; [intros mal M; unfold step; rewrite W; apply K0, M|].
  destruct x as [s1|x s1|h1| |h1]; try exact Logic.I; (destruct (K _ eq_refl) as (K1 & K2); split; [exact K2|exact K1]).
Qed.
Lemma J_value n J vs o l S' r : jreach n J -> short n -> sees (j_strs J) vs -> allowed ar vs o -> string_call e dbg ar i J o l S' r ->
  step_ok o (j_strs J) vs r /\ match r with SRet _ | SThr _ _ | STerm _ => True | SAFail | SUB _ => False end.
Proof.
  intros H SH SE AL SC. destruct (jreach_inv n J H SH) as (I1 & I2 & (ans & I3 & I4) & _).
  destruct (call_step _ _ _ _ _ _ _ _ I1 I2 I3 I4 SE AL SC) as (HR & E).
  pose proof (arena_step dbg _ ar n _ _ o (granted_sane (ans ++ answers l)) AO HR SH SE AL) as RF.
  pose proof (reach_step dbg true _ ar n _ _ o (granted_sane (ans ++ answers l)) AO HR SH SE AL) as Y. rewrite E in *.
  split; [exact Y|]. destruct r; try contradiction; exact Logic.I.
Qed.
(** Memory is said to have run out only when the arena refused a request. *)
Lemma J_refused n J o l S' r h : jreach n J -> short n -> string_call e dbg ar i J o l S' r -> heap_after r = Some h -> h_refused h = true ->
  exists m, In (m, 0) l.
Proof.
  intros H SH (SV & E & TK) HH RF.
  set (k0 := h_calls (s_heap (j_strs J))) in *.
  set (mal := fun k n => match nth_error l (k - k0) with Some (m, p) => negb ((n =? m) && (p =? 0)) | None => true end).
  assert (AN : answered k0 l mal).
  { intros k m p K. unfold mal. replace (k0 + k - k0)%nat with k by lia. rewrite K, Z.eqb_refl. reflexivity. }
  pose proof (E mal AN) as ES. unfold step in ES.
  destruct (asks_step dbg ar {| s_heap := clean (s_heap (j_strs J)); s_objs := s_objs (j_strs J) |} o) as (t & T & W).
  rewrite W in ES. cbn [s_heap] in *. rewrite sg_clean in *. cbn [g_calls] in ES. fold k0 in ES, T.
  assert (EF : ss (walk mal k0 t) = Some (sg h)) by (rewrite ES, ss_heap, HH; reflexivity).
  destruct (tree_path ss t _ mal _ T EF) as (q & _ & _ & H3 & H4 & _). cbn [g_calls g_refused sg] in *.
  destruct (H3 RF) as [K|(m & K)]; [discriminate|]. apply In_nth_error in K as (k & K). specialize (H4 k _ K). cbn [fst snd] in H4.
  unfold mal in H4. replace (k0 + k - k0)%nat with k in H4 by lia. destruct (nth_error l k) as [[m' p]|] eqn:N; [|discriminate].
  apply negb_false_iff, andb_true_iff in H4 as [H4 H5]. apply Z.eqb_eq in H4, H5. subst. exists m'. eapply nth_error_In. exact N.
Qed.
Lemma J_bad_alloc n J vs o l S' r : jreach n J -> short n -> sees (j_strs J) vs -> allowed ar vs o -> string_call e dbg ar i J o l S' r ->
  ((exists s', r = SThr BadAlloc s') \/ exists h, r = STerm h) ->
  exists m, In (m, 0) l /\ (max_request < m \/ m < 0 \/ exists evs size, hist S' = evs ++ hist (j_arenas J) /\ In (EBlockAlloc j size None) evs).
Proof.
  intros H SH SE AL SC C. destruct (J_value _ _ _ _ _ _ _ H SH SE AL SC) as (SO & _).
  assert (X : exists h, heap_after r = Some h /\ h_refused h = true).
  { destruct C as [(s' & ->)|(h & ->)]; cbn in SO |- *; [exists (s_heap s'); split; [reflexivity|apply SO]|exists h; auto]. }
  destruct X as (h & X1 & X2). destruct (J_refused _ _ _ _ _ _ _ H SH SC X1 X2) as (m & Hm). exists m. split; [exact Hm|].
  destruct (fits m) eqn:F.
  - right. right. destruct (jreach_inv n J H SH) as (I1 & I2 & _).
    destruct (serve_hist e A HA HG i j l _ _ I1 I2 (proj1 SC)) as (evs & E1 & _ & _ & E4). destruct (E4 m Hm F) as (sz & K). eauto.
  - unfold fits in F. apply andb_false_iff in F. rewrite !Z.leb_gt in F. lia.
Qed.
Lemma J_no_release n J o l S' r : jreach n J -> short n -> string_call e dbg ar i J o l S' r ->
  exists evs, hist S' = evs ++ hist (j_arenas J) /\ cleanups_run evs = [] /\ forall x, ~ In (EBlockFree x) evs.
Proof.
  intros H SH SC. destruct (jreach_inv n J H SH) as (I1 & I2 & _).
  destruct (serve_hist e A HA HG i j l _ _ I1 I2 (proj1 SC)) as (evs & E1 & E2 & E3 & _). eauto.
Qed.
End J.
