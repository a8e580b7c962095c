(** Running concrete programs of arena strings and arenas, for the examples. *)
Require Import ZArith List Bool Lia.
From Verif Require Import Base BaseProofs ArenaSpec StrSpec StrModel StrStatements StrCases StrArenaModel StrArenaStatements StrAskProofs StrArenaProofs StrArenaProofs2.
From Verif Require ArenaModel ArenaStatements ArenaCases.
Import ListNotations.
Open Scope Z_scope.
#[local] Existing Instance Char8.

(** Grants everything but the requests refused in [l]. *)
Definition oracle (k0 : nat) (l : list (Z * Z)) : nat -> Z -> bool :=
  fun k n => match nth_error l (k - k0) with Some (m, p) => negb ((n =? m) && (p =? 0)) | None => true end.
Lemma same_requests (l : list (Z * Z)) : forall q : list (Z * bool), length q = length l ->
  (forall k n, nth_error q k = Some (n, false) -> nth_error l k = Some (n, 0)) ->
  (length (filter (fun x => negb (snd x =? 0)%Z) l) <= length (filter snd q))%nat.
Proof.
  induction l as [|[n p] l IH]; intros [|[m b] q] L H; cbn in *; try discriminate; [lia|].
  assert (X := IH q ltac:(lia) (fun k n K => H (S k) n K)). destruct b; cbn.
  - destruct (negb (p =? 0)); cbn; lia.
  - specialize (H 0%nat m eq_refl). cbn in H. injection H as -> ->. exact X.
Qed.
Lemma same_path (l : list (Z * Z)) : forall q : list (Z * bool), length q = length l ->
  (forall k n, nth_error q k = Some (n, false) -> nth_error l k = Some (n, 0)) ->
  map fst (filter snd q) = map fst (filter (fun x => negb (snd x =? 0)) l) -> q = map (fun x => (fst x, negb (snd x =? 0))) l.
Proof.
  induction l as [|[n p] l IH]; intros [|[m b] q] L H E; cbn in *; try discriminate; [reflexivity|].
  pose proof (fun k n K => H (S k) n K) as H'. cbn in H'. destruct b; cbn in E.
  - destruct (negb (p =? 0)) eqn:NP; cbn in E.
    + injection E as -> E. f_equal. apply IH; auto.
    + exfalso. pose proof (same_requests l q ltac:(lia) H') as X. apply (f_equal (@length Z)) in E. cbn in E. rewrite !map_length in E. lia.
  - specialize (H 0%nat m eq_refl). cbn in H. injection H as -> ->. cbn in *. f_equal. apply IH; auto.
Qed.

Section Run.
Variables (e : ArenaModel.env) (A : Z) (dbg : bool) (ar : Z) (i j : nat).

(** One way of answering other requests is enough. *)
Lemma call_by J o l S' r h : serve e i (j_arenas J) l S' -> step dbg true (oracle (h_calls (s_heap (j_strs J))) l) ar (j_strs J) o = r ->
  heap_after r = Some h -> took (s_heap (j_strs J)) h l -> string_call e dbg ar i J o l S' r.
Proof.
  intros SV E HH (T1 & T2). split; [exact SV|]. split.
  2:{ destruct r; cbn in HH; try discriminate; injection HH as <-; split; assumption. }
  intros mal AN. unfold step in *. set (k0 := h_calls (s_heap (j_strs J))) in *.
  destruct (asks_step dbg ar {| s_heap := clean (s_heap (j_strs J)); s_objs := s_objs (j_strs J) |} o) as (t & T & W).
  rewrite W in *. cbn [s_heap] in *. rewrite sg_clean in *. cbn [g_calls] in *. fold k0 in E, T |- *.
  assert (EF : ss (walk (oracle k0 l) k0 t) = Some (sg h)) by (rewrite E, ss_heap, HH; reflexivity).
  destruct (tree_path ss t _ (oracle k0 l) _ T EF) as (q & Q1 & Q2 & _ & Q4 & Q5). cbn [g_calls g_bytes sg] in *.
  assert (EQ : q = map (fun x => (fst x, negb (snd x =? 0))) l).
  { apply same_path; [lia| |].
    - intros k n K. specialize (Q4 k _ K). cbn in Q4. unfold oracle in Q4. replace (k0 + k - k0)%nat with k in Q4 by lia.
      destruct (nth_error l k) as [[m p]|]; [|discriminate]. apply negb_false_iff, andb_true_iff in Q4 as [X Y]. apply Z.eqb_eq in X, Y. subst. reflexivity.
    - rewrite T1 in Q2. apply app_inv_head in Q2. symmetry. exact Q2. }
  rewrite <- E. apply Q5. intros k x K. subst q. rewrite nth_error_map in K. destruct (nth_error l k) as [[m p]|] eqn:N; [|discriminate].
  injection K as <-. cbn. apply AN. exact N.
Qed.

Fixpoint ask_all (S : ArenaModel.sys) (sizes : list Z) : option (list (Z * Z) * ArenaModel.sys) :=
  match sizes with
  | [] => Some ([], S)
  | n :: r => match ask e i S n with
              | Ok (S1, p) => match ask_all S1 r with Some (l, S') => Some ((n, p) :: l, S') | None => None end
              | _ => None
              end
  end.
Lemma ask_all_ok sizes : forall S l S', ask_all S sizes = Some (l, S') -> serve e i S l S'.
Proof.
  induction sizes as [|n r IH]; intros S l S' H; cbn in *; [injection H as <- <-; reflexivity|].
  destruct (ask e i S n) as [[S1 p]| |] eqn:E; try discriminate. destruct (ask_all S1 r) as [[l1 S2]|] eqn:E2; [|discriminate].
  injection H as <- <-. exists S1. split; [exact E|apply IH; exact E2].
Qed.
Definition tookb (h h' : heap) (l : list (Z * Z)) : bool :=
  (if list_eq_dec Z.eq_dec (map bytes (h_blocks h')) (map bytes (h_blocks h) ++ map fst (filter (fun x => negb (snd x =? 0)) l)) then true else false) &&
  Nat.eqb (h_calls h') (h_calls h + length l).
Lemma tookb_ok h h' l : tookb h h' l = true -> took h h' l.
Proof. unfold tookb. intros H. apply andb_prop in H as [H1 H2]. destruct (list_eq_dec _ _ _); [|discriminate]. apply Nat.eqb_eq in H2. split; assumption. Qed.

(** What others do, or a call on strings with the sizes of its requests. *)
Inductive move := Other (o : ArenaModel.sop) | Call (o : sop) (sizes : list Z).
Definition leavesb (o : ArenaModel.sop) : bool :=
  match o with
  | ArenaModel.SReset k => negb (Nat.eqb k j)
  | ArenaModel.SMove k | ArenaModel.SDestroy k => negb (Nat.eqb k i) && negb (Nat.eqb k j)
  | _ => true
  end.
Lemma leavesb_ok o : leavesb o = true -> leaves i j o.
Proof. destruct o; cbn; auto; intros H; try (apply andb_prop in H as [H1 H2]; apply negb_true_iff in H1, H2; apply Nat.eqb_neq in H1, H2; auto). apply negb_true_iff in H. apply Nat.eqb_neq. exact H. Qed.
Definition jmove (J : jsys) (vs : list (option (list Z))) (m : move) : option (jsys * list (option (list Z))) :=
  match m with
  | Other o => if ArenaCases.permittedb A (j_arenas J) o && leavesb o then
                 match ArenaModel.step e (j_arenas J) o with
                 | Ok (S', _) => Some ({| j_arenas := S'; j_strs := j_strs J; j_at := j_at J |}, vs)
                 | _ => None
                 end
               else None
  | Call o sizes => if sop_b ar vs o then
      match ask_all (j_arenas J) sizes with
      | Some (l, S') => match step dbg true (oracle (h_calls (s_heap (j_strs J))) l) ar (j_strs J) o, s_apply o vs with
                        | SRet s', [SVal vs'] => if tookb (s_heap (j_strs J)) (s_heap s') l then Some (after J l S' s', vs') else None
                        | _, _ => None
                        end
      | None => None
      end
      else None
  end.
Fixpoint jrun (J : jsys) (vs : list (option (list Z))) (l : list move) : option (jsys * list (option (list Z))) :=
  match l with
  | [] => Some (J, vs)
  | m :: r => match jmove J vs m with Some (J', vs') => jrun J' vs' r | None => None end
  end.

Hypothesis HA : block_alignment A.
Hypothesis HG : good_block_alloc A (ArenaModel.e_alloc e).
Hypothesis HAR : ar <> 0.
Lemma jrun_ok l : forall n J vs J' vs', jreach e A dbg ar i j n J -> sees (j_strs J) vs -> Z.of_nat n + slen l < 2 ^ 63 - 2 ->
  jrun J vs l = Some (J', vs') -> exists n', jreach e A dbg ar i j n' J' /\ short n' /\ sees (j_strs J') vs'.
Proof.
  induction l as [|m l IH]; intros n J vs J' vs' H SE L E; cbn in E.
  - injection E as <- <-. exists n. split; [exact H|]. split; [unfold short, slen in *; cbn in L; lia|exact SE].
  - assert (LL : slen (m :: l) = 1 + slen l) by (unfold slen; cbn [length]; lia). assert (SH : short n) by (unfold short, slen in *; lia).
    destruct m as [o|o sizes]; cbn [jmove] in E.
    + destruct (ArenaCases.permittedb A (j_arenas J) o && leavesb o) eqn:B; [|discriminate]. apply andb_prop in B as [B1 B2].
      destruct (ArenaModel.step e (j_arenas J) o) as [[S' x]| |] eqn:ST; try discriminate.
      eapply (IH n); [eapply j_other; [exact H|apply ArenaCases.permittedb_ok; exact B1|apply leavesb_ok; exact B2|exact ST]|exact SE|lia|exact E].
    + destruct (sop_b ar vs o) eqn:B; [|discriminate]. destruct (ask_all (j_arenas J) sizes) as [[q S']|] eqn:Q; [|discriminate].
      destruct (step dbg true (oracle (h_calls (s_heap (j_strs J))) q) ar (j_strs J) o) as [s1|x s1|h1| |h1] eqn:ST; try discriminate.
      destruct (s_apply o vs) as [|[vs1|vs1] [|]] eqn:AP; try discriminate. destruct (tookb _ _ _) eqn:T; [|discriminate].
      assert (AL : allowed ar vs o) by (split; [rewrite AP; discriminate|apply sop_b_ok; exact B]).
      assert (SC : string_call e dbg ar i J o q S' (SRet s1)).
      { eapply call_by; [eapply ask_all_ok; exact Q|exact ST|reflexivity|apply tookb_ok; exact T]. }
      destruct (J_value e A dbg ar i j HA HG HAR _ _ _ _ _ _ _ H SH SE AL SC) as ((vs2 & I1 & I2) & _). rewrite AP in I1. destruct I1 as [I1|[]]. injection I1 as <-.
      eapply (IH (S n)); [eapply j_call; [exact H|exact SE|exact AL|exact SC|left; reflexivity]|exact I2|lia|exact E].
Qed.

(** The strings use arena 0 made by the first operations. *)
Definition servesb (S : ArenaModel.sys) : bool :=
  match nth_error (ArenaModel.s_arenas S) i with
  | Some (Some a) => match ArenaModel.a_resource a with Some k => Nat.eqb k j && ArenaCases.aliveb S j | None => false end
  | _ => false
  end.
Lemma servesb_ok S : servesb S = true -> serves S i j.
Proof.
  unfold servesb, serves. destruct (nth_error _ i) as [[a|]|] eqn:E; try discriminate. destruct (ArenaModel.a_resource a) as [k|] eqn:R; [|discriminate].
  intros H. apply andb_prop in H as [H1 H2]. apply Nat.eqb_eq in H1. subst k. exists a. split; [reflexivity|]. split; [exact R|]. apply ArenaCases.aliveb_ok. exact H2.
Qed.
Definition joint (setup : list ArenaModel.sop) (l : list move) : option (jsys * list (option (list Z))) :=
  match ArenaCases.runp e A ArenaModel.init 0 setup with
  | Some (S0, _) => if servesb S0 then jrun {| j_arenas := S0; j_strs := s_init; j_at := [] |} [] l else None
  | None => None
  end.
Lemma joint_ok setup l J vs : slen l < 2 ^ 40 -> joint setup l = Some (J, vs) -> exists n, jreach e A dbg ar i j n J /\ short n /\ sees (j_strs J) vs.
Proof.
  intros L E. unfold joint in E. destruct (ArenaCases.runp e A ArenaModel.init 0 setup) as [[S0 x]|] eqn:R; [|discriminate].
  destruct (servesb S0) eqn:SB; [|discriminate].
  eapply (jrun_ok l O); [apply j_start; [eapply ArenaCases.runp_reach; [apply ArenaStatements.reach_init|exact R]|apply servesb_ok; exact SB]| |cbn; lia|exact E].
  split; [reflexivity|intros [|k]; exact I].
Qed.
Definition joint_after (setup : list ArenaModel.sop) (l : list move) (P : jsys -> list (option (list Z)) -> Prop) : Prop :=
  match joint setup l with Some (J, vs) => P J vs | None => False end.
Lemma joint_reach setup l P : slen l < 2 ^ 40 -> joint_after setup l P -> exists n J vs, jreach e A dbg ar i j n J /\ short n /\ sees (j_strs J) vs /\ P J vs.
Proof.
  intros L H. unfold joint_after in H. destruct (joint setup l) as [[J vs]|] eqn:E; [|contradiction].
  destruct (joint_ok _ _ _ _ L E) as (n & R & SH & SE). eauto 8.
Qed.
End Run.
