Require Import ZArith List Bool Lia.
From Verif Require Import Base StrSpec StrModel StrStatements StrFindSpec StrFindModel.
Import ListNotations.
Open Scope Z_scope.


Section Wide.
Context {ChT : CharType}.

Definition g (l : list Z) (i : Z) : Z := nth (Z.to_nat i) l 0.
(** The memory shows (at least) the characters [l]. *)
Definition like (m : mem) (l : list Z) : Prop := forall i, 0 <= i < slen l -> m i = Some (g l i).

Lemma slen0 {A} (l : list A) : 0 <= slen l. Proof. unfold slen. lia. Qed.
Lemma slen_app' {A} (a b : list A) : slen (a ++ b) = slen a + slen b. Proof. unfold slen. rewrite app_length. lia. Qed.
Lemma slen_cons {A} (c : A) l : slen (c :: l) = 1 + slen l. Proof. unfold slen. cbn [length]. lia. Qed.
Lemma g_app1 a b i : 0 <= i < slen a -> g (a ++ b) i = g a i.
Proof. intros H. unfold g. apply app_nth1. unfold slen in H. lia. Qed.
Lemma g_app2 a b i : slen a <= i -> g (a ++ b) i = g b (i - slen a).
Proof. intros H. unfold g. rewrite app_nth2 by (unfold slen in H; lia). f_equal. unfold slen. lia. Qed.
Lemma g_cons0 c l : g (c :: l) 0 = c. Proof. reflexivity. Qed.
Lemma g_cons c l i : 0 < i -> g (c :: l) i = g l (i - 1).
Proof. intros H. unfold g. replace (Z.to_nat i) with (S (Z.to_nat (i - 1))) by lia. reflexivity. Qed.
Lemma g_ext a b : slen a = slen b -> (forall i, 0 <= i < slen a -> g a i = g b i) -> a = b.
Proof.
  intros L H. apply nth_ext with (d := 0) (d' := 0); [unfold slen in L; lia|]. intros n Hn. specialize (H (Z.of_nat n)).
  unfold g in H. rewrite Nat2Z.id in H. apply H. unfold slen. lia.
Qed.
Lemma slen_stake {A} n (l : list A) : 0 <= n <= slen l -> slen (stake n l) = n.
Proof. intros H. unfold stake, slen in *. rewrite firstn_length. lia. Qed.
Lemma slen_sdrop {A} n (l : list A) : 0 <= n <= slen l -> slen (sdrop n l) = slen l - n.
Proof. intros H. unfold sdrop, slen in *. rewrite skipn_length. lia. Qed.
Lemma take_drop {A} n (l : list A) : stake n l ++ sdrop n l = l. Proof. apply firstn_skipn. Qed.
Lemma g_stake n l i : 0 <= i < n -> g (stake n l) i = g l i.
Proof.
  intros H. rewrite <- (take_drop n l) at 2. destruct (Z.le_gt_cases (slen l) n) as [Hl|Hl].
  - unfold stake, sdrop. rewrite firstn_all2 by (unfold slen in Hl; lia). rewrite skipn_all2 by (unfold slen in Hl; lia). rewrite app_nil_r. reflexivity.
  - rewrite g_app1; [reflexivity|]. rewrite slen_stake by lia. lia.
Qed.
Lemma g_sdrop n l i : 0 <= n <= slen l -> 0 <= i -> g (sdrop n l) i = g l (n + i).
Proof.
  intros H Hi. rewrite <- (take_drop n l) at 2. rewrite g_app2; rewrite slen_stake by lia; [|lia]. f_equal. lia.
Qed.

Lemma occurs_iff nd hay k : occurs_at nd hay k <-> (0 <= k /\ k + slen nd <= slen hay /\ forall j, 0 <= j < slen nd -> g hay (k + j) = g nd j).
Proof.
  split.
  - intros (a & b & -> & <-). pose proof (slen0 a). pose proof (slen0 b). rewrite !slen_app'. split; [lia|]. split; [lia|]. intros j Hj.
    rewrite g_app2 by lia. replace (slen a + j - slen a) with j by lia. apply g_app1. lia.
  - intros (H1 & H2 & H3). pose proof (slen0 nd). exists (stake k hay), (sdrop (k + slen nd) hay). split; [|apply slen_stake; lia].
    apply g_ext.
    + rewrite !slen_app', slen_stake, slen_sdrop by lia. lia.
    + intros i Hi. destruct (Z.lt_ge_cases i k).
      * rewrite g_app1 by (rewrite slen_stake; lia). symmetry. apply g_stake. lia.
      * rewrite g_app2 by (rewrite slen_stake; lia). rewrite slen_stake by lia. destruct (Z.lt_ge_cases (i - k) (slen nd)).
        -- rewrite g_app1 by lia. rewrite <- H3 by lia. f_equal. lia.
        -- rewrite g_app2 by lia. rewrite g_sdrop by lia. f_equal. lia.
Qed.
Lemma in_set_iff set l k : in_set set l k <-> (0 <= k < slen l /\ In (g l k) set).
Proof.
  split.
  - intros (c & a & b & -> & <- & H). pose proof (slen0 a). pose proof (slen0 b). rewrite slen_app', slen_cons. split; [lia|]. rewrite g_app2 by lia. rewrite Z.sub_diag. exact H.
  - intros (H & I). exists (g l k), (stake k l), (sdrop (k + 1) l). split; [|split; [apply slen_stake; lia|exact I]].
    apply g_ext; rewrite ?slen_app', ?slen_cons, ?slen_stake, ?slen_sdrop by lia; [lia|]. intros i Hi. destruct (Z.lt_ge_cases i k).
    + rewrite g_app1 by (rewrite slen_stake; lia). symmetry. apply g_stake. lia.
    + rewrite g_app2 by (rewrite slen_stake; lia). rewrite slen_stake by lia. destruct (Z.eq_dec i k) as [->|].
      * rewrite Z.sub_diag. reflexivity.
      * rewrite g_cons by lia. rewrite g_sdrop by lia. f_equal. lia.
Qed.
Lemma not_in_set_iff set l k : not_in_set set l k <-> (0 <= k < slen l /\ ~ In (g l k) set).
Proof.
  split.
  - intros (c & a & b & -> & <- & H). pose proof (slen0 a). pose proof (slen0 b). rewrite slen_app', slen_cons. split; [lia|]. rewrite g_app2 by lia. rewrite Z.sub_diag. exact H.
  - intros (H & I). assert (X : in_set [g l k] l k) by (apply in_set_iff; split; [exact H|left; reflexivity]).
    destruct X as (c & a & b & E & L & [X|[]]). exists c, a, b. split; [exact E|]. split; [exact L|]. rewrite <- X. exact I.
Qed.

Lemma load_like m l i : like m l -> 0 <= i < slen l -> load m i = Ok (g l i).
Proof. intros L H. unfold load. rewrite (L i H). reflexivity. Qed.
Lemma loads_like m l : like m l -> forall n i, 0 <= i -> i + Z.of_nat n <= slen l -> loads m i n = Ok (stake (Z.of_nat n) (sdrop i l)).
Proof.
  intros L. induction n as [|n IH]; intros i H1 H2; [reflexivity|]. cbn [loads]. rewrite (load_like m l) by (auto; lia). cbn [bind]. rewrite IH by lia. cbn [bind].
  f_equal. assert (E : sdrop i l = g l i :: sdrop (i + 1) l).
  { unfold sdrop, g. replace (Z.to_nat (i + 1)) with (S (Z.to_nat i)) by lia. assert (X : (Z.to_nat i < length l)%nat) by (unfold slen in H2; lia).
    generalize (Z.to_nat i), X. clear. induction l as [|c l IH]; intros k X; cbn [length] in X; [lia|]. destruct k; [reflexivity|]. cbn [skipn nth]. apply IH. lia. }
  rewrite E. unfold stake. rewrite !Nat2Z.id. reflexivity.
Qed.
Lemma like_list l : like (list_mem l) l.
Proof. intros i H. unfold list_mem. destruct (Z.ltb_spec i 0); [lia|]. unfold g. apply nth_error_nth'. unfold slen in H. lia. Qed.
Lemma like_more m l r : like m (l ++ r) -> like m l.
Proof. intros L i H. rewrite (L i) by (rewrite slen_app'; pose proof (slen0 r); lia). rewrite g_app1 by lia. reflexivity. Qed.
Lemma like_shift m l k : like m l -> 0 <= k <= slen l -> like (shift m k) (sdrop k l).
Proof. intros L H i Hi. rewrite slen_sdrop in Hi by lia. unfold shift. rewrite (L (k + i)) by lia. rewrite g_sdrop by lia. reflexivity. Qed.

(** ** find *)
Section Find.
Variables (hay nd : list Z) (hm nm : mem).
Hypothesis HL : like hm hay.
Hypothesis NL : like nm nd.
Let size := slen hay.
Let n := slen nd.
Hypothesis NP : 0 < n.
Let last := g nd (n - 1).
Let i_end := size - (n - 1).
Definition occ (k : Z) : Prop := 0 <= k /\ k + n <= size /\ forall j, 0 <= j < n -> g hay (k + j) = g nd j.

Lemma scan_spec : forall fuel i, 0 <= i < i_end -> i_end - i < Z.of_nat fuel ->
  match scan hm n fuel last i_end i with
  | Ok None => forall k, i <= k -> ~ occ k
  | Ok (Some i1) => i <= i1 < i_end /\ g hay (i1 + (n - 1)) = last /\ forall k, i <= k < i1 -> ~ occ k
  | _ => False
  end.
Proof.
  induction fuel as [|f IH]; intros i Hi Hf; [lia|]. cbn [scan]. unfold nsize_1. rewrite (load_like hm hay) by (auto; unfold i_end, size in *; lia). cbn [bind].
  assert (NO : g hay (i + (n - 1)) <> last -> ~ occ i).
  { intros X (_ & _ & Y). apply X. apply Y. lia. }
  destruct (Z.eqb_spec (g hay (i + (n - 1))) last) as [E|E]; cbn [negb].
  - split; [lia|]. split; [exact E|]. intros k Hk. lia.
  - destruct (Z.eqb_spec (i + 1) i_end) as [E1|E1].
    + intros k Hk O. assert (k = i) as -> by (destruct O as (_ & O & _); lia). exact (NO E O).
    + specialize (IH (i + 1) ltac:(lia) ltac:(lia)). destruct (scan hm n f last i_end (i + 1)) as [[i1|]| |]; try contradiction.
      * destruct IH as (H1 & H2 & H3). split; [lia|]. split; [exact H2|]. intros k Hk. destruct (Z.eq_dec k i) as [->|]; [apply NO; exact E|apply H3; lia].
      * intros k Hk. destruct (Z.eq_dec k i) as [->|]; [apply NO; exact E|apply IH; lia].
Qed.
Lemma matches_spec i : 0 <= i < i_end -> forall fuel j, 0 <= j < n -> n - j < Z.of_nat fuel -> (forall t, 0 <= t < j -> g hay (i + t) = g nd t) ->
  match matches hm nm n fuel i j with
  | Ok true => occ i
  | Ok false => ~ occ i
  | _ => False
  end.
Proof.
  intros Hi. induction fuel as [|f IH]; intros j Hj Hf P; [lia|]. cbn [matches]. destruct (Z.leb_spec n j); [lia|].
  rewrite (load_like hm hay) by (auto; unfold i_end, size in *; lia). cbn [bind]. rewrite (load_like nm nd) by (auto; lia). cbn [bind].
  destruct (Z.eqb_spec (g hay (i + j)) (g nd j)) as [E|E]; cbn [negb].
  - assert (P' : forall t, 0 <= t < j + 1 -> g hay (i + t) = g nd t) by (intros t Ht; destruct (Z.eq_dec t j) as [->|]; [exact E|apply P; lia]).
    destruct (Z.eqb_spec (j + 1) n) as [E1|E1].
    + split; [lia|]. split; [unfold i_end in *; lia|]. intros t Ht. apply P'. lia.
    + apply IH; [lia|lia|exact P'].
  - intros (_ & _ & O). apply E, O. lia.
Qed.
Definition skip_ok (sk : Z) : Prop := 1 <= sk <= n /\ forall t, 1 <= t < sk -> g nd (n - 1 - t) <> last.
Lemma skip_spec : forall fuel sk, skip_ok sk -> n - sk < Z.of_nat fuel ->
  match skip_value nm n fuel last sk with Ok r => skip_ok r | _ => False end.
Proof.
  induction fuel as [|f IH]; intros sk (H1 & H2) Hf; [lia|]. cbn [skip_value]. unfold nsize_1. destruct (Z.leb_spec sk (n - 1)).
  - rewrite (load_like nm nd) by (auto; lia). cbn [bind]. destruct (Z.eqb_spec (g nd (n - 1 - sk)) last) as [E|E]; cbn [negb].
    + split; assumption.
    + apply IH; [|lia]. split; [lia|]. intros t Ht. destruct (Z.eq_dec t sk) as [->|]; [exact E|apply H2; lia].
  - split; assumption.
Qed.
Lemma skip_occ i sk : 0 <= i -> skip_ok sk -> g hay (i + (n - 1)) = last -> ~ occ i -> forall k, i <= k < i + sk -> ~ occ k.
Proof.
  intros Hi (H1 & H2) E N k Hk O. destruct (Z.eq_dec k i) as [->|]; [exact (N O)|]. apply (H2 (k - i)); [lia|].
  destruct O as (_ & _ & O). rewrite <- O by lia. rewrite <- E. f_equal. lia.
Qed.
Lemma find_loop_spec pos : 0 <= pos -> forall fuel i sk, pos <= i -> 0 <= i <= size -> size - i < Z.of_nat fuel -> (sk = 0 \/ skip_ok sk) -> (forall k, pos <= k < i -> ~ occ k) ->
  match find_loop hm nm size n fuel last i_end i sk with
  | Ok r => (pos <= r /\ occ r /\ forall k, pos <= k < r -> ~ occ k) \/ (r = npos /\ forall k, pos <= k -> ~ occ k)
  | _ => False
  end.
Proof.
  intros P0. induction fuel as [|f IH]; intros i sk Hp Hi Hf SK NO.
  - lia.
  - cbn [find_loop]. destruct (Z.ltb_spec i i_end) as [Lt|Ge].
    + pose proof (scan_spec (S (Z.to_nat size)) i ltac:(lia)) as S. assert (0 <= size) by apply slen0. specialize (S ltac:(unfold i_end in *; lia)).
      destruct (scan hm n (Datatypes.S (Z.to_nat size)) last i_end i) as [[i1|]| |]; cbn [bind]; try contradiction.
      * destruct S as (H1 & H2 & H3). pose proof (matches_spec i1 ltac:(lia) (Datatypes.S (Z.to_nat n)) 0 ltac:(lia) ltac:(lia)) as M. specialize (M ltac:(intros; lia)).
        destruct (matches hm nm n (Datatypes.S (Z.to_nat n)) i1 0) as [[|]| |]; cbn [bind]; try contradiction.
        -- left. split; [lia|]. split; [exact M|]. intros k Hk. destruct (Z.lt_ge_cases k i); [apply NO; lia|apply H3; lia].
        -- assert (X : exists sk1, (if sk =? 0 then skip_value nm n (Datatypes.S (Z.to_nat n)) last 1 else Ok sk) = Ok sk1 /\ skip_ok sk1).
           { destruct (Z.eqb_spec sk 0).
             - pose proof (skip_spec (Datatypes.S (Z.to_nat n)) 1) as Y. assert (skip_ok 1) as K by (split; [lia|intros; lia]). specialize (Y K ltac:(lia)).
               destruct (skip_value nm n (Datatypes.S (Z.to_nat n)) last 1) as [r| |]; try contradiction. exists r. auto.
             - destruct SK as [|SK]; [contradiction|]. exists sk. auto. }
           destruct X as (sk1 & -> & K). cbn [bind]. pose proof (proj1 K). apply IH; [lia|unfold i_end in *; lia|lia|right; exact K|].
           intros k Hk. destruct (Z.lt_ge_cases k i); [apply NO; lia|]. destruct (Z.lt_ge_cases k i1); [apply H3; lia|]. eapply (skip_occ i1 sk1); eauto; lia.
      * right. split; [reflexivity|]. intros k Hk. destruct (Z.lt_ge_cases k i); [apply NO; lia|apply S; lia].
    + right. split; [reflexivity|]. intros k Hk. destruct (Z.lt_ge_cases k i); [apply NO; lia|]. intros (_ & O & _). subst i_end. lia.
Qed.
End Find.

Definition found (r : Z) : option Z := if r =? npos then None else Some r.
Lemma found_some r : r <> npos -> found r = Some r. Proof. intros H. unfold found. destruct (Z.eqb_spec r npos); congruence. Qed.
Lemma found_npos : found npos = None. Proof. reflexivity. Qed.

Lemma find_correct hm nm hay nd pos : like hm hay -> like nm nd -> slen hay < npos -> slen nd < M64 -> 0 <= pos < M64 ->
  exists r, find hm nm (slen hay) (slen nd) pos = Ok r /\ least pos (occurs_at nd hay) (found r).
Proof.
  intros HL NL HS NS HP. pose proof (slen0 hay) as H0. pose proof (slen0 nd) as N0. unfold find.
  assert (AD : ((slen hay <? add64 (slen nd) pos) || (add64 (slen nd) pos <? pos)) = (slen hay <? slen nd + pos)).
  { unfold add64, npos in *. destruct (Z.lt_ge_cases (slen nd + pos) M64).
    - rewrite Z.mod_small by lia. destruct (Z.ltb_spec (slen nd + pos) pos); [lia|]. apply orb_false_r.
    - rewrite <- (Z_mod_plus_full _ (-1)). rewrite Z.mod_small by lia. destruct (Z.ltb_spec (slen nd + pos + -1 * M64) pos); [|lia]. rewrite orb_true_r. symmetry. apply Z.ltb_lt. lia. }
  rewrite AD. destruct (Z.ltb_spec (slen hay) (slen nd + pos)) as [Lt|Ge].
  - exists npos. split; [reflexivity|]. rewrite found_npos. intros j Hj O. apply occurs_iff in O. lia.
  - destruct (Z.eqb_spec (slen nd) 0) as [E|E].
    + exists pos. split; [reflexivity|]. rewrite found_some by lia. split; [lia|]. split; [|intros; lia]. apply occurs_iff. split; [lia|]. split; [lia|]. intros; lia.
    + rewrite (load_like nm nd) by (auto; unfold nsize_1; lia). cbn [bind].
      pose proof (find_loop_spec hay nd hm nm HL NL ltac:(lia) pos ltac:(lia) (S (Z.to_nat (slen hay))) pos 0 ltac:(lia) ltac:(lia) ltac:(lia) (or_introl eq_refl) ltac:(intros; lia)) as F.
      unfold nsize_1 in *. destruct (find_loop hm nm (slen hay) (slen nd) (S (Z.to_nat (slen hay))) (g nd (slen nd - 1)) (slen hay - (slen nd - 1)) pos 0) as [r| |]; try contradiction.
      exists r. split; [reflexivity|]. destruct F as [(F1 & F2 & F3)|(-> & F)].
      * rewrite found_some by (destruct F2 as (_ & F2 & _); lia). split; [exact F1|]. split; [apply occurs_iff; exact F2|].
        intros j Hj O. apply occurs_iff in O. destruct (Z.le_gt_cases r j) as [|Hgt]; [assumption|]. exfalso. eapply (F3 j); [lia|exact O].
      * intros j Hj O. apply occurs_iff in O. exact (F j Hj O).
Qed.

(** ** rfind *)
Lemma cmp_chars_eq a : forall b, slen a = slen b -> (cmp_chars a b = 0 <-> a = b).
Proof.
  induction a as [|x a IH]; intros [|y b] L.
  - split; reflexivity.
  - rewrite slen_cons in L. pose proof (slen0 b). change (slen (@nil Z)) with 0 in L. lia.
  - rewrite slen_cons in L. pose proof (slen0 a). change (slen (@nil Z)) with 0 in L. lia.
  - rewrite !slen_cons in L. cbn [cmp_chars]. destruct (Z.ltb_spec x y); [split; [lia|injection 1; lia]|]. destruct (Z.ltb_spec y x); [split; [lia|injection 1; lia]|].
    rewrite IH by lia. assert (x = y) as -> by lia. split; [intros ->; reflexivity|injection 1; auto].
Qed.
Lemma traits_compare_like p q l m off n : like p l -> like q m -> 0 <= off -> 0 <= n -> off + n <= slen l -> n <= slen m ->
  traits_compare p off q n = Ok (cmp_chars (stake n (sdrop off l)) (stake n m)).
Proof.
  intros L M H1 H2 H3 H4. unfold traits_compare. rewrite (loads_like p l) by (auto; lia). cbn [bind]. rewrite (loads_like q m) by (auto; lia). cbn [bind].
  rewrite !Z2Nat.id by lia. reflexivity.
Qed.
Lemma occ_piece hay nd k : 0 <= k -> k + slen nd <= slen hay -> (stake (slen nd) (sdrop k hay) = nd <-> occurs_at nd hay k).
Proof.
  intros H1 H2. pose proof (slen0 nd). rewrite occurs_iff. split.
  - intros E. split; [lia|]. split; [lia|]. intros j Hj. transitivity (g (stake (slen nd) (sdrop k hay)) j); [|rewrite E; reflexivity]. rewrite g_stake by lia. rewrite g_sdrop by lia. reflexivity.
  - intros (_ & _ & O). apply g_ext; rewrite slen_stake by (rewrite slen_sdrop; lia); [reflexivity|]. intros i Hi. rewrite g_stake by lia. rewrite g_sdrop by lia. apply O. lia.
Qed.
Lemma rfind_loop_spec hm nm hay nd pos : like hm hay -> like nm nd -> 0 < slen nd -> forall fuel i, 0 <= i -> i <= pos -> i + slen nd <= slen hay -> i < Z.of_nat fuel ->
  (forall k, i < k <= pos -> ~ occurs_at nd hay k) ->
  match rfind_loop hm nm (slen nd) fuel i with
  | Ok r => (r <= i /\ occurs_at nd hay r /\ forall k, r < k <= pos -> ~ occurs_at nd hay k) \/ (r = npos /\ forall k, k <= pos -> ~ occurs_at nd hay k)
  | _ => False
  end.
Proof.
  intros HL NL NP. induction fuel as [|f IH]; intros i Hi Hip Hn Hf NO; [lia|]. cbn [rfind_loop]. rewrite (load_like hm hay) by (auto; lia). cbn [bind]. rewrite (load_like nm nd) by (auto; lia). cbn [bind].
  assert (X : exists b, (if g hay i =? g nd 0 then do r <- traits_compare hm i nm (slen nd); Ok (r =? 0) else Ok false) = Ok b /\ (b = true <-> occurs_at nd hay i)).
  { destruct (Z.eqb_spec (g hay i) (g nd 0)) as [E|E].
    - rewrite (traits_compare_like hm nm hay nd) by (auto; lia). cbn [bind]. eexists. split; [reflexivity|]. rewrite Z.eqb_eq.
      assert (S1 : stake (slen nd) nd = nd) by (unfold stake, slen; rewrite Nat2Z.id; apply firstn_all). rewrite S1.
      rewrite cmp_chars_eq by (rewrite slen_stake; [reflexivity|rewrite slen_sdrop; lia]). apply occ_piece; lia.
    - eexists. split; [reflexivity|]. split; [discriminate|]. intros O. apply occurs_iff in O. destruct O as (_ & _ & O). exfalso. apply E. rewrite <- (O 0) by lia. f_equal. lia. }
  destruct X as (b & -> & B). cbn [bind]. destruct b.
  - left. split; [lia|]. split; [apply B; reflexivity|]. exact NO.
  - assert (NO' : forall k, i <= k <= pos -> ~ occurs_at nd hay k).
    { intros k Hk. destruct (Z.eq_dec k i) as [->|]; [intros O; apply B in O; discriminate|apply NO; lia]. }
    destruct (Z.eqb_spec i 0) as [->|].
    + right. split; [reflexivity|]. intros k Hk O. destruct (Z.lt_ge_cases k 0); [apply occurs_iff in O; lia|]. exact (NO' k ltac:(lia) O).
    + specialize (IH (i - 1) ltac:(lia) ltac:(lia) ltac:(lia) ltac:(lia) ltac:(intros; apply NO'; lia)).
      destruct (rfind_loop hm nm (slen nd) f (i - 1)) as [r| |]; try contradiction. destruct IH as [(H1 & H2)|H]; [left; split; [lia|exact H2]|right; exact H].
Qed.
Lemma rfind_correct hm nm hay nd pos : like hm hay -> like nm nd -> slen hay < npos -> 0 <= pos < M64 ->
  exists r, rfind hm nm (slen hay) (slen nd) pos = Ok r /\ greatest pos (occurs_at nd hay) (found r).
Proof.
  intros HL NL HS HP. pose proof (slen0 hay) as H0. pose proof (slen0 nd) as N0. unfold rfind. destruct (Z.ltb_spec (slen hay) (slen nd)) as [Lt|Ge].
  - exists npos. split; [reflexivity|]. rewrite found_npos. intros j Hj O. apply occurs_iff in O. lia.
  - destruct (Z.eqb_spec (slen nd) 0) as [E|E].
    + eexists. split; [reflexivity|]. rewrite found_some by lia. split; [lia|]. split.
      * apply occurs_iff. split; [lia|]. split; [lia|]. intros; lia.
      * intros j Hj O. apply occurs_iff in O. lia.
    + pose proof (rfind_loop_spec hm nm hay nd (Z.min pos (slen hay - slen nd)) HL NL ltac:(lia) (S (Z.to_nat (slen hay))) (Z.min pos (slen hay - slen nd)) ltac:(lia) ltac:(lia) ltac:(lia) ltac:(lia) ltac:(intros; lia)) as F.
      destruct (rfind_loop hm nm (slen nd) (S (Z.to_nat (slen hay))) (Z.min pos (slen hay - slen nd))) as [r| |]; try contradiction. exists r. split; [reflexivity|].
      assert (UP : forall j, j <= pos -> occurs_at nd hay j -> j <= Z.min pos (slen hay - slen nd)) by (intros j Hj O; apply occurs_iff in O; lia).
      destruct F as [(F1 & F2 & F3)|(-> & F)].
      * rewrite found_some by (apply occurs_iff in F2; lia). split; [lia|]. split; [exact F2|]. intros j Hj O. destruct (Z.le_gt_cases j r); [assumption|].
        exfalso. apply (F3 j); [specialize (UP j Hj O); lia|exact O].
      * rewrite found_npos. intros j Hj O. exact (F j (UP j Hj O) O).
Qed.

(** ** character sets *)
Lemma traits_find_like m l c : like m l -> exists b, traits_find m (slen l) c = Ok b /\ (b = true <-> In c l).
Proof.
  intros L. unfold traits_find. rewrite (loads_like m l) by (auto; pose proof (slen0 l); lia). cbn [bind]. eexists. split; [reflexivity|].
  rewrite Z2Nat.id by apply slen0. assert (E : stake (slen l) (sdrop 0 l) = l) by (unfold stake, sdrop, slen; rewrite Nat2Z.id; apply firstn_all). rewrite E.
  rewrite existsb_exists. split; [intros (x & H & X); apply Z.eqb_eq in X; subst; exact H|intros H; exists c; split; [exact H|apply Z.eqb_refl]].
Qed.
Definition wanted (want : bool) (set l : list Z) (k : Z) : Prop := if want then in_set set l k else not_in_set set l k.
Lemma wanted_iff want set l k : wanted want set l k <-> (0 <= k < slen l /\ (if want then In (g l k) set else ~ In (g l k) set)).
Proof. destruct want; [apply in_set_iff|apply not_in_set_iff]. Qed.
Lemma want_at want sm set hay i : like sm set -> 0 <= i < slen hay ->
  exists b, traits_find sm (slen set) (g hay i) = Ok b /\ (Bool.eqb b want = true <-> wanted want set hay i).
Proof.
  intros L H. destruct (traits_find_like sm set (g hay i) L) as (b & E & B). exists b. split; [exact E|]. rewrite wanted_iff. destruct b, want; cbn.
  - split; [intros _; split; [exact H|apply B; reflexivity]|reflexivity].
  - split; [discriminate|]. intros (_ & X). exfalso. apply X, B. reflexivity.
  - split; [discriminate|]. intros (_ & X). apply B in X. discriminate.
  - split; [|reflexivity]. intros _. split; [exact H|]. intros X. apply B in X. discriminate.
Qed.
Lemma forward_spec want hm sm hay set pos : like hm hay -> like sm set -> slen hay < npos -> 0 <= pos -> forall fuel i, pos <= i <= slen hay -> slen hay - i < Z.of_nat fuel ->
  (forall k, pos <= k < i -> ~ wanted want set hay k) ->
  exists r, forward hm sm (slen hay) (slen set) want fuel i = Ok r /\ least pos (wanted want set hay) (found r).
Proof.
  intros HL SL HS HP. induction fuel as [|f IH]; intros i Hi Hf NO; [lia|]. cbn [forward]. destruct (Z.eqb_spec i (slen hay)) as [->|].
  - exists npos. split; [reflexivity|]. rewrite found_npos. intros j Hj W. pose proof W as W'. apply wanted_iff in W'. apply (NO j); [lia|exact W].
  - rewrite (load_like hm hay) by (auto; lia). cbn [bind]. destruct (want_at want sm set hay i SL ltac:(lia)) as (b & -> & B). cbn [bind]. destruct (Bool.eqb b want).
    + exists i. split; [reflexivity|]. rewrite found_some by lia. split; [lia|]. split; [apply B; reflexivity|]. intros j Hj W. destruct (Z.le_gt_cases i j); [assumption|]. exfalso. apply (NO j); [lia|exact W].
    + apply IH; [lia|lia|]. intros k Hk. destruct (Z.eq_dec k i) as [->|]; [intros W; apply B in W; discriminate|apply NO; lia].
Qed.
Lemma backward_spec want hm sm hay set pos : like hm hay -> like sm set -> slen hay < npos -> forall fuel i, 0 <= i < slen hay -> i <= pos -> i < Z.of_nat fuel ->
  (forall k, i < k <= pos -> ~ wanted want set hay k) ->
  exists r, backward hm sm (slen set) want fuel i = Ok r /\ greatest pos (wanted want set hay) (found r).
Proof.
  intros HL SL HS. induction fuel as [|f IH]; intros i Hi Hp Hf NO; [lia|]. cbn [backward].
  rewrite (load_like hm hay) by (auto; lia). cbn [bind]. destruct (want_at want sm set hay i SL ltac:(lia)) as (b & -> & B). cbn [bind]. destruct (Bool.eqb b want).
  - exists i. split; [reflexivity|]. rewrite found_some by lia. split; [lia|]. split; [apply B; reflexivity|]. intros j Hj W. destruct (Z.le_gt_cases j i); [assumption|]. exfalso. apply (NO j); [lia|exact W].
  - assert (NO' : forall k, i <= k <= pos -> ~ wanted want set hay k) by (intros k Hk; destruct (Z.eq_dec k i) as [->|]; [intros W; apply B in W; discriminate|apply NO; lia]).
    destruct (Z.eqb_spec i 0) as [->|].
    + exists npos. split; [reflexivity|]. rewrite found_npos. intros j Hj W. pose proof W as W'. apply wanted_iff in W'. apply (NO' j); [lia|exact W].
    + apply IH; [lia|lia|lia|]. intros k Hk. apply NO'. lia.
Qed.
Section Sets.
Variables (hm sm : mem) (hay set : list Z) (pos : Z).
Hypothesis HL : like hm hay.
Hypothesis SL : like sm set.
Hypothesis HS : slen hay < npos.
Hypothesis HP : 0 <= pos < M64.
Lemma first_of : exists r, find_first_of hm sm (slen hay) (slen set) pos = Ok r /\ least pos (in_set set hay) (found r).
Proof.
  unfold find_first_of. destruct (Z.ltb_spec (slen hay) pos); cbn [orb].
  - exists npos. split; [reflexivity|]. rewrite found_npos. intros j Hj W. apply in_set_iff in W. lia.
  - destruct (Z.eqb_spec (slen set) 0) as [E|].
    + exists npos. split; [reflexivity|]. rewrite found_npos. intros j Hj W. apply in_set_iff in W. destruct set; [destruct W as (_ & [])|]. rewrite slen_cons in E. pose proof (slen0 l). lia.
    + apply (forward_spec true); auto; try lia; intros; lia.
Qed.
Lemma last_of : exists r, find_last_of hm sm (slen hay) (slen set) pos = Ok r /\ greatest pos (in_set set hay) (found r).
Proof.
  unfold find_last_of. pose proof (slen0 hay). pose proof (slen0 set). destruct (Z.eqb_spec (slen hay) 0); cbn [negb andb].
  - exists npos. split; [reflexivity|]. rewrite found_npos. intros j Hj W. apply in_set_iff in W. lia.
  - destruct (Z.ltb_spec 0 (slen set)).
    + destruct (backward_spec true hm sm hay set pos HL SL HS (S (Z.to_nat (slen hay))) (Z.min pos (slen hay - 1)) ltac:(lia) ltac:(lia) ltac:(lia)) as (r & E & R).
      { intros k Hk W. apply wanted_iff in W. lia. }
      exists r. split; [exact E|exact R].
    + exists npos. split; [reflexivity|]. rewrite found_npos. intros j Hj W. apply in_set_iff in W. destruct set; [destruct W as (_ & [])|]. rewrite slen_cons in *. pose proof (slen0 l). lia.
Qed.
Lemma first_not_of : exists r, find_first_not_of hm sm (slen hay) (slen set) pos = Ok r /\ least pos (not_in_set set hay) (found r).
Proof.
  unfold find_first_not_of. destruct (Z.ltb_spec pos (slen hay)).
  - apply (forward_spec false); auto; try lia; intros; lia.
  - exists npos. split; [reflexivity|]. rewrite found_npos. intros j Hj W. apply not_in_set_iff in W. lia.
Qed.
Lemma last_not_of : exists r, find_last_not_of hm sm (slen hay) (slen set) pos = Ok r /\ greatest pos (not_in_set set hay) (found r).
Proof.
  unfold find_last_not_of. pose proof (slen0 hay). destruct (Z.eqb_spec (slen hay) 0); cbn [negb].
  - exists npos. split; [reflexivity|]. rewrite found_npos. intros j Hj W. apply not_in_set_iff in W. lia.
  - destruct (backward_spec false hm sm hay set pos HL SL HS (S (Z.to_nat (slen hay))) (Z.min pos (slen hay - 1)) ltac:(lia) ltac:(lia) ltac:(lia)) as (r & E & R).
    { intros k Hk W. apply wanted_iff in W. lia. }
    exists r. split; [exact E|exact R].
Qed.
End Sets.

(** ** compare *)
Definition lex (a b : list Z) : Z := by_size (cmp_chars (stake (Z.min (slen a) (slen b)) a) (stake (Z.min (slen a) (slen b)) b)) (slen a) (slen b).
Lemma stake_all {A} (l : list A) n : slen l <= n -> stake n l = l.
Proof. intros H. unfold stake. apply firstn_all2. unfold slen in H. lia. Qed.
Lemma lex_cons x a y b : lex (x :: a) (y :: b) = if x <? y then -1 else if y <? x then 1 else lex a b.
Proof.
  unfold lex. rewrite !slen_cons. pose proof (slen0 a). pose proof (slen0 b). replace (Z.min (1 + slen a) (1 + slen b)) with (1 + Z.min (slen a) (slen b)) by lia.
  unfold stake at 1 2. replace (Z.to_nat (1 + Z.min (slen a) (slen b))) with (S (Z.to_nat (Z.min (slen a) (slen b)))) by lia. cbn [firstn cmp_chars].
  destruct (Z.ltb_spec x y); [reflexivity|]. destruct (Z.ltb_spec y x); [reflexivity|]. unfold by_size, stake. f_equal.
  destruct (Z.ltb_spec (1 + slen b) (1 + slen a)), (Z.ltb_spec (slen b) (slen a)); try lia. destruct (Z.ltb_spec (1 + slen a) (1 + slen b)), (Z.ltb_spec (slen a) (slen b)); lia.
Qed.
Lemma lex_orders a : forall b, orders a b (lex a b).
Proof.
  induction a as [|x a IH]; intros [|y b].
  - cbv. repeat split; intros; try discriminate; try congruence; inversion H.
  - change (orders [] (y :: b) (by_size 0 0 (slen (y :: b)))). rewrite slen_cons. pose proof (slen0 b). unfold by_size. cbn [Z.eqb negb]. destruct (Z.ltb_spec (1 + slen b) 0); [lia|]. destruct (Z.ltb_spec 0 (1 + slen b)); [|lia].
    split; [split; [constructor|lia]|]. split; [split; [lia|discriminate]|]. split; [lia|inversion 1].
  - assert (E : lex (x :: a) [] = by_size 0 (slen (x :: a)) 0).
    { unfold lex. change (slen (@nil Z)) with 0. pose proof (slen0 (x :: a)). rewrite Z.min_r by lia. reflexivity. }
    rewrite E. rewrite slen_cons. pose proof (slen0 a). unfold by_size. cbn [Z.eqb negb]. destruct (Z.ltb_spec 0 (1 + slen a)); [|lia].
    split; [split; [lia|inversion 1]|]. split; [split; [lia|discriminate]|]. split; [constructor|lia].
  - rewrite lex_cons. destruct (Z.ltb_spec x y).
    + split; [split; [intros _; constructor; lia|lia]|]. split; [split; [lia|injection 1; lia]|]. split; [lia|intros X; inversion X; subst; lia].
    + destruct (Z.ltb_spec y x).
      * split; [split; [lia|intros X; inversion X; subst; lia]|]. split; [split; [lia|injection 1; lia]|]. split; [intros _; constructor; lia|lia].
      * assert (x = y) as -> by lia. destruct (IH b) as (I1 & I2 & I3). split; [|split].
        -- rewrite I1. split; [apply lex_tail|intros X; inversion X; subst; [lia|assumption]].
        -- rewrite I2. split; [intros ->; reflexivity|injection 1; auto].
        -- rewrite I3. split; [apply lex_tail|intros X; inversion X; subst; [lia|assumption]].
Qed.
Lemma compare_like am bm a b : like am a -> like bm b -> compare am (slen a) bm (slen b) = Ok (lex a b).
Proof.
  intros A B. pose proof (slen0 a). pose proof (slen0 b). unfold compare. rewrite (traits_compare_like am bm a b) by (auto; lia). cbn [bind]. reflexivity.
Qed.
Lemma lex_lt_irrefl a : ~ lex_lt a a.
Proof. induction a; intros H; inversion H; subst; [lia|auto]. Qed.
Lemma lex_lt_trans a : forall b c, lex_lt a b -> lex_lt b c -> lex_lt a c.
Proof.
  induction a as [|x a IH]; intros b c H1 H2.
  - inversion H1; subst. inversion H2; subst; constructor.
  - inversion H1; subst; inversion H2; subst; try (constructor; lia). apply lex_tail. eapply IH; eassumption.
Qed.
Lemma lex_lt_total a b : lex_lt a b \/ a = b \/ lex_lt b a.
Proof.
  destruct (lex_orders a b) as (H1 & H2 & H3). destruct (Z.lt_trichotomy (lex a b) 0) as [H|[H|H]]; [left; apply H1, H|right; left; apply H2, H|right; right; apply H3, H].
Qed.

(** ** C strings *)
Lemma length_cstring mm l : c_string mm l -> traits_length mm = Ok (slen l) /\ like (list_mem mm) l.
Proof.
  intros (N & rest & ->). split.
  - induction l as [|c l IH]; cbn [app traits_length]; [reflexivity|]. destruct (Z.eqb_spec c 0) as [->|]; [exfalso; apply N; left; reflexivity|].
    rewrite IH by (intros X; apply N; right; exact X). cbn [bind]. rewrite slen_cons. f_equal. lia.
  - eapply like_more. apply like_list.
Qed.
Lemma compare_cstr_like am a mm l : like am a -> c_string mm l -> compare_cstr am (slen a) mm = Ok (lex a l).
Proof.
  intros A C. destruct (length_cstring mm l C) as (E & L). unfold compare_cstr. rewrite E. cbn [bind]. apply (compare_like am (list_mem mm) a l A L).
Qed.
Lemma compare_at_like am sm a s pos n : like am a -> like sm s -> 0 <= pos -> 0 <= n ->
  compare_at am (slen a) pos n sm (slen s) = Ok (if pos <=? slen a then Some (lex (piece pos n a) s) else None).
Proof.
  intros A S HP HN. pose proof (slen0 a). pose proof (slen0 s). unfold compare_at. destruct (Z.ltb_spec (slen a) pos), (Z.leb_spec pos (slen a)); try lia; [reflexivity|].
  rewrite (traits_compare_like am sm a s) by (auto; lia). cbn [bind]. f_equal. f_equal. unfold lex.
  assert (L : slen (piece pos n a) = Z.min n (slen a - pos)).
  { unfold piece. destruct (Z.le_gt_cases n (slen a - pos)).
    - rewrite slen_stake by (rewrite slen_sdrop; lia). lia.
    - rewrite stake_all by (rewrite slen_sdrop; lia). rewrite slen_sdrop by lia. lia. }
  rewrite L. f_equal. f_equal. unfold piece, stake. rewrite firstn_firstn. f_equal. lia.
Qed.

(** ** The memory of a string object *)
Lemma reads_like h c l : reads h c l -> like (str_mem h c) (l ++ [0]) /\ size c = slen l.
Proof.
  intros (S & V & T). split; [|exact S]. intros i Hi. rewrite slen_app' in Hi. change (slen [0]) with 1 in Hi.
  destruct (Z.eq_dec i (slen l)) as [->|].
  - unfold after_last in T. rewrite S in T. unfold str_mem. rewrite g_app2 by lia. rewrite Z.sub_diag.
    destruct (read (ptr_add (data c) (slen l)) 1 h c) as [[|x [|]]| | | |]; try discriminate. exact T.
  - rewrite g_app1 by lia. assert (NE : nth_error (map Some l) (Z.to_nat i) = Some (Some (g l i))).
    { rewrite nth_error_map. unfold g. rewrite (nth_error_nth' l 0) by (unfold slen in *; lia). reflexivity. }
    unfold value in V. rewrite S in V. destruct (read (data c) (slen l) h c) as [v h' c'| | | |] eqn:R; try discriminate. injection V as ->.
    unfold str_mem. unfold data in *. unfold read, ptr_add in *. pose proof (slen0 l). destruct (category c =? is_small).
    + destruct (Z.leb_spec 0 0); [|lia]. destruct (Z.leb_spec 0 (slen l)); [|lia]. cbn [andb] in R. destruct (Z.leb_spec (0 + slen l) num_small); [|discriminate].
      destruct (Z.leb_spec 0 (0 + i)); [|lia]. destruct (Z.leb_spec 0 1); [|lia]. destruct (Z.leb_spec (0 + i + 1) num_small); [|lia]. cbn [andb].
      injection R as R1 R2 R3. rewrite <- R1 in NE. unfold chars_from in *. rewrite nth_error_map in NE. rewrite (nth_error_nth' _ 0%nat) in NE by (rewrite seq_length; unfold slen in *; lia).
      rewrite seq_nth in NE by (unfold slen in *; lia). cbn [option_map] in NE. injection NE as NE. rewrite <- NE. change (Z.to_nat 1) with 1%nat. cbn [seq map]. f_equal. f_equal. lia.
    + destruct (blk h (c_data c)) as [k|]; [|discriminate]. destruct (in_blk k 0 (slen l)) eqn:IB; [|discriminate]. unfold in_blk in IB.
      apply andb_prop in IB. destruct IB as (IB & I3). apply andb_prop in IB. destruct IB as (IB & I2). apply andb_prop in IB. destruct IB as (I0 & I1). apply Z.leb_le in I3.
      unfold in_blk. rewrite I0. destruct (Z.leb_spec 0 (0 + i)); [|lia]. destruct (Z.leb_spec 0 1); [|lia]. destruct (Z.leb_spec (0 + i + 1) (bk_len k)); [|lia]. cbn [andb].
      injection R as R1 R2 R3. rewrite <- R1 in NE. unfold chars_from in *. rewrite nth_error_map in NE. rewrite (nth_error_nth' _ 0%nat) in NE by (rewrite seq_length; unfold slen in *; lia).
      rewrite seq_nth in NE by (unfold slen in *; lia). cbn [option_map] in NE. injection NE as NE. rewrite <- NE. change (Z.to_nat 1) with 1%nat. cbn [seq map]. f_equal. lia.
Qed.
End Wide.
