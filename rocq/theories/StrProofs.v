(** Lists of characters and the 24-byte layout. *)
Require Import ZArith List Bool Lia.
From Verif Require Import Base BaseProofs StrSpec StrModel.
Import ListNotations.
Open Scope Z_scope.

(** ** Lists *)

Definition lget (l : list (option Z)) (i : Z) : option Z := nth (Z.to_nat i) l None.

Lemma slen_nonneg {A} (l : list A) : 0 <= slen l. Proof. unfold slen. lia. Qed.
Lemma slen_nil {A} : slen (@nil A) = 0. Proof. reflexivity. Qed.
Lemma slen_cons {A} (x : A) l : slen (x :: l) = 1 + slen l.
Proof. unfold slen. cbn [length]. lia. Qed.
Lemma slen_app {A} (a b : list A) : slen (a ++ b) = slen a + slen b.
Proof. unfold slen. rewrite app_length. lia. Qed.
Lemma slen_map {A B} (f : A -> B) l : slen (map f l) = slen l.
Proof. unfold slen. rewrite map_length. reflexivity. Qed.
Lemma slen_stake {A} n (l : list A) : 0 <= n <= slen l -> slen (stake n l) = n.
Proof. unfold slen, stake. intros. rewrite firstn_length. lia. Qed.
Lemma slen_sdrop {A} n (l : list A) : 0 <= n <= slen l -> slen (sdrop n l) = slen l - n.
Proof. unfold slen, sdrop. intros. rewrite skipn_length. lia. Qed.
Lemma slen_srep {A} n (c : A) : 0 <= n -> slen (srep n c) = n.
Proof. unfold slen, srep. intros. rewrite repeat_length. lia. Qed.
Lemma slen_piece {A} p n (l : list A) : 0 <= p -> 0 <= n -> p + n <= slen l -> slen (piece p n l) = n.
Proof. intros. unfold piece. apply slen_stake. rewrite slen_sdrop by lia. lia. Qed.
Lemma slen_splice {A} p n (r l : list A) : 0 <= p -> 0 <= n -> p + n <= slen l ->
  slen (splice p n r l) = slen l - n + slen r.
Proof. intros. unfold splice. rewrite !slen_app, slen_stake, slen_sdrop by lia. lia. Qed.
Lemma slen_chars {A} (f : Z -> A) off n : 0 <= n -> slen (chars_from f off n) = n.
Proof. intros. unfold chars_from. rewrite slen_map. unfold slen. rewrite seq_length. lia. Qed.
Lemma slen_0 {A} (l : list A) : slen l = 0 -> l = [].
Proof. destruct l; [reflexivity|]. rewrite slen_cons. pose proof (slen_nonneg l). lia. Qed.

Lemma lget_chars f off n i : 0 <= i < n -> lget (chars_from f off n) i = f (off + i).
Proof.
  intros H. unfold lget, chars_from.
  erewrite nth_indep by (rewrite map_length, seq_length; lia).
  rewrite (map_nth (fun k => f (off + Z.of_nat k)) (seq 0 (Z.to_nat n)) O), seq_nth by lia.
  f_equal. lia.
Qed.
Lemma lget_stake n l i : 0 <= i < n -> lget (stake n l) i = lget l i.
Proof.
  intros H. unfold lget, stake.
  destruct (Z_lt_dec i (slen l)); unfold slen in *.
  - rewrite <- (firstn_skipn (Z.to_nat n) l) at 2. rewrite app_nth1; [reflexivity|]. rewrite firstn_length. lia.
  - rewrite !nth_overflow; try reflexivity; [lia|]. rewrite firstn_length. lia.
Qed.
Lemma nth_skipn' {A} (l : list A) d : forall n i, nth i (skipn n l) d = nth (n + i) l d.
Proof.
  induction l as [|x l IH]; intros [|n] i; cbn [skipn Nat.add]; try reflexivity.
  - destruct i; reflexivity.
  - rewrite IH. reflexivity.
Qed.
Lemma lget_sdrop n l i : 0 <= n -> 0 <= i -> lget (sdrop n l) i = lget l (n + i).
Proof. intros. unfold lget, sdrop. rewrite nth_skipn'. f_equal. lia. Qed.
Lemma lget_app a b i : 0 <= i -> lget (a ++ b) i = if i <? slen a then lget a i else lget b (i - slen a).
Proof.
  intros. unfold lget, slen. destruct (Z.ltb_spec i (Z.of_nat (length a))).
  - apply app_nth1. lia.
  - rewrite app_nth2 by lia. f_equal. lia.
Qed.
Lemma lget_srep n c i : 0 <= i < n -> lget (srep n c) i = c.
Proof.
  intros. unfold lget, srep.
  assert (G : forall m k, (k < m)%nat -> nth k (repeat c m) None = c).
  { induction m; intros k Hk; [lia|]. destruct k; cbn; [reflexivity|]. apply IHm. lia. }
  apply G. lia.
Qed.
Lemma lget_cons_0 x l : lget (x :: l) 0 = x. Proof. reflexivity. Qed.
Lemma lget_piece p n l i : 0 <= p -> 0 <= i < n -> lget (piece p n l) i = lget l (p + i).
Proof. intros. unfold piece. rewrite lget_stake, lget_sdrop by lia. reflexivity. Qed.
Lemma lget_splice p n r l i : 0 <= p <= slen l -> 0 <= n -> 0 <= i ->
  lget (splice p n r l) i = if i <? p then lget l i
                            else if i <? p + slen r then lget r (i - p) else lget l (i - slen r + n).
Proof.
  intros. unfold splice. rewrite lget_app, slen_stake by lia.
  destruct (Z.ltb_spec i p); [apply lget_stake; lia|].
  pose proof (slen_nonneg r). rewrite lget_app by lia.
  destruct (Z.ltb_spec (i - p) (slen r)), (Z.ltb_spec i (p + slen r)); try lia; try reflexivity.
  rewrite lget_sdrop by lia. f_equal. lia.
Qed.

Lemma lext a b : slen a = slen b -> (forall i, 0 <= i < slen a -> lget a i = lget b i) -> a = b.
Proof.
  intros H G. apply (nth_ext a b None None); [unfold slen in H; lia|].
  intros n Hn. specialize (G (Z.of_nat n)). unfold lget in G. rewrite Nat2Z.id in G. apply G. unfold slen. lia.
Qed.
Lemma lget_Forall (P : option Z -> Prop) l : Forall P l <-> (forall i, 0 <= i < slen l -> P (lget l i)).
Proof.
  split.
  - intros H i Hi. rewrite Forall_forall in H. apply H. unfold lget. apply nth_In. unfold slen in Hi. lia.
  - intros H. rewrite Forall_forall. intros x Hx. apply (In_nth _ _ None) in Hx. destruct Hx as (n & Hn & E).
    specialize (H (Z.of_nat n)). unfold lget in H. rewrite Nat2Z.id, E in H. apply H. unfold slen. lia.
Qed.
Lemma map_splice {A B} (f : A -> B) p n r l : map f (splice p n r l) = splice p n (map f r) (map f l).
Proof. unfold splice, stake, sdrop. rewrite !map_app, firstn_map, skipn_map. reflexivity. Qed.
Lemma map_piece {A B} (f : A -> B) p n l : map f (piece p n l) = piece p n (map f l).
Proof. unfold piece, stake, sdrop. rewrite skipn_map, firstn_map. reflexivity. Qed.
Lemma map_srep {A B} (f : A -> B) n c : map f (srep n c) = srep n (f c).
Proof. unfold srep. induction (Z.to_nat n); cbn; congruence. Qed.

Section Wide.
Context {ChT : CharType}.

(** ** The sizes *)
Lemma char_cases : csize = 1 /\ per_word = 8 /\ num_small = 24 /\ max_small = 23 /\ max_medium = 254 /\ limit = 2 ^ 62 /\ base = 2 ^ 8 \/
  csize = 2 /\ per_word = 4 /\ num_small = 12 /\ max_small = 11 /\ max_medium = 127 /\ limit = 2 ^ 61 /\ base = 2 ^ 16 \/
  csize = 4 /\ per_word = 2 /\ num_small = 6 /\ max_small = 5 /\ max_medium = 63 /\ limit = 2 ^ 60 /\ base = 2 ^ 32.
Proof. destruct ChT; [left|right; left|right; right]; vm_compute; auto 10. Qed.
Lemma char_facts : 1 <= csize <= 4 /\ num_small = max_small + 1 /\ 5 <= max_small <= 23 /\ 2 * max_small < max_medium <= 254 /\
  2 ^ 60 <= limit <= 2 ^ 62 /\ 256 <= base <= 2 ^ 32 /\ 24 / csize = max_small + 1 /\ 23 / csize = max_small /\ 254 / csize = max_medium.
Proof. destruct ChT; vm_compute; repeat split; discriminate. Qed.

Lemma limit_bytes : limit * csize = 2 ^ 62.
Proof. destruct ChT; reflexivity. Qed.
Lemma bytes_back n : n * csize / csize = n.
Proof. apply Z.div_mul. pose proof char_facts. lia. Qed.
Lemma bytes_mono a b : a < b <-> a * csize < b * csize.
Proof. apply Z.mul_lt_mono_pos_r. pose proof char_facts. lia. Qed.
Lemma bytes_mono_le a b : a <= b <-> a * csize <= b * csize.
Proof. apply Z.mul_le_mono_pos_r. pose proof char_facts. lia. Qed.
(** Requests that succeed are for fewer than [limit] characters; no number of bytes wraps. *)
Lemma bytes_limit n : n * csize <= 2 ^ 62 -> n <= limit.
Proof. rewrite <- limit_bytes. apply bytes_mono_le. Qed.
Lemma bytes_bound n m : 0 <= n <= m -> 0 <= n * csize <= m * csize.
Proof. intros H. rewrite <- !bytes_mono_le. split; [apply Z.mul_nonneg_nonneg; pose proof char_facts; lia|lia]. Qed.
Lemma bytes_wrap n : 0 <= n <= 2 * limit -> 0 <= n * csize <= 2 ^ 63.
Proof. intros H. apply bytes_bound in H. change (2 ^ 63) with (2 * 2 ^ 62). rewrite <- limit_bytes. lia. Qed.

(** Characters: initialised. *)
Definition isb (x : option Z) : Prop := exists c, x = Some c /\ is_char c.
Definition good (l : list (option Z)) : Prop := Forall isb l.
Lemma good_app a b : good (a ++ b) <-> good a /\ good b. Proof. apply Forall_app. Qed.
Lemma good_nil : good []. Proof. constructor. Qed.
Lemma good_map v : Forall is_char v -> good (map Some v).
Proof. intros H. unfold good. rewrite Forall_map. eapply Forall_impl; [|exact H]. intros c Hc. exists c. auto. Qed.
Lemma good_inv l : good l -> exists v, l = map Some v /\ Forall is_char v.
Proof.
  induction 1 as [|x l (c & -> & Hc) _ (v & -> & Hv)]; [exists []; split; [reflexivity|constructor]|].
  exists (c :: v). split; [reflexivity|constructor; assumption].
Qed.
Lemma good_stake n l : good l -> good (stake n l).
Proof. unfold good, stake. rewrite !Forall_forall. intros H x Hx. apply H. rewrite <- (firstn_skipn (Z.to_nat n) l). apply in_or_app. auto. Qed.
Lemma good_sdrop n l : good l -> good (sdrop n l).
Proof. unfold good, sdrop. rewrite !Forall_forall. intros H x Hx. apply H. rewrite <- (firstn_skipn (Z.to_nat n) l). apply in_or_app. auto. Qed.
Lemma good_piece p n l : good l -> good (piece p n l).
Proof. intros. apply good_stake, good_sdrop. assumption. Qed.
Lemma good_splice p n r l : good l -> good r -> good (splice p n r l).
Proof. intros. unfold splice. rewrite !good_app. auto using good_stake, good_sdrop. Qed.
Lemma good_srep n c : is_char c -> good (srep n (Some c)).
Proof. intros H. unfold good, srep. rewrite Forall_forall. intros x Hx. apply repeat_spec in Hx. subst. exists c. auto. Qed.

(** ** Bytes of words *)

Ltac lia := first [Lia.lia | let F := fresh in pose proof char_facts as F; Lia.lia].

Lemma pow_base i : 0 <= i -> 0 < base ^ i. Proof. intros. apply Z.pow_pos_nonneg; lia. Qed.
Lemma unit_of_range w i : 0 <= unit_of w i < base.
Proof. unfold unit_of. apply Z.mod_pos_bound. lia. Qed.
Lemma byte_put w i j v : 0 <= i -> 0 <= j -> 0 <= v < base ->
  unit_of (put_unit w i v) j = if i =? j then v else unit_of w j.
Proof.
  intros Hi Hj Hv. unfold put_unit.
  pose proof (pow_base i Hi) as Pi. pose proof (pow_base j Hj) as Pj.
  destruct (Z.eqb_spec i j) as [<-|N].
  - unfold unit_of at 1. rewrite Z.div_add by lia. unfold unit_of.
    rewrite Z.add_sub_assoc. rewrite <- (Z.mod_small v base) at 2 by lia.
    rewrite Zminus_mod_idemp_r. f_equal. lia.
  - destruct (Z_lt_dec j i).
    + replace (base ^ i) with (base ^ (i - j - 1) * base * base ^ j).
      2:{ rewrite <- Z.mul_assoc. rewrite <- (Z.pow_1_r base) at 2. rewrite <- !Z.pow_add_r by lia. f_equal. lia. }
      unfold unit_of at 1. rewrite !Z.mul_assoc. rewrite Z.div_add by lia.
      unfold unit_of. rewrite Z.mod_add by lia. reflexivity.
    + assert (E : forall x, x / base ^ j = x / base ^ i / base / base ^ (j - i - 1)).
      { intros x. rewrite !Z.div_div by (try apply pow_base; lia).
        f_equal. rewrite <- (Z.pow_1_r base) at 3. rewrite <- !Z.pow_add_r by lia. f_equal. lia. }
      unfold unit_of at 1. rewrite E. rewrite Z.div_add by lia. unfold unit_of at 2. rewrite E.
      unfold unit_of. set (q := w / base ^ i).
      replace ((q + (v - q mod base)) / base) with (q / base); [reflexivity|].
      rewrite (Z.div_mod q base) at 2 by lia.
      replace (base * (q / base) + q mod base + (v - q mod base)) with (v + (q / base) * base) by lia.
      rewrite Z.div_add by lia. rewrite (Z.div_small v) by lia. reflexivity.
Qed.
Lemma unit_at_range o i : 0 <= unit_at o i < base. Proof. unfold unit_at. apply unit_of_range. Qed.
Lemma byte_set o i j v : 0 <= i < num_small -> 0 <= j < num_small -> 0 <= v < base ->
  unit_at (set_unit o i v) j = if i =? j then v else unit_at o j.
Proof.
  intros Hi Hj Hv. unfold unit_at, set_unit.
  assert (PW : 0 < per_word /\ num_small = 3 * per_word) by (pose proof char_cases; Lia.lia).
  assert (Mj : j mod per_word = if j <? per_word then j else if j <? 2 * per_word then j - per_word else j - 2 * per_word).
  { destruct (Z.ltb_spec j per_word); [apply Z.mod_small; lia|]. destruct (Z.ltb_spec j (2 * per_word)).
    - replace j with (j - per_word + 1 * per_word) at 1 by lia. rewrite Z.mod_add by lia. apply Z.mod_small. lia.
    - replace j with (j - 2 * per_word + 2 * per_word) at 1 by lia. rewrite Z.mod_add by lia. apply Z.mod_small. lia. }
  rewrite Mj.
  destruct (Z.ltb_spec i per_word), (Z.ltb_spec j per_word); cbn [c_data c_size c_cap];
    try destruct (Z.ltb_spec i (2 * per_word)); try destruct (Z.ltb_spec j (2 * per_word)); cbn [c_data c_size c_cap]; try lia;
    try (destruct (Z.eqb_spec i j); [lia|reflexivity]);
    rewrite byte_put by lia;
    repeat match goal with |- context [?a =? ?b] => destruct (Z.eqb_spec a b) end; try lia; reflexivity.
Qed.
Lemma set_unit_al o i v : c_al (set_unit o i v) = c_al o.
Proof. unfold set_unit. destruct (i <? per_word), (i <? 2 * per_word); reflexivity. Qed.

Lemma set_units_at l : forall o off j, good l -> 0 <= off -> off + slen l <= num_small -> 0 <= j < num_small ->
  Some (unit_at (set_units o off l) j) = if (off <=? j) && (j <? off + slen l) then lget l (j - off) else Some (unit_at o j).
Proof.
  induction l as [|x l IH]; intros o off j G Ho Hn Hj; cbn [set_units].
  - rewrite slen_nil. destruct (Z.leb_spec off j), (Z.ltb_spec j (off + 0)); cbn [andb]; try lia; reflexivity.
  - apply Forall_cons_iff in G. destruct G as ((c & -> & Hc) & G).
    rewrite slen_cons in *. pose proof (slen_nonneg l).
    rewrite IH by (try assumption; lia). rewrite byte_set by (try apply Hc; lia).
    destruct (Z.eqb_spec off j) as [<-|].
    + destruct (Z.leb_spec (off + 1) off), (Z.leb_spec off off), (Z.ltb_spec off (off + (1 + slen l))); cbn [andb]; try lia.
      rewrite Z.sub_diag. reflexivity.
    + destruct (Z.leb_spec (off + 1) j), (Z.leb_spec off j), (Z.ltb_spec j (off + 1 + slen l)), (Z.ltb_spec j (off + (1 + slen l)));
        cbn [andb]; try lia; try reflexivity.
      unfold lget. replace (Z.to_nat (j - off)) with (S (Z.to_nat (j - (off + 1)))) by lia. reflexivity.
Qed.
Lemma set_units_al l : forall o off, c_al (set_units o off l) = c_al o.
Proof. induction l as [|[c|] l IH]; intros; cbn [set_units]; [reflexivity|rewrite IH; apply set_unit_al|apply IH]. Qed.

(** ** Categories and capacities *)

Definition has_cap (o : core) (cap cat : Z) : Prop := c_cap o = cap + cat * 2 ^ 56 /\ 0 <= cap < limit.

Lemma land_small x : 0 <= x < 64 -> Z.land x 192 = 0.
Proof.
  intros H. assert (G : forallb (fun k => Z.land (Z.of_nat k) 192 =? 0) (seq 0 64) = true) by (vm_compute; reflexivity).
  rewrite forallb_forall in G. specialize (G (Z.to_nat x)). rewrite Z2Nat.id in G by lia.
  apply Z.eqb_eq, G, in_seq. lia.
Qed.
Lemma land_med x : 0 <= x < 64 -> Z.land (x + 128) 192 = 128.
Proof.
  intros H. assert (G : forallb (fun k => Z.land (Z.of_nat k + 128) 192 =? 128) (seq 0 64) = true) by (vm_compute; reflexivity).
  rewrite forallb_forall in G. specialize (G (Z.to_nat x)). rewrite Z2Nat.id in G by lia.
  apply Z.eqb_eq, G, in_seq. lia.
Qed.
Lemma land_large x : 0 <= x < 64 -> Z.land (x + 64) 192 = 64.
Proof.
  intros H. assert (G : forallb (fun k => Z.land (Z.of_nat k + 64) 192 =? 64) (seq 0 64) = true) by (vm_compute; reflexivity).
  rewrite forallb_forall in G. specialize (G (Z.to_nat x)). rewrite Z2Nat.id in G by lia.
  apply Z.eqb_eq, G, in_seq. lia.
Qed.
(** The last byte, and the last character, of a string with a buffer. *)
Lemma cap_byte o cap cat : has_cap o cap cat -> cat = 128 \/ cat = 64 ->
  exists x, 0 <= x < 64 /\ c_cap o / 256 ^ 7 mod 256 = x + cat.
Proof.
  intros (E & B) C. exists (cap / 2 ^ 56).
  assert (0 <= cap / 2 ^ 56 < 64).
  { split; [apply Z.div_pos; lia|]. apply Z.div_lt_upper_bound; [lia|]. change (2 ^ 56 * 64) with (2 ^ 62). lia. }
  split; [assumption|]. change (256 ^ 7) with (2 ^ 56). rewrite E, Z.div_add by lia.
  apply Z.mod_small. lia.
Qed.
Lemma cap_unit o cap cat : has_cap o cap cat -> cat = 128 \/ cat = 64 -> 64 <= unit_at o max_small < base.
Proof.
  intros (E & B) C. split; [|apply unit_at_range]. unfold unit_at.
  pose proof char_cases as F.
  assert (L1 : (max_small <? per_word) = false) by (apply Z.ltb_ge; Lia.lia).
  assert (L2 : (max_small <? 2 * per_word) = false) by (apply Z.ltb_ge; Lia.lia). rewrite L1, L2.
  assert (P : max_small mod per_word = per_word - 1) by (destruct F as [(C1 & C2 & C3 & C4 & C5 & C6 & C7)|[(C1 & C2 & C3 & C4 & C5 & C6 & C7)|(C1 & C2 & C3 & C4 & C5 & C6 & C7)]]; rewrite C2, C4; reflexivity).
  rewrite P. unfold unit_of.
  assert (M : base ^ (per_word - 1) * base = 2 ^ 64 /\ 64 * 2 ^ 56 >= 64 * base ^ (per_word - 1)).
  { destruct F as [(C1 & C2 & C3 & C4 & C5 & C6 & C7)|[(C1 & C2 & C3 & C4 & C5 & C6 & C7)|(C1 & C2 & C3 & C4 & C5 & C6 & C7)]]; rewrite C2, C7; vm_compute; split; congruence. }
  destruct M as (M1 & M2).
  assert (0 < base ^ (per_word - 1)) by (apply pow_base; Lia.lia).
  assert (0 <= c_cap o < 2 ^ 64) by (rewrite E; lia).
  rewrite Z.mod_small.
  - apply Z.div_le_lower_bound; [lia|]. rewrite E. lia.
  - split; [apply Z.div_pos; lia|]. apply Z.div_lt_upper_bound; lia.
Qed.
Lemma cat_medium o cap : has_cap o cap 128 -> category o = 128.
Proof. intros H. destruct (cap_byte o cap 128 H) as (x & Hx & E); [auto|]. unfold category. rewrite E. apply land_med. assumption. Qed.
Lemma cat_large o cap : has_cap o cap 64 -> category o = 64.
Proof. intros H. destruct (cap_byte o cap 64 H) as (x & Hx & E); [auto|]. unfold category. rewrite E. apply land_large. assumption. Qed.
(** The last byte is the high byte of the last character. *)
Lemma last_byte o : c_cap o / 256 ^ 7 mod 256 = unit_at o max_small / (base / 256).
Proof.
  unfold unit_at. pose proof char_cases as F.
  assert (L1 : (max_small <? per_word) = false) by (apply Z.ltb_ge; Lia.lia).
  assert (L2 : (max_small <? 2 * per_word) = false) by (apply Z.ltb_ge; Lia.lia). rewrite L1, L2.
  assert (P : max_small mod per_word = per_word - 1) by (destruct F as [(C1 & C2 & C3 & C4 & C5 & C6 & C7)|[(C1 & C2 & C3 & C4 & C5 & C6 & C7)|(C1 & C2 & C3 & C4 & C5 & C6 & C7)]]; rewrite C2, C4; reflexivity).
  rewrite P. unfold unit_of. clear L1 L2 P.
  assert (G : forall w a b, 0 < a -> 0 < b -> w / a mod (b * 256) / b = w / (a * b) mod 256).
  { intros w a b Ha Hb. rewrite Z.rem_mul_r by Lia.lia.
    rewrite (Z.mul_comm b ((w / a / b) mod 256)), Z.div_add by Lia.lia.
    rewrite (Z.div_small ((w / a) mod b)) by (apply Z.mod_pos_bound; Lia.lia).
    rewrite Z.add_0_l. f_equal. apply Z.div_div; Lia.lia. }
  destruct F as [(C1 & C2 & C3 & C4 & C5 & C6 & C7)|[(C1 & C2 & C3 & C4 & C5 & C6 & C7)|(C1 & C2 & C3 & C4 & C5 & C6 & C7)]]; rewrite C2, C7.
  - specialize (G (c_cap o) (256 ^ 7) 1). change ((2 ^ 8) ^ (8 - 1)) with (256 ^ 7). change (2 ^ 8 / 256) with 1.
    change (1 * 256) with (2 ^ 8) in G. rewrite G by reflexivity. rewrite Z.mul_1_r. reflexivity.
  - specialize (G (c_cap o) (256 ^ 6) 256). change ((2 ^ 16) ^ (4 - 1)) with (256 ^ 6). change (2 ^ 16 / 256) with 256.
    change (256 * 256) with (2 ^ 16) in G. rewrite G by reflexivity. reflexivity.
  - specialize (G (c_cap o) (256 ^ 4) (256 ^ 3)). change ((2 ^ 32) ^ (2 - 1)) with (256 ^ 4). change (2 ^ 32 / 256) with (256 ^ 3).
    change (256 ^ 3 * 256) with (2 ^ 32) in G. rewrite G by reflexivity. reflexivity.
Qed.
Lemma cat_small o n : unit_at o max_small = max_small - n -> 0 <= n <= max_small -> category o = 0.
Proof.
  intros E H. unfold category. rewrite last_byte, E. apply land_small.
  assert (1 <= base / 256) by (apply Z.div_le_lower_bound; lia).
  split; [apply Z.div_pos; lia|]. apply Z.div_lt_upper_bound; [lia|]. lia.
Qed.
Lemma size_heap o cap cat : has_cap o cap cat -> cat = 128 \/ cat = 64 -> size o = c_size o.
Proof.
  intros H C. pose proof (cap_unit o cap cat H C) as U. unfold size. remember (unit_at o max_small) as u.
  unfold sub64. rewrite Z.mod_eq by (unfold M64; lia).
  replace ((max_small - u) / M64) with (-1). 2:{ symmetry. pose proof char_facts. unfold M64. Z.div_mod_to_equations. Lia.lia. }
  destruct (Z.ltb_spec (max_small - u - M64 * -1) 9223372036854775808); [unfold M64 in *; lia|reflexivity].
Qed.
Lemma size_small o n : unit_at o max_small = max_small - n -> 0 <= n <= max_small -> size o = n.
Proof.
  intros E H. unfold size. rewrite E. unfold sub64.
  replace (max_small - (max_small - n)) with n by lia. rewrite Z.mod_small by (unfold M64; lia).
  destruct (Z.ltb_spec n 9223372036854775808); lia.
Qed.
Lemma ml_capacity_ok o cap cat : has_cap o cap cat -> cat = 128 \/ cat = 64 -> ml_capacity o = cap.
Proof.
  intros (E & B) C. unfold ml_capacity. rewrite E.
  replace (Z.lxor (M64 - 1) (Z.shiftl 192 56)) with (Z.ones 62) by (vm_compute; reflexivity).
  rewrite Z.land_ones by lia.
  replace (cap + cat * 2 ^ 56) with (cap + (cat / 64) * 2 ^ 62).
  2:{ destruct C; subst cat; reflexivity. }
  rewrite Z.mod_add by Lia.lia. apply Z.mod_small. lia.
Qed.
Lemma lor_shift cap k : 0 <= cap < 2 ^ k -> forall j, k <= j -> 0 <= k -> Z.lor cap (2 ^ j) = cap + 2 ^ j.
Proof.
  intros B j J K. symmetry. rewrite Z.add_nocarry_lxor, Z.lxor_lor; try reflexivity;
  apply Z.bits_inj'; intros n Hn; rewrite Z.land_spec, Z.bits_0, Z.pow2_bits_eqb by lia;
    destruct (Z.eqb_spec j n); try apply andb_false_r; subst n;
    (destruct (Z.eq_dec cap 0) as [->|]; [rewrite Z.bits_0; reflexivity|]);
    rewrite Z.bits_above_log2; try reflexivity; try lia;
    apply Z.log2_lt_pow2; try lia; apply Z.lt_le_trans with (2 ^ k); try lia; apply Z.pow_le_mono_r; lia.
Qed.
Lemma set_capacity_ok o cap cat : 0 <= cap < limit -> cat = 128 \/ cat = 64 -> has_cap (set_capacity o cap cat) cap cat.
Proof.
  intros B C. split; [|assumption]. cbn [set_capacity c_cap].
  rewrite Z.shiftl_mul_pow2 by lia.
  destruct C; subst cat.
  - change (128 * 2 ^ 56) with (2 ^ 63). apply lor_shift with (k := 62); lia.
  - change (64 * 2 ^ 56) with (2 ^ 62). apply lor_shift with (k := 62); lia.
Qed.
Lemma has_cap_ext o o' cap cat : c_cap o' = c_cap o -> has_cap o cap cat -> has_cap o' cap cat.
Proof. unfold has_cap. intros ->. auto. Qed.
End Wide.
Ltac lia := first [Lia.lia | let F := fresh in pose proof char_facts as F; Lia.lia].
