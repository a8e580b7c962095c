(** SpaceRemains() and the requests that follow. *)
Require Import ZArith List Bool Lia.
From Verif Require Import Base BaseProofs ArenaSpec ArenaModel ArenaStatements ArenaProofs ArenaProofs2 ArenaProofs3
  ArenaProofs4 ArenaProofs7 ArenaRoomSpec.
Import ListNotations.
Open Scope Z_scope.

Lemma asks_ext i h m m' : asks i h (m_hist m) -> ext m m' -> asks i h (m_hist m').
Proof.
  intros (evs & size & res & E & Hin) (e2 & E2 & _). exists (e2 ++ evs), size, res.
  split; [now rewrite E2, E, app_assoc|]. apply in_or_app. auto.
Qed.
Lemma ext_asks i m m' h : ext m m' -> asks i (m_hist m') h -> asks i (m_hist m) h.
Proof.
  intros (e2 & E2 & _) (evs & size & res & E & Hin). exists (evs ++ e2), size, res.
  split; [now rewrite E, E2, app_assoc|]. apply in_or_app. auto.
Qed.
Lemma nothing_refl h : asks_nothing h h.
Proof. exists []. split; auto. Qed.
Lemma nothing_cons h h' ev : asks_nothing h h' -> (forall j n r, ev <> EBlockAlloc j n r) -> asks_nothing h (ev :: h').
Proof.
  intros (evs & E & H) N. exists (ev :: evs). split; [now rewrite E|]. intros j size res [K|K]; [eapply N; eauto|eapply H; eauto].
Qed.

Section Room.
Variable e : env.
Variable A : Z.
Hypothesis HA : block_alignment A.
Hypothesis HG : good_block_alloc A (e_alloc e).

Lemma newblock_asks i a m n a' m' ob : newBlock e i a m n = Ok (a', m', ob) -> asks i (m_hist m) (m_hist m').
Proof.
  unfold newBlock. intros H. bk H. set (m0 := if M64 - 1 - kBlockHeaderSize <? n then emit m ELog else m) in *.
  assert (E0 : ext m m0) by (unfold m0; destruct (_ <? _); split_ext).
  apply (ext_asks i m m0); auto. destruct (e_alloc e (m_hist m0) x) as [addr|]; inv H.
  - destruct (o_on_newblock (a_opts a)).
    + eexists [_; _], x, (Some addr). split; [reflexivity|]. simpl; auto.
    + eexists [_], x, (Some addr). split; [reflexivity|]. simpl; auto.
  - eexists [_], x, None. split; [reflexivity|]. simpl; auto.
Qed.

Lemma ensure_room l m i a b rest need al a' m' ok :
  Inv A l m -> nth_error l i = Some (Some a) -> a_blocks a = b :: rest -> 0 <= need <= 2 ^ 62 -> alignment_ok A al ->
  ensure_block e i a m need al = Ok (a', m', ok) ->
  (fits b need al -> a' = a /\ m' = m /\ ok = true) /\ (~ fits b need al -> asks i (m_hist m) (m_hist m')).
Proof.
  intros HI Hi Eb Hn Hal H. destruct (I_arena _ _ _ HI i a Hi) as (nss & HAi).
  destruct (binv_of _ _ _ _ _ b HAi ltac:(rewrite Eb; simpl; auto)) as (ns & HB).
  destruct (has_enough_space_ok e A _ b ns need al HB (proj1 Hal) Hn) as (r & E & Er).
  unfold ensure_block, need_create_new_block in H. rewrite Eb, E in H. cbn [bind] in H.
  destruct r; cbn [negb] in H.
  - inv H. split; auto. intros N. exfalso. apply N, Er. reflexivity.
  - split; [intros F; apply Er in F; discriminate|]. intros _. bk H. destruct x as [[a1 m1] ob].
    apply newblock_asks in H0. destruct ob; inv H; auto.
Qed.

Definition moved_to (b b' : block) (pos limit : Z) : Prop :=
  b_addr b' = b_addr b /\ b_size b' = b_size b /\ b_pos b' = pos /\ b_limit b' = limit.

Lemma req_rounded bytes : 0 <= bytes <= max_request -> req_ok (align_size bytes).
Proof.
  intros Hb. destruct (align_size_ok bytes Hb) as [Hs Hs8]. split; auto. split; [lia|]. unfold max_request in *.
  destruct (Z_le_gt_dec (align_size bytes) (2 ^ 62)); auto. exfalso.
  change (2^62) with 4611686018427387904 in *. apply Z.mod_divide in Hs8; [|lia]. destruct Hs8 as (k & Hk). lia.
Qed.

Lemma allocate_room l m i a b rest bytes al a' m' p :
  Inv A l m -> nth_error l i = Some (Some a) -> a_blocks a = b :: rest -> 0 <= bytes <= max_request -> alignment_ok A al ->
  allocateAligned e i a m bytes al = Ok (a', m', p) ->
  (fits b (align_size bytes) al -> m' = m /\ 0 < p /\ exists b', a' = set_blocks a (b' :: rest) /\
     moved_to b b' (b_pos b + waste_of (b_addr b + b_pos b) al + align_size bytes) (b_limit b)) /\
  (~ fits b (align_size bytes) al -> asks i (m_hist m) (m_hist m')).
Proof.
  intros HI Hi Eb Hb Hal H. unfold allocateAligned in H. bk H. destruct x as [[a1 m1] ok].
  pose proof (req_rounded bytes Hb) as Hreq.
  destruct (ensure_room l m i a b rest _ al a1 m1 ok HI Hi Eb (proj1 Hreq) Hal H0) as [F N]. split.
  - intros Hf. destruct (F Hf) as (-> & -> & ->). rewrite Eb in H.
    destruct (take_ok e A l m i a b rest _ al HA HI Hi Eb Hf Hreq Hal)
      as (b' & q & E2 & P1 & P2 & P3 & P4 & P5 & P6 & P7 & _). rewrite E2 in H. cbn [bind] in H. bk H. inv H.
    split; [reflexivity|]. split; [auto|]. exists b'. split; [reflexivity|]. repeat split; auto.
  - intros Hf. specialize (N Hf). destruct ok.
    + destruct (a_blocks a1); [discriminate|]. bk H. destruct x. bk H. inv H. auto.
    + inv H. auto.
Qed.

Lemma cleanup_room l m i a b rest obj fn a' m' ok :
  Inv A l m -> nth_error l i = Some (Some a) -> a_blocks a = b :: rest ->
  addCleanup e i a m obj fn = Ok (a', m', ok) ->
  (fits b 16 8 -> ok = true /\ m_hist m' = m_hist m /\ exists b', a' = set_blocks a (b' :: rest) /\
     moved_to b b' (b_pos b) (b_limit b - 16)) /\
  (~ fits b 16 8 -> asks i (m_hist m) (m_hist m')).
Proof.
  intros HI Hi Eb H. pose proof (addCleanup_ext _ _ _ _ _ _ _ _ _ H) as X. unfold addCleanup in H.
  rewrite kC16 in H. change kByteSize with 8 in H. bk H. destruct x as [[a1 m1] k].
  destruct (ensure_room l m i a b rest 16 8 a1 m1 k HI Hi Eb ltac:(lia) (al8 e A HA HG) H0) as [F N]. split.
  - intros Hf. destruct (F Hf) as (-> & -> & ->). rewrite Eb in H. bk H. destruct x as [b' m2]. inv H.
    destruct (I_arena _ _ _ HI i a Hi) as (nss & HAi).
    destruct (binv_of _ _ _ _ _ b HAi ltac:(rewrite Eb; simpl; auto)) as (ns & []).
    unfold register_cleanup, alloc_cleanup in H1. bk H1. destruct x as [b1 p]. bk H. inv H.
    destruct (negb _); [discriminate|]. bk H1. inv H1. apply touch_hist in H.
    split; [reflexivity|]. split; [exact H|]. eexists. split; [reflexivity|].
    unfold fits in Hf. pose proof (waste_bounds (b_addr b + b_pos b) 8 ltac:(lia)).
    rewrite kC16. unfold moved_to. cbn. rewrite sub64_small by (unfold M64; lia). auto.
  - intros Hf. specialize (N Hf). destruct k.
    + destruct (a_blocks a1); [discriminate|]. bk H. destruct x as [b' m2]. inv H.
      unfold register_cleanup in H1. bk H1. destruct x as [b1 p]. destruct (negb _); [discriminate|]. bk H1. inv H1.
      match goal with T : touch _ _ _ = Ok _ |- _ => apply touch_hist in T; cbn; now rewrite T end.
    + inv H. auto.
Qed.

Lemma waste8 l m i a b rest : Inv A l m -> nth_error l i = Some (Some a) -> a_blocks a = b :: rest ->
  waste_of (b_addr b + b_pos b) 8 = 0 /\ (b_limit b - b_pos b) mod 8 = 0 /\ 0 <= b_limit b - b_pos b.
Proof.
  intros HI Hi Eb. destruct (I_arena _ _ _ HI i a Hi) as (nss & HAi).
  destruct (binv_of _ _ _ _ _ b HAi ltac:(rewrite Eb; simpl; auto)) as (ns & []).
  split; [apply waste_zero; [lia|]; rewrite Z.add_mod, bi_pos8, (mod8_addr A (b_addr b)) by (auto; lia); reflexivity|].
  split; [|lia]. rewrite Zminus_mod, bi_lim8, bi_pos8. reflexivity.
Qed.

Lemma remains_ok l m i a b rest : Inv A l m -> nth_error l i = Some (Some a) -> a_blocks a = b :: rest ->
  SpaceRemains e a = Ok (b_limit b - b_pos b).
Proof.
  intros HI Hi Eb. destruct (I_arena _ _ _ HI i a Hi) as (nss & HAi).
  destruct (binv_of _ _ _ _ _ b HAi ltac:(rewrite Eb; simpl; auto)) as (ns & HB).
  unfold SpaceRemains. rewrite Eb. exact (remain_ok e A _ b ns HB).
Qed.

Lemma rounded_align n need : 0 <= n <= max_request -> rounded n need -> need = align_size n.
Proof.
  intros Hn [H1 H2]. destruct (align_size_ok n Hn) as [Hs Hs8].
  apply Z.mod_divide in H2; [|lia]. apply Z.mod_divide in Hs8; [|lia]. destruct H2 as (k & ->), Hs8 as (q & Hq). lia.
Qed.

(** The arena [a], with newest block [b], after a request of [need] bytes. *)
Definition served (j : nat) (a : arena) (b : block) (rest : list block) (need : Z) (m m' : mem) (a' : arena) : Prop :=
  (need <= b_limit b - b_pos b -> asks_nothing (m_hist m) (m_hist m') /\
     exists b', a' = set_blocks a (b' :: rest) /\ b_addr b' = b_addr b /\ b_size b' = b_size b /\
       b_limit b' - b_pos b' = b_limit b - b_pos b - need) /\
  (b_limit b - b_pos b < need -> asks j (m_hist m) (m_hist m')).

Lemma hand_out_nothing i m p n m' h : hand_out i m p n = Ok m' -> asks_nothing h (m_hist m) -> asks_nothing h (m_hist m').
Proof.
  unfold hand_out. intros H N. bk H. inv H. apply touch_hist in H0. cbn. rewrite H0. apply nothing_cons; auto. discriminate.
Qed.
Lemma hook_nothing i a m ty n h : asks_nothing h (m_hist m) -> asks_nothing h (m_hist (hook_alloc i a m ty n)).
Proof. unfold hook_alloc. destruct (o_on_alloc _); auto. intros. apply nothing_cons; auto. discriminate. Qed.

(** One allocation aligned to 8. *)
Lemma allocate8 l m i a b rest bytes a' m' p :
  Inv A l m -> nth_error l i = Some (Some a) -> a_blocks a = b :: rest -> 0 <= bytes <= max_request ->
  allocateAligned e i a m bytes 8 = Ok (a', m', p) ->
  (align_size bytes <= b_limit b - b_pos b -> m' = m /\ 0 < p /\ exists b', a' = set_blocks a (b' :: rest) /\
     moved_to b b' (b_pos b + align_size bytes) (b_limit b)) /\
  (b_limit b - b_pos b < align_size bytes -> asks i (m_hist m) (m_hist m')).
Proof.
  intros HI Hi Eb Hb H. destruct (waste8 l m i a b rest HI Hi Eb) as (W & _).
  destruct (allocate_room l m i a b rest bytes 8 a' m' p HI Hi Eb Hb (al8 e A HA HG) H) as [F N].
  unfold fits in F, N. rewrite W in F, N. split; intros K.
  - destruct (F ltac:(lia)) as (E1 & E2 & b' & E3 & E4). split; [exact E1|]. split; [exact E2|]. exists b'. split; [exact E3|].
    now rewrite Z.add_0_r in E4.
  - apply N. lia.
Qed.

(** An allocation and then a cleanup record. *)
Lemma own_room l m i a b rest obj fn a' m' r :
  Inv A l m -> nth_error l i = Some (Some a) -> a_blocks a = b :: rest ->
  Own e i a m obj fn = Ok (a', m', r) ->
  served i a b rest 16 m m' a' /\ (16 <= b_limit b - b_pos b -> r = 1).
Proof.
  intros HI Hi Eb H. unfold Own in H. bk H. destruct x as [[a1 m1] ok].
  destruct (waste8 l m i a b rest HI Hi Eb) as (W & _).
  destruct (cleanup_room l m i a b rest obj fn a1 m1 ok HI Hi Eb H0) as [F N]. unfold fits in F, N. rewrite W in F, N.
  split; [split|].
  - intros K. destruct (F ltac:(lia)) as (-> & E2 & b' & E3 & E4). inv H. split.
    + cbn. rewrite E2. apply nothing_cons; [apply nothing_refl|discriminate].
    + exists b'. destruct E4 as (? & ? & ? & ?). repeat split; auto; lia.
  - intros K. specialize (N ltac:(lia)). destruct ok; inv H; auto. apply (asks_ext i _ m1); auto. apply ext_emit; [apply ext_refl|exact I].
  - intros K. destruct (F ltac:(lia)) as (-> & _). now inv H.
Qed.
End Room.
