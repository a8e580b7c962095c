Require Import ZArith List Bool Lia Permutation.
From Verif Require Import Base BaseProofs AlignModel BasicSpec BasicProofs ArenaSpec ArenaModel ArenaStatements
  ArenaProofs ArenaProofs2 ArenaProofs3 ArenaProofs4 ArenaProofs5 ArenaProofs6 ArenaProofs7
  ArenaReentModel ArenaReentSpec ArenaReentProofs ArenaReentProofs2 ArenaHookModel ArenaHookSpec
  ArenaHookProofs ArenaHookProofs2 ArenaHookProofs3 ArenaHookProofs4 ArenaHookProofs5 ArenaCallModel ArenaCallSpec.
Import ListNotations.
Open Scope Z_scope.

(** * Hooks that use nothing *)
Section Plain.
Variable e : env.
Variable c : calls.
Hypothesis C1 : forall h i, c_alloc c h i = [].
Hypothesis C2 : forall h i, c_block c h i = [].

Lemma get_put s i a a' m : get_arena s i = Ok a -> get_arena (put s i a' m) i = Ok a'.
Proof.
  unfold get_arena, put. cbn [s_arenas]. destruct (nth_error (s_arenas s) i) as [[x|]|] eqn:E; try discriminate. intros _.
  now rewrite (nth_error_upd_eq _ _ _ _ E).
Qed.
Lemma put_put s i a m a' m' : put (put s i a m) i a' m' = put s i a' m'.
Proof. unfold put. cbn [s_arenas]. now rewrite upd_upd. Qed.
Lemma put_same s i a : get_arena s i = Ok a -> put s i a (s_mem s) = s.
Proof.
  unfold get_arena, put. destruct (nth_error (s_arenas s) i) as [[x|]|] eqn:E; try discriminate. intros H. inv H.
  destruct s as [l m]. cbn [s_arenas s_mem] in *. f_equal. apply nth_ext_list. intros k.
  destruct (Nat.eq_dec i k) as [<-|NE]; [|now rewrite nth_error_upd_ne]. now rewrite (nth_error_upd_eq _ _ _ _ E).
Qed.
Lemma put_mem s i a m : put {| s_arenas := s_arenas s; s_mem := m |} i a m = put s i a m.
Proof. reflexivity. Qed.

Lemma newBlock_blocks i a m n a1 m1 ob : newBlock e i a m n = Ok (a1, m1, ob) ->
  match ob with None => a1 = a
  | Some b => a1 = {| a_opts := a_opts a; a_blocks := a_blocks a; a_resource := a_resource a;
                      a_cookie := a_cookie a; a_space := add64 (a_space a) (b_size b) |} end.
Proof.
  unfold newBlock. intros H. bk H. destruct (e_alloc e _ _); inv H; reflexivity.
Qed.

Lemma ensure_plain s i a n al : get_arena s i = Ok a ->
  ensure_c e c i s n al = do (a1, m1, ok) <- ensure_block e i a (s_mem s) n al; Ok (put s i a1 m1, ok).
Proof.
  intros Ha. unfold ensure_c, ensure_block. rewrite Ha. cbn [bind].
  destruct (need_create_new_block e a n al) as [[]| |]; cbn [bind]; auto.
  - destruct (newBlock e i a (s_mem s) n) as [[[a1 m1] ob]| |] eqn:En; cbn [bind]; auto.
    pose proof (newBlock_blocks _ _ _ _ _ _ _ En) as HB. destruct ob as [b|]; cbn [bind]; auto.
    rewrite C2. cbn [run_script].
    assert (X : (if o_on_newblock (a_opts a) then Ok {| s_arenas := s_arenas s; s_mem := m1 |} else Ok {| s_arenas := s_arenas s; s_mem := m1 |}) = Ok {| s_arenas := s_arenas s; s_mem := m1 |})
      by (destruct (o_on_newblock _); auto).
    rewrite X. cbn [bind]. change (get_arena {| s_arenas := s_arenas s; s_mem := m1 |} i) with (get_arena s i). rewrite Ha. cbn [bind].
    cbv zeta. rewrite Nat.sub_diag. cbn [skipn s_mem]. subst a1. reflexivity.
  - now rewrite put_same.
Qed.
Lemma get_cases s i : get_arena s i = Undef \/ exists a, get_arena s i = Ok a.
Proof. unfold get_arena. destruct (nth_error (s_arenas s) i) as [[x|]|]; eauto. Qed.
Lemma no_ensure s i n al : get_arena s i = Undef -> ensure_c e c i s n al = Undef.
Proof. intros H. unfold ensure_c. rewrite H. reflexivity. Qed.

Lemma allocate_plain s i n al : allocate_c e c i s n al = on_arena s i (fun a m => allocateAligned e i a m n al).
Proof.
  unfold allocate_c, on_arena. destruct (get_cases s i) as [Ea|(a & Ea)]; [now rewrite no_ensure, Ea|rewrite Ea].
  cbn [bind]. rewrite (ensure_plain s i a _ _ Ea). unfold allocateAligned.
  destruct (ensure_block e i a (s_mem s) (align_size n) al) as [[[a1 m1] ok]| |]; cbn [bind]; auto.
  destruct ok; cbn [bind]; auto. rewrite (get_put _ _ _ _ _ Ea). cbn [bind]. destruct (a_blocks a1) as [|b rest]; auto.
  destruct (block_take e b (align_size n) al) as [[b' p]| |]; cbn [bind]; auto.
  destruct (check_assert e _); cbn [bind]; auto. now rewrite put_put.
Qed.
Lemma addCleanup_plain s i a o f : get_arena s i = Ok a ->
  addCleanup_c e c i s o f = do (a1, m1, ok) <- addCleanup e i a (s_mem s) o f; Ok (put s i a1 m1, ok).
Proof.
  intros Ea. unfold addCleanup_c, addCleanup. rewrite (ensure_plain s i a _ _ Ea).
  destruct (ensure_block e i a (s_mem s) _ _) as [[[a1 m1] ok]| |]; cbn [bind]; auto.
  destruct ok; cbn [bind]; auto. rewrite (get_put _ _ _ _ _ Ea). cbn [bind]. destruct (a_blocks a1) as [|b rest]; auto.
  cbn [s_mem put]. destruct (register_cleanup e b m1 o f) as [[b' m2]| |]; cbn [bind]; auto. now rewrite put_put.
Qed.
Lemma Own_plain s i o f : Own_c e c i s o f = on_arena s i (fun a m => Own e i a m o f).
Proof.
  unfold Own_c, on_arena. destruct (get_cases s i) as [Ea|(a & Ea)]; [unfold addCleanup_c; now rewrite no_ensure, Ea|rewrite Ea].
  cbn [bind]. rewrite (addCleanup_plain s i a o f Ea). unfold Own.
  destruct (addCleanup e i a (s_mem s) o f) as [[[a1 m1] ok]| |]; cbn [bind]; auto. destruct ok; reflexivity.
Qed.
Lemma called_plain s i a : get_arena s i = Ok a -> called_c e c i s = Ok s.
Proof. intros Ea. unfold called_c. rewrite Ea, C1. cbn [bind run_script]. destruct (o_on_alloc _); auto. Qed.
Lemma called_told s i a ty n : get_arena s i = Ok a ->
  (do s2 <- told_c i s ty n; called_c e c i s2) = told_c i s ty n.
Proof.
  intros Ea. unfold told_c. rewrite Ea. cbn [bind]. eapply called_plain. unfold get_arena in *. exact Ea.
Qed.

Lemma exec_c_plain : forall o i s, exec_c e c o i s = exec e o i s.
Proof.
  fix IH 1. intros o i s. destruct o; cbn [exec exec_c].
  - rewrite allocate_plain. unfold on_arena. destruct (get_arena s i) as [a| |] eqn:Ea; cbn [bind]; auto. unfold AllocateAligned.
    destruct (allocateAligned e i a (s_mem s) bytes alignment) as [[[a1 m1] p]| |]; cbn [bind]; auto.
    destruct (p =? 0); auto. unfold told_c. rewrite (get_put _ _ _ _ _ Ea). cbn [bind].
    rewrite (called_plain _ _ a1) by (unfold get_arena; cbn [s_arenas]; apply (get_put s i a a1 m1 Ea)). cbn [bind].
    unfold hand_c. cbn [s_mem put]. destruct (hand_out i _ p bytes); reflexivity.
  - rewrite allocate_plain. unfold on_arena. destruct (get_arena s i) as [a| |] eqn:Ea; cbn [bind]; auto. unfold AllocateAlignedAndAddCleanup.
    destruct (allocateAligned e i a (s_mem s) bytes kByteSize) as [[[a1 m1] p]| |]; cbn [bind]; auto.
    destruct (p =? 0); auto. pose proof (get_put _ _ _ a1 m1 Ea) as E1. rewrite (addCleanup_plain _ i a1 _ _ E1). cbn [s_mem put].
    destruct (addCleanup e i a1 m1 _ fn) as [[[a2 m2] ok]| |]; cbn [bind]; auto. destruct ok; [|now rewrite put_put].
    fold (put s i a1 m1). rewrite put_put. unfold told_c. rewrite (get_put _ _ _ _ _ Ea). cbn [bind].
    rewrite (called_plain _ _ a2) by (unfold get_arena; cbn [s_arenas emits]; apply (get_put s i a a2 m2 Ea)). cbn [bind].
    unfold hand_c, emits. cbn [s_mem put s_arenas]. destruct (hand_out i _ p bytes); reflexivity.
  - rewrite allocate_plain. destruct (on_arena s i _) as [[s1 p]| |] eqn:E1; cbn [bind]; auto. destruct (p =? 0); auto.
    unfold hand_c. destruct (hand_out i (s_mem s1) p sz) as [m1| |]; cbn [bind]; auto.
    assert (B : forall l s, (fix go (l : list op) (s : sys) : res sys :=
                  match l with [] => Ok s | x :: r => do (s', _) <- exec_c e c x i s; go r s' end) l s =
                (fix go (l : list op) (s : sys) : res sys :=
                  match l with [] => Ok s | x :: r => do (s', _) <- exec e x i s; go r s' end) l s).
    { clear - IH. induction l as [|x l IHl]; intros s; auto. rewrite (IH x). destruct (exec e x i s) as [[s' r]| |]; cbn [bind]; auto. }
    rewrite B. destruct (_ body _) as [s3| |]; cbn [bind]; auto.
    assert (D : match dtor with None => Ok (s3, 1) | Some fn => Own_c e c i s3 p fn end =
                match dtor with None => Ok (s3, 1) | Some fn => on_arena s3 i (fun a m => Own e i a m p fn) end)
      by (destruct dtor; auto using Own_plain).
    rewrite D. clear D. generalize (match dtor with None => Ok (s3, 1) | Some fn => on_arena s3 i (fun a m => Own e i a m p fn) end).
    intros [[s4 ok]| |]; cbn [bind]; auto. destruct (ok =? 0); auto.
    unfold told_c. destruct (get_arena s4 i) as [a4| |] eqn:E4; cbn [bind]; auto.
    rewrite (called_plain _ _ a4) by exact E4. reflexivity.
  - unfold on_arena, CreateArray. destruct (sz =? 0).
    { destruct (get_arena s i) eqn:Ea; cbn [bind]; auto. exfalso. unfold get_arena in Ea.
      destruct (nth_error (s_arenas s) i) as [[x|]|]; discriminate. }
    rewrite allocate_plain.
    replace (get_arena s i) with (get_arena (if (M64 - 1) / sz <? num then emits s ELog else s) i) by (destruct (_ <? _); reflexivity).
    set (s0 := if (M64 - 1) / sz <? num then emits s ELog else s).
    replace (if (M64 - 1) / sz <? num then emit (s_mem s) ELog else s_mem s) with (s_mem s0) by (unfold s0; destruct (_ <? _); reflexivity).
    assert (PS : forall a m, put s0 i a m = put s i a m) by (intros; unfold s0; destruct (_ <? _); reflexivity).
    unfold on_arena. destruct (get_arena s0 i) as [a| |] eqn:Ea; cbn [bind]; auto.
    destruct (allocateAligned e i a (s_mem s0) _ _) as [[[a1 m1] p]| |]; cbn [bind]; auto. rewrite !PS. destruct (p =? 0); auto.
    unfold hand_c. cbn [s_mem put]. destruct (hand_out i m1 p _) as [m2| |]; cbn [bind]; auto.
    assert (E2 : get_arena {| s_arenas := s_arenas (put s i a1 m1); s_mem := m2 |} i = Ok a1).
    { rewrite <- PS. apply (get_put s0 i a a1 m1 Ea). }
    unfold told_c. rewrite E2. cbn [bind]. rewrite (called_plain _ _ a1) by exact E2. reflexivity.
  - apply Own_plain.
  - destruct (get_arena s i) as [a| |]; cbn [bind]; auto. destruct (a_resource a) as [j|]; auto.
    rewrite allocate_plain. unfold on_arena. destruct (get_arena s j) as [b| |]; cbn [bind]; auto. unfold resource_allocate.
    destruct (allocateAligned e j b (s_mem s) bytes _) as [[[a1 m1] p]| |]; cbn [bind]; auto. destruct (p =? 0); auto.
    unfold hand_c. cbn [s_mem put]. destruct (hand_out j m1 p bytes); reflexivity.
Qed.

Lemma step_c_plain k s o : step_c e c k s o = step_h e k s o.
Proof. destruct o; auto. apply exec_c_plain. Qed.
End Plain.
