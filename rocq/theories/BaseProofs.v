(** Lemmas about words and outcomes. *)
Require Import ZArith List Bool Lia.
From Verif Require Import Base.
Import ListNotations.
Open Scope Z_scope.

Lemma M64_pos : 0 < M64. Proof. reflexivity. Qed.
Lemma M64_pow : M64 = 2 ^ 64. Proof. reflexivity. Qed.

Lemma add64_small a b : 0 <= a + b < M64 -> add64 a b = a + b.
Proof. intros; apply Z.mod_small; auto. Qed.
Lemma sub64_small a b : 0 <= a - b < M64 -> sub64 a b = a - b.
Proof. intros; apply Z.mod_small; auto. Qed.
Lemma mul64_small a b : 0 <= a * b < M64 -> mul64 a b = a * b.
Proof. intros; apply Z.mod_small; auto. Qed.
Lemma add64_word a b : word (add64 a b).
Proof. apply Z.mod_pos_bound; reflexivity. Qed.
Lemma sub64_word a b : word (sub64 a b).
Proof. apply Z.mod_pos_bound; reflexivity. Qed.
Lemma mul64_word a b : word (mul64 a b).
Proof. apply Z.mod_pos_bound; reflexivity. Qed.

Lemma bind_ok {A B} (m : res A) (f : A -> res B) b :
  bind m f = Ok b <-> exists a, m = Ok a /\ f a = Ok b.
Proof.
  destruct m; simpl; split; intros H; try discriminate.
  - eauto.
  - destruct H as (x & E & H); inversion E; subst; auto.
  - destruct H as (x & E & H); discriminate.
  - destruct H as (x & E & H); discriminate.
Qed.
