(** Properties C47 and C50: reading strings from a stream.

    [reach], [short] and [sees] as in PropString.v; [arena] tells the two kinds of
    strings apart.  [stream_ok st]: the stream is good and [inp st] is what it
    still has to give.  [stream_gives ss i P r]: unless memory ran out the call
    returns, [P] holds of the stream then and of the value then of string [i],
    and the other strings have the values they had. *)
Require Import ZArith List Bool Lia.
From Verif Require Import Base StrSpec StrModel StrStatements StrCases StrStreamSpec StrStreamModel StrStreamStatements StrStreamProofs.
Import ListNotations.
Open Scope Z_scope.
#[local] Existing Instance Char8.

Section Streams.
Variables (dbg arena : bool) (mal : nat -> Z -> bool) (ar : Z).
Hypotheses (MS : mal_sane mal) (AO : ar_ok dbg arena ar).
Notation reach := (StrStatements.reach dbg arena mal ar).
Notation cleaned s := {| s_heap := clean (s_heap s); s_objs := s_objs s |}.

(** C47: getline(is, s, d) gives the line; exactly it and the delimiter have been
    taken from the stream, which is at its end iff no delimiter was there and has
    failed iff there was nothing at all. Missing: a stream that is not good when
    the call starts ([C47_failed_stream_refuted]). *)
Theorem C47_getline_partial : forall n s ss i l d st, reach n s -> short n -> sees s ss -> sget ss i = Some l -> stream_ok st -> is_char d ->
  stream_gives ss i (fun st' line => exists rest ended, is_line d (inp st) line rest ended /\
      inp st' = rest /\ eofbit st' = ended /\ (failbit st' = true <-> inp st = []) /\ badbit st' = false /\ width st' = width st)
    (on_stream (cleaned s) i (getline dbg arena mal d st)).
Proof.
  intros n s ss i l d st H SH SE El SO Bd. pose proof (reach_getline dbg arena mal ar MS AO n s ss i l d st H SH SE El SO Bd) as X.
  unfold stream_gives in *. destruct (on_stream _ _ _) as ([s'|[] s'|h| |h] & [st'|]); try exact X.
  destruct X as (v & (rest & ended & IL & ->) & SE'). exists v. split; [|exact SE']. exists rest, ended. cbn. split; [exact IL|].
  repeat split; try (destruct (inp st); discriminate || reflexivity).
Qed.
(** There is but one line: what [is_line] says determines it. *)
Theorem C47_line_unique : forall d input l1 r1 e1 l2 r2 e2,
  is_line d input l1 r1 e1 -> is_line d input l2 r2 e2 -> l1 = l2 /\ r1 = r2 /\ e1 = e2.
Proof.
  assert (A : forall (d : Z) l1 l2 t1 t2, l1 ++ d :: t1 = l2 ++ d :: t2 -> ~ In d l1 -> ~ In d l2 -> l1 = l2 /\ t1 = t2).
  { intros d l1. induction l1 as [|a l1 IH]; intros [|b l2] t1 t2 E N1 N2; cbn in *.
    - injection E as ->. auto.
    - injection E as -> _. exfalso; auto.
    - injection E as <- _. exfalso; auto.
    - injection E as <- E. destruct (IH l2 t1 t2 E) as (-> & ->); auto. }
  intros d input l1 r1 e1 l2 r2 e2 (N1 & H1) (N2 & H2). destruct e1, e2.
  - destruct H1 as (<- & ->), H2 as (<- & ->). auto.
  - destruct H1 as (-> & ->). exfalso. apply N1. rewrite H2. apply in_or_app. right. left. reflexivity.
  - destruct H2 as (-> & ->). exfalso. apply N2. rewrite H1. apply in_or_app. right. left. reflexivity.
  - rewrite H1 in H2. destruct (A _ _ _ _ _ H2 N1 N2) as (-> & ->). auto.
Qed.

(** C50: operator>> gives the next word, [width st] characters of it at most when
    that is positive, and leaves what follows. *)
Theorem C50_extract : forall n s ss i l st, reach n s -> short n -> sees s ss -> sget ss i = Some l -> stream_ok st -> ~ Forall white (inp st) ->
  stream_gives ss i (fun st' word => exists b rest,
      is_word (if width st <=? 0 then None else Some (width st)) (inp st) b word rest /\ inp st' = rest /\ failbit st' = false /\ badbit st' = false /\
      (eofbit st' = true <-> rest = [] /\ slen word <> width st))
    (on_stream (cleaned s) i (extract dbg arena mal st)).
Proof.
  intros n s ss i l st H SH SE El SO NW. pose proof (reach_extract dbg arena mal ar MS AO n s ss i l st H SH SE El SO) as X.
  unfold stream_gives in *. destruct (on_stream _ _ _) as ([s'|[] s'|h| |h] & [st'|]); try exact X.
  destruct X as (v & [(W & _)|(b & rest & IW & ->)] & SE'); [contradiction|]. exists v. split; [|exact SE']. exists b, rest. split; [exact IW|].
  destruct rest as [|c r].
  - destruct (Z.eqb_spec (slen v) (width st)); cbn; repeat split; auto; try discriminate. intros (_ & X). contradiction.
  - cbn. repeat split; auto; try discriminate. intros (X & _). discriminate.
Qed.
(** C50: when there is no word the string is as it was and the stream has failed. *)
Theorem C50_no_word : forall n s ss i l st, reach n s -> short n -> sees s ss -> sget ss i = Some l -> stream_ok st -> Forall white (inp st) ->
  stream_gives ss i (fun st' v => v = l /\ inp st' = [] /\ eofbit st' = true /\ failbit st' = true)
    (on_stream (cleaned s) i (extract dbg arena mal st)).
Proof.
  intros n s ss i l st H SH SE El SO NW. pose proof (reach_extract dbg arena mal ar MS AO n s ss i l st H SH SE El SO) as X.
  unfold stream_gives in *. destruct (on_stream _ _ _) as ([s'|[] s'|h| |h] & [st'|]); try exact X.
  destruct X as (v & [(W & -> & ->)|(b & rest & IW & _)] & SE'); [exists l; auto|]. exfalso.
  destruct IW as (E & _ & N & NE & _). destruct v as [|c v]; [congruence|]. rewrite E in NW. apply Forall_app in NW. destruct NW as (_ & NW). inversion NW; inversion N; auto.
Qed.
(** C50: from a stream that is not good nothing is read; it has failed afterwards. *)
Theorem C50_not_good : forall n s ss i l st, reach n s -> sees s ss -> sget ss i = Some l -> eofbit st || failbit st || badbit st = true ->
  on_stream (cleaned s) i (extract dbg arena mal st) = (SRet (cleaned s), Some (Stream (inp st) (eofbit st) true (badbit st) (width st))).
Proof.
  intros n s ss i l st H SE El NG. unfold on_stream. cbn [s_objs s_heap].
  destruct SE as (_ & SE). specialize (SE i). rewrite El in SE. destruct (sget (s_objs s) i) as [c|] eqn:Ec; [|contradiction].
  assert (G : good_stream st = false) by (unfold good_stream; destruct (eofbit st), (failbit st), (badbit st); try reflexivity; discriminate).
  unfold extract, sentry. rewrite G. unfold ret. rewrite (StrProofs8.sset_same _ _ _ Ec). unfold setstate. destruct st as [inp e f b w]. cbn. rewrite !orb_true_r, !orb_false_r. reflexivity.
Qed.
End Streams.
Print Assumptions C47_getline_partial.
Print Assumptions C47_line_unique.
Print Assumptions C50_extract.
Print Assumptions C50_no_word.
Print Assumptions C50_not_good.

(** ** Examples *)
Definition reading (l : list Z) : stream := Stream l false false false 0.
(** What string 0 is after the call, and the stream. *)
Definition after_reading (r : sout * option stream) : option (list (option (list (option Z))) * stream) :=
  match r with (SRet s', Some st) => Some (shown s', st) | _ => None end.
Definition cleaned (s : sys) : sys := {| s_heap := clean (s_heap s); s_objs := s_objs s |}.
Definition ln := 10.
(** Lines of several lengths: within the small string, over two and over many
    rounds, exactly filling the capacity; into an empty, a large and a shared string. *)
Definition line_lengths : list Z := [0; 1; 22; 23; 24; 62; 63; 64; 94; 95; 300; 700].
Example C47_ex : forall dbg, after dbg false plenty 0 [SNew []; SNew (letters 300); SCopy 1; SNew (letters 30)] (fun s ss =>
  forallb (fun n => forallb (fun i =>
    match after_reading (on_stream (cleaned s) i (getline dbg false plenty ln (reading (letters n ++ [ln; 65; 66])))) with
    | Some (v, st) => match nth i v None with Some x => (slen x =? n) && forallb (fun p => match p with (Some a, b) => a =? b | _ => false end) (combine x (letters n)) | None => false end
                      && match inp st with [65; 66] => true | _ => false end && good_stream st
    | None => false
    end) [0; 1; 3]%nat) line_lengths = true).
Proof. intros []; vm_compute; reflexivity. Qed.
(** No delimiter: all there is, at the end of the stream; failed when that is nothing. *)
Example C47_eof_ex : forall dbg, after dbg false plenty 0 [SNew (letters 300); SCopy 0] (fun s ss =>
  after_reading (on_stream (cleaned s) 0 (getline dbg false plenty ln (reading (letters 100)))) =
    Some ([Some (map Some (letters 100)); Some (map Some (letters 300))], Stream [] true false false 0) /\
  after_reading (on_stream (cleaned s) 0 (getline dbg false plenty ln (reading []))) =
    Some ([Some []; Some (map Some (letters 300))], Stream [] true true false 0)).
Proof. intros []; vm_compute; split; reflexivity. Qed.
(** C47 is false of a stream that has failed before the call.  The failure is
    taken for a full buffer and cleared: a line is taken from the stream, but the
    string gets as many of the characters it had before, the first one zero.  With
    assertions on one fails. *)
Theorem C47_failed_stream_refuted :
  after false false plenty 0 [SNew [120; 121; 122]] (fun s ss => after_reading (on_stream (cleaned s) 0 (getline false false plenty ln (Stream [65; 66; ln; 67] false true false 0))) =
    Some ([Some [Some 0; Some 121]], Stream [67] false false false 0)) /\
  after true false plenty 0 [SNew (letters 30)] (fun s ss => fst (on_stream (cleaned s) 0 (getline true false plenty ln (Stream [65; 66; ln; 67] false true false 0))) = SAFail).
Proof. split; vm_compute; reflexivity. Qed.
Print Assumptions C47_failed_stream_refuted.

Example C50_not_good_ex : forall dbg, after dbg false plenty 0 [SNew (letters 300)] (fun s ss =>
  after_reading (on_stream (cleaned s) 0 (extract dbg false plenty (Stream [88; 89] true false false 0))) =
    Some ([Some (map Some (letters 300))], Stream [88; 89] true true false 0)).
Proof. intros []; vm_compute; reflexivity. Qed.
Definition words := [32; 9; 72; 105; 33; 10; 88].
Example C50_ex : forall dbg, after dbg false plenty 0 [SNew (letters 300); SCopy 0] (fun s ss =>
  after_reading (on_stream (cleaned s) 0 (extract dbg false plenty (reading words))) =
    Some ([Some (map Some [72; 105; 33]); Some (map Some (letters 300))], Stream [10; 88] false false false 0) /\
  after_reading (on_stream (cleaned s) 0 (extract dbg false plenty (Stream words false false false 2))) =
    Some ([Some (map Some [72; 105]); Some (map Some (letters 300))], Stream [33; 10; 88] false false false 2) /\
  after_reading (on_stream (cleaned s) 0 (extract dbg false plenty (reading [88; 89]))) =
    Some ([Some (map Some [88; 89]); Some (map Some (letters 300))], Stream [] true false false 0) /\
  after_reading (on_stream (cleaned s) 0 (extract dbg false plenty (reading [32; 10]))) =
    Some ([Some (map Some (letters 300)); Some (map Some (letters 300))], Stream [] true true false 0)).
Proof. intros []; vm_compute; repeat split; reflexivity. Qed.
(** The width, which [istream.extractors] wants set back to 0, stays: the next
    word is cut as well. *)
Theorem C50_width_reset_refuted : forall dbg, after dbg false plenty 0 [SNew []] (fun s ss => exists st',
  snd (on_stream (cleaned s) 0 (extract dbg false plenty (Stream words false false false 2))) = Some st' /\ width st' = 2).
Proof. intros []; vm_compute; eexists; split; reflexivity. Qed.
Print Assumptions C50_width_reset_refuted.
