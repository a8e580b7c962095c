(** Property C86: arena strings whose memory comes from an arena.  The models of
    arena_string and of Arena run together: the strings use the memory resource
    of arena [i], which allocates from arena [j]; others use the arenas at the
    same time.  [jreach n J]: the state [J] can come about with [n] calls on
    strings.  [e], [A]: the environment of the arenas and the alignment of
    their blocks; [dbg]: debug build; [ar]: the memory resource as the strings
    know it, not the default one. *)
Require Import ZArith List Bool Lia Permutation.
From Verif Require Import Base ArenaSpec StrSpec StrModel StrStatements StrArenaModel StrArenaStatements.
From Verif Require Import StrArenaProofs StrArenaProofs2 StrArenaProofs3 StrArenaProofs4 StrArenaCases.
From Verif Require ArenaModel ArenaStatements ArenaCases.
Import ListNotations.
Open Scope Z_scope.
#[local] Existing Instance Char8.

Section C86.
Variables (e : ArenaModel.env) (A : Z) (dbg : bool) (ar : Z) (i j : nat).
Hypothesis HA : block_alignment A.
Hypothesis HG : good_block_alloc A (ArenaModel.e_alloc e).
Hypothesis HAR : ar <> 0.
Notation jreach := (jreach e A dbg ar i j).
Notation string_call := (string_call e dbg ar i).

(** Every permitted call takes place: the arena answers all its requests. *)
Theorem C86_progress : forall n J ss o, jreach n J -> short n -> sees (j_strs J) ss -> allowed ar ss o ->
  exists l S' r, string_call J o l S' r.
Proof. exact (J_progress e A dbg ar i j HA HG HAR). Qed.
(** And does to the strings what it does to independent character sequences;
    in particular nothing others do with the arenas changes a string.
    [allowed]: the calls C51 is proved for. *)
Theorem C86_value_semantics : forall n J ss o l S' r, jreach n J -> short n -> sees (j_strs J) ss -> allowed ar ss o -> string_call J o l S' r ->
  step_ok o (j_strs J) ss r /\ match r with SRet _ | SThr _ _ | STerm _ => True | SAFail | SUB _ => False end.
Proof. exact (J_value e A dbg ar i j HA HG HAR). Qed.
(** bad_alloc, or std::terminate, only when a request was refused: one of more
    than 2^62 bytes, or one for which block_alloc gave the arena no memory. *)
Theorem C86_bad_alloc : forall n J ss o l S' r, jreach n J -> short n -> sees (j_strs J) ss -> allowed ar ss o -> string_call J o l S' r ->
  ((exists s', r = SThr BadAlloc s') \/ exists h, r = STerm h) ->
  exists m, In (m, 0) l /\ (max_request < m \/ m < 0 \/ exists evs size, hist S' = evs ++ hist (j_arenas J) /\ In (EBlockAlloc j size None) evs).
Proof. exact (J_bad_alloc e A dbg ar i j HA HG HAR). Qed.
(** Strings give nothing back: no call frees a block or runs a cleanup. *)
Theorem C86_no_release : forall n J o l S' r, jreach n J -> short n -> string_call J o l S' r ->
  exists evs, hist S' = evs ++ hist (j_arenas J) /\ cleanups_run evs = [] /\ forall x, ~ In (EBlockFree x) evs.
Proof. exact (J_no_release e A dbg ar i j HA HG HAR). Qed.

(** There is a buffer for every allocation, aligned to 8, in a block that the arena of the strings holds. *)
Theorem C86_inside : forall n J k p m, jreach n J -> short n -> In (k, p, m) (buffers j J) ->
  k = j /\ p mod 8 = 0 /\ exists b size, In (b, size) (held (hist (j_arenas J)) j) /\ b + 32 <= p /\ p + m <= b + size.
Proof. exact (J_inside e A dbg ar i j HA HG HAR). Qed.
Theorem C86_all : forall n J, jreach n J -> short n -> length (buffers j J) = length (h_blocks (s_heap (j_strs J))).
Proof. exact (J_all e A dbg ar i j HA HG HAR). Qed.
(** The buffers do not overlap, nor anything else handed out by any arena. *)
Theorem C86_apart : forall n J, jreach n J -> short n ->
  exists others, Permutation (ranges J) (buffers j J ++ others) /\ pairwise apart_ranges (buffers j J ++ others).
Proof. exact (J_apart e A dbg ar i j HA HG HAR). Qed.
(** Nor the header or the cleanup records of any block. *)
Theorem C86_off_limits : forall n J k p m k' a b, jreach n J -> short n -> In (k, p, m) (buffers j J) ->
  nth_error (ArenaModel.s_arenas (j_arenas J)) k' = Some (Some a) -> In b (ArenaModel.a_blocks a) ->
  apart p m (ArenaModel.b_addr b) 32 /\ apart p m (ArenaModel.b_addr b + ArenaModel.b_limit b) (ArenaModel.b_size b - ArenaModel.b_limit b).
Proof. exact (J_off_limits e A dbg ar i j HA HG HAR). Qed.
(** So memory holds one byte per address, ... *)
Theorem C86_one_byte : forall n J a v v', jreach n J -> short n -> stored J a v -> stored J a v' -> v = v'.
Proof. exact (J_stored e A dbg ar i j HA HG HAR). Qed.
(** ... and the characters and the terminator of a string that is not kept in the object
    are in memory where data() points, within one buffer. *)
Theorem C86_text : forall n J ss k c l, jreach n J -> short n -> sees (j_strs J) ss -> sget (s_objs (j_strs J)) k = Some c -> sget ss k = Some l -> category c <> is_small ->
  exists p q m, data_address J c = Some p /\ text_at J p (l ++ [0]) /\ In (j, q, m) (buffers j J) /\ q <= p /\ p + slen l + 1 <= q + m.
Proof. exact (J_text e A dbg ar i j HA HG HAR). Qed.
(** Why requests of more than 2^62 bytes count as refused: if blocks have at
    most 2^62 bytes and block_alloc gives no larger one, the arena refuses them,
    and only asks block_alloc. *)
Theorem C86_big_request : forall S b n, ArenaStatements.reach e A S -> serves S i j -> nth_error (ArenaModel.s_arenas S) j = Some (Some b) ->
  (forall x, In x (ArenaModel.a_blocks b) -> ArenaModel.b_size x <= 2 ^ 62) -> (forall h size, 2 ^ 62 < size -> ArenaModel.e_alloc e h size = None) ->
  max_request < n <= 2 ^ 63 + 2 ^ 61 ->
  exists S' size, ArenaModel.step e S (ArenaModel.SOp i (ArenaModel.OResource n 1)) = Ok (S', 0) /\
    ArenaModel.s_arenas S' = ArenaModel.s_arenas S /\ hist S' = EBlockAlloc j size None :: hist S /\ n < size.
Proof. exact (fun S b n => big_request e A HA HG S i j b n). Qed.
End C86.

Print Assumptions C86_progress.
Print Assumptions C86_value_semantics.
Print Assumptions C86_bad_alloc.
Print Assumptions C86_no_release.
Print Assumptions C86_inside.
Print Assumptions C86_all.
Print Assumptions C86_apart.
Print Assumptions C86_off_limits.
Print Assumptions C86_one_byte.
Print Assumptions C86_text.
Print Assumptions C86_big_request.

(** ** Examples *)
Definition texts (n : Z) : list Z := srep n 97.
(** Two strings of 30 and 300 characters, other users of the arena between, then 200
    characters of the second appended to the first, a second arena made and
    destroyed, the second string copied, and a character appended to the copy. *)
Definition program : list move :=
  [Call (SNew (texts 30)) [31]; Other (ArenaModel.SOp 0 (ArenaModel.OAllocate 5 8)); Call (SNew (texts 300)) [309];
   Other (ArenaModel.SNew ArenaCases.hooked); Other (ArenaModel.SOp 1 (ArenaModel.OAllocate 100 8));
   Call (SOn 0 (UAppend (Piece 1 10 200))) [231]; Other (ArenaModel.SDestroy 1); Other (ArenaModel.SOp 0 (ArenaModel.OOwn 777 53)); Call (SCopy 1) [];
   Call (SOn 2 (UPush 98)) [460]].
Definition addresses (J : jsys) : list (Z * Z) := map (fun x => (snd (fst x), snd x)) (buffers 0 J).
Example C86_example : forall dbg, exists n J, jreach ArenaCases.env32 32 dbg 5 0 0 n J /\ short n /\
  sees (j_strs J) [Some (texts 230); Some (texts 300); Some (texts 300 ++ [98])] /\
  addresses J = [(4128, 31); (4168, 309); (4480, 231); (4712, 460)] /\
  ranges J = [(0%nat, 4712, 460); (0%nat, 4480, 231); (0%nat, 4168, 309); (0%nat, 4160, 5); (0%nat, 4128, 31)].
Proof.
  intros dbg. assert (H : joint_after ArenaCases.env32 32 dbg 5 0 0 [ArenaModel.SNew ArenaCases.hooked] program (fun J ss =>
    ss = [Some (texts 230); Some (texts 300); Some (texts 300 ++ [98])] /\ addresses J = [(4128, 31); (4168, 309); (4480, 231); (4712, 460)] /\
    ranges J = [(0%nat, 4712, 460); (0%nat, 4480, 231); (0%nat, 4168, 309); (0%nat, 4160, 5); (0%nat, 4128, 31)])).
  { destruct dbg; vm_compute; auto. }
  apply joint_reach in H; [|right; right; reflexivity|exact ArenaCases.env32_good|discriminate|vm_compute; reflexivity].
  destruct H as (n & J & ss & H1 & H2 & H3 & -> & H4 & H5). exists n, J. auto.
Qed.
(** A string that no longer fits: the arena has one block and gets no other. *)
Example C86_example_refused : forall dbg, exists n J ss s' S', jreach ArenaCases.env_small 32 dbg 5 0 0 n J /\ short n /\ sees (j_strs J) ss /\
  string_call ArenaCases.env_small dbg 5 0 J (SNew (texts 5000)) [(5009, 0)] S' (SThr BadAlloc s') /\ ss = [Some (texts 30)] /\ allowed 5 ss (SNew (texts 5000)).
Proof.
  intros dbg. set (P := fun (J : jsys) (ss : list (option (list Z))) => ss = [Some (texts 30)] /\
    match ask_all ArenaCases.env_small 0 (j_arenas J) [5009] with
    | Some (l, _) => l = [(5009, 0)] /\
       match step dbg true (oracle (h_calls (s_heap (j_strs J))) [(5009, 0)]) 5 (j_strs J) (SNew (texts 5000)) with SThr BadAlloc s' => tookb (s_heap (j_strs J)) (s_heap s') [(5009, 0)] = true | _ => False end
    | None => False end).
  assert (H : joint_after ArenaCases.env_small 32 dbg 5 0 0 [ArenaModel.SNew ArenaCases.hooked] [Call (SNew (texts 30)) [31]] P).
  { unfold P. destruct dbg; vm_compute; auto. }
  apply joint_reach in H; [|right; right; reflexivity|exact ArenaCases.env_small_good|discriminate|vm_compute; reflexivity].
  destruct H as (n & J & ss & H1 & H2 & H3 & -> & H4). destruct (ask_all ArenaCases.env_small 0 (j_arenas J) [5009]) as [[l S']|] eqn:Q; [|contradiction].
  destruct H4 as (-> & H4). destruct (step dbg true _ 5 (j_strs J) (SNew (texts 5000))) as [s1|x s1|h1| |h1] eqn:ST; try contradiction. destruct x; try contradiction.
  exists n, J, [Some (texts 30)], s1, S'. split; [exact H1|]. split; [exact H2|]. split; [exact H3|]. split; [|split; [reflexivity|]].
  - eapply call_by; [eapply ask_all_ok; exact Q|exact ST|reflexivity|apply tookb_ok; exact H4].
  - split; [discriminate|]. apply StrCases.sop_b_ok. vm_compute. reflexivity.
Qed.
(** An arena with one block and a block_alloc that gives at most 2^62 bytes. *)
Definition env_large : ArenaModel.env :=
  {| ArenaModel.e_debug := true; ArenaModel.e_alloc := fun h size => if 2 ^ 62 <? size then None else ArenaCases.bump 0 (2 ^ 60) h size; ArenaModel.e_cookie := fun _ => 7 |}.
Example C86_example_big : good_block_alloc 32 (ArenaModel.e_alloc env_large) /\ exists S b,
  ArenaStatements.reach env_large 32 S /\ serves S 0 0 /\ nth_error (ArenaModel.s_arenas S) 0 = Some (Some b) /\
  (forall x, In x (ArenaModel.a_blocks b) -> ArenaModel.b_size x <= 2 ^ 62) /\ ArenaModel.a_blocks b <> [] /\
  forall h size, 2 ^ 62 < size -> ArenaModel.e_alloc env_large h size = None.
Proof.
  split.
  { intros h size a H. cbn [ArenaModel.e_alloc env_large] in H. destruct (2 ^ 62 <? size); [discriminate|].
    apply (ArenaCases.bump_good 32 0 (2 ^ 60)) with (h := h); auto. lia. }
  destruct (ArenaCases.runp env_large 32 ArenaModel.init 0 [ArenaModel.SNew ArenaCases.hooked; ArenaModel.SOp 0 (ArenaModel.OAllocate 5 8)]) as [[S x]|] eqn:R; [|vm_compute in R; discriminate].
  exists S. assert (SB : servesb 0 0 S = true /\ match nth_error (ArenaModel.s_arenas S) 0 with Some (Some b) => map ArenaModel.b_size (ArenaModel.a_blocks b) = [4096] | _ => False end).
  { revert R. vm_compute. intros R. injection R as <- <-. vm_compute. auto. }
  destruct SB as (S1 & S2). destruct (nth_error (ArenaModel.s_arenas S) 0) as [[b|]|] eqn:N; try contradiction. exists b.
  split; [eapply ArenaCases.runp_reach; [apply ArenaStatements.reach_init|exact R]|]. split; [apply servesb_ok; exact S1|]. split; [reflexivity|].
  split; [|split].
  - intros y Y. apply (in_map ArenaModel.b_size) in Y. rewrite S2 in Y. destruct Y as [<-|[]]. vm_compute. discriminate.
  - intros Z0. rewrite Z0 in S2. discriminate.
  - intros h size L. cbn [ArenaModel.e_alloc env_large]. apply Z.ltb_lt in L. rewrite L. reflexivity.
Qed.
