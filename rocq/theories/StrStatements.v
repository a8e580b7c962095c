(** Which calls the theorems on strings are about, the executions made of
    them, and what the client sees. *)
Require Import ZArith List Bool.
From Verif Require Import Base StrSpec StrModel.
Import ListNotations.
Open Scope Z_scope.

Section Wide.
Context {ChT : CharType}.

(** malloc refuses absurd sizes. *)
Definition mal_sane (mal : nat -> Z -> bool) : Prop := forall k n, mal k n = true -> n <= 2 ^ 62.
(** Ordinary strings have no allocator; debug builds refuse arena strings with the default one. *)
Definition ar_ok (dbg arena : bool) (ar : Z) : Prop := if arena then dbg = true -> ar <> 0 else ar = 0.

(** The characters and the terminator are as expected. *)
Definition reads (h : heap) (c : core) (l : list Z) : Prop :=
  size c = slen l /\ value h c = Some (map Some l) /\ after_last h c = Some 0.
Definition sees (s : sys) (ss : list (option (list Z))) : Prop :=
  length (s_objs s) = length ss /\
  forall i, match sget (s_objs s) i, sget ss i with
            | Some c, Some l => reads (s_heap s) c l
            | None, None => True
            | _, _ => False
            end.

(** ** Arguments *)
Definition count (n : Z) : Prop := 0 <= n < limit.      (* how many characters to write *)
Definition size_t (n : Z) : Prop := 0 <= n < M64.        (* positions, lengths to clip; npos *)
Definition chars (l : list Z) : Prop := Forall is_char l /\ slen l < limit.
Definition arg_ok (a : arg) : Prop := match a with Chars l => chars l | Piece _ _ _ => True end.
(** The argument is not a piece of the string operated on. *)
Definition foreign (i : nat) (a : arg) : Prop := match a with Chars _ => True | Piece j _ _ => j <> i end.

Definition uop_ok (ar : Z) (i : nat) (l : list Z) (o : uop) : Prop :=
  match o with
  | UAppend a | UAssign a => arg_ok a
  | UAppendN n c | UAssignN n c | UResize n c => count n /\ is_char c
  | UPush c => is_char c
  | UPop => l <> []
  | UAssignChar c => is_char c /\ ar = 0
  | UInsert p a => size_t p /\ arg_ok a /\ foreign i a
  | UInsertN p n c => size_t p /\ count n /\ is_char c
  | UErase p n => size_t p /\ size_t n
  | UReplace p n a => size_t p /\ size_t n /\ arg_ok a /\ (ar <> 0 -> foreign i a)
  | UReplaceN p n n2 c => size_t p /\ size_t n /\ count n2 /\ is_char c
  | UInsertInput p x => 0 <= p <= slen l /\ chars x
  | UReplaceInput p n x => 0 <= p /\ 0 <= n /\ p + n <= slen l /\ chars x
  | UReserve n => 0 <= n < 2 * limit
  | UShrink | UClear => True
  | USet k c => 0 <= k < slen l /\ is_char c
  | UAtSet k c => size_t k /\ is_char c
  | UBackSet c => l <> [] /\ is_char c
  end.
Definition sop_ok (ar : Z) (ss : list (option (list Z))) (o : sop) : Prop :=
  match o with
  | SNew l | SPlusCL l _ | SPlusCLM l _ | SPlusCR _ l | SPlusCRM _ l => chars l
  | SNewN n c => count n /\ is_char c
  | SPlusHL c _ | SPlusHLM c _ | SPlusHR _ c | SPlusHRM _ c => is_char c
  | SSub _ p n | SSubstr _ p n | SSubstrMove _ p n => size_t p /\ size_t n
  | SOn i o => forall l, sget ss i = Some l -> uop_ok ar i l o
  | _ => True
  end.
(** The objects exist and pieces lie within them. *)
Definition allowed (ar : Z) (ss : list (option (list Z))) (o : sop) : Prop :=
  s_apply o ss <> [] /\ sop_ok ar ss o.

(** One step; the mark of refused allocations is about this step. *)
Definition clean (h : heap) : heap := {| h_blocks := h_blocks h; h_calls := h_calls h; h_refused := false; h_rfail := h_rfail h |}.
Definition step (dbg arena : bool) (mal : nat -> Z -> bool) (ar : Z) (s : sys) (o : sop) : sout :=
  sstep dbg arena mal ar {| s_heap := clean (s_heap s); s_objs := s_objs s |} o.

(** ** Executions.  [n] counts the steps.  A step may end with an exception;
    only a failed realloc ends the history. *)
Inductive reach (dbg arena : bool) (mal : nat -> Z -> bool) (ar : Z) : nat -> sys -> Prop :=
| reach_init : reach dbg arena mal ar O s_init
| reach_next n s ss o s' :
    reach dbg arena mal ar n s -> sees s ss -> allowed ar ss o ->
    (step dbg arena mal ar s o = SRet s' \/ exists e, step dbg arena mal ar s o = SThr e s') ->
    h_rfail (s_heap s') = false ->
    reach dbg arena mal ar (S n) s'.
(** Fewer steps than a reference count can count. *)
Definition short (n : nat) : Prop := Z.of_nat n < 2 ^ 63 - 2.

(** ** What a step may do *)
(** After bad_alloc at most the object worked on has another value; a result does not exist. *)
Definition target (o : sop) : option nat :=
  match o with
  | SSubstrMove j _ _ | SPlusML j _ | SPlusMM j _ | SPlusCRM j _ | SPlusHRM j _ => Some j
  | SPlusMR _ k | SPlusCLM _ k | SPlusHLM _ k => Some k
  | SAssign i _ | SOn i _ => Some i
  | _ => None
  end.
Definition creates (o : sop) : bool :=
  match o with SAssign _ _ | SAssignMove _ _ | SSwap _ _ | SDestroy _ | SOn _ _ => false | _ => true end.
Definition hurt (o : sop) (ss ss' : list (option (list Z))) : Prop :=
  exists ss1, ss' = ss1 ++ (if creates o then [None] else []) /\
    (ss1 = ss \/ exists i l, target o = Some i /\ Forall is_char l /\ ss1 = sset i (Some l) ss).

Definition step_ok (o : sop) (s : sys) (ss : list (option (list Z))) (r : sout) : Prop :=
  match r with
  | SRet s' => exists ss', In (SVal ss') (s_apply o ss) /\ sees s' ss'
  | SThr OutOfRange s' => (exists ss', In (SRange ss') (s_apply o ss) /\ sees s' ss') /\ s_heap s' = clean (s_heap s) /\ s_objs s' = s_objs s ++ (if creates o then [None] else [])
  | SThr BadAlloc s' => h_refused (s_heap s') = true /\ (h_rfail (s_heap s') = false -> exists ss', hurt o ss ss' /\ sees s' ss')
  | SThr _ _ => False
  | STerm h => h_refused h = true
  | SAFail => False
  | SUB h => h_rfail h = true
  end.

(** ** Memory *)
(** The object keeps its characters in block [b]. *)
Definition holds (b : Z) (c : core) : bool := negb (category c =? is_small) && (c_data c =? b).
Definition holders (s : sys) (b : Z) : Z :=
  slen (filter (fun x => match x with Some c => holds b c | None => false end) (s_objs s)).
(** There is room for [n] characters where the characters are. *)
Definition room (h : heap) (c : core) (n : Z) : Prop :=
  match data c with
  | PSelf off => off + n <= 24 / csize
  | PHeap b off => exists k, blk h b = Some k /\ bk_live k = true /\ off + n <= bk_len k
  | PExt _ => False
  end.
(** No request for memory between two states. *)
Definition no_request (h h' : heap) : Prop := h_calls h' = h_calls h.
(** The room an unshared string has for appending up to [n] characters, in the words of its
    interface; with the small-string optimisation off, capacity() of an empty string is not room. *)
Definition has_room (dbg arena : bool) (h : heap) (c : core) (n : Z) : Prop :=
  is_shared h c = Ret false h c /\ (exists cap, capacity h c = Ret cap h c /\ n <= cap) /\
  (sso_off dbg arena = false \/ category c <> is_small).
Definition appends (o : uop) : Prop := match o with UAppend _ | UAppendN _ _ | UPush _ => True | _ => False end.
(** Writing a character through the pointer given by the non-const data() of object [i]. *)
Definition poke_obj (s : sys) (i : nat) (k c : Z) : sout := on_obj s i (poke k c).
(** The representation chosen for [n] characters. *)
Definition kind_for (dbg arena : bool) (n : Z) : Z :=
  if negb (sso_off dbg arena) && (n <=? 23 / csize) then is_small else if n <=? 254 / csize then is_medium else is_large.
(** The call ends with the values [ss'], unless memory ran out. *)
Definition gives (r : sout) (ss' : list (option (list Z))) : Prop :=
  match r with
  | SRet s' => sees s' ss'
  | SThr BadAlloc s' => h_refused (s_heap s') = true
  | STerm h => h_refused h = true
  | SUB h => h_rfail h = true
  | _ => False
  end.
(** The value an overload of operator+ is to return, and the operand it may change. *)
Definition concat_val (o : sop) (ss : list (option (list Z))) : option (list Z) :=
  let two j k := match sget ss j, sget ss k with Some a, Some b => Some (a ++ b) | _, _ => None end in
  let left_ j b := match sget ss j with Some a => Some (a ++ b) | None => None end in
  let right_ a k := match sget ss k with Some b => Some (a ++ b) | None => None end in
  match o with
  | SPlus j k | SPlusML j k | SPlusMR j k | SPlusMM j k => two j k
  | SPlusCL l k | SPlusCLM l k => right_ l k
  | SPlusHL c k | SPlusHLM c k => right_ [c] k
  | SPlusCR j l | SPlusCRM j l => left_ j l
  | SPlusHR j c | SPlusHRM j c => left_ j [c]
  | _ => None
  end.
Definition moved (o : sop) : option nat :=
  match o with
  | SPlusML j _ | SPlusMM j _ | SPlusCRM j _ | SPlusHRM j _ => Some j
  | SPlusMR _ k | SPlusCLM _ k | SPlusHLM _ k => Some k
  | _ => None
  end.
(** The left operand is moved from: the overloads that append to it. *)
Definition moved_left (o : sop) : option nat :=
  match o with SPlusML j _ | SPlusMM j _ | SPlusCRM j _ | SPlusHRM j _ => Some j | _ => None end.
End Wide.
