(** What an outside observer sees of a program using arenas, and what the
    properties of arena/ say about it.  A history is a list of events, NEWEST
    FIRST.  Nothing here refers to the arena's internal state. *)
Require Import ZArith List Bool.
From Verif Require Import Base.
Import ListNotations.
Open Scope Z_scope.

Inductive event :=
(* calls made by the arena to the functions in its Options *)
| EBlockAlloc (arena : nat) (size : Z) (r : option Z)  (* block_alloc(size) called by [arena]; [None] = nullptr *)
| EBlockFree (addr : Z)                       (* block_dealloc(addr) *)
| ELog                                        (* logger_func *)
| HInit (arena : nat) (cookie : Z)
| HReset (arena : nat) (cookie used wasted : Z)
| HAlloc (arena : nat) (ty size cookie : Z)   (* ty = 0: nullptr type_info *)
| HNewBlock (arena : nat) (num size cookie : Z)
| HDestroy (arena : nat) (cookie used wasted : Z)
(* a registered cleanup function [fn] is called on [elem] *)
| ECleanup (elem fn : Z)
(* what happens at the API *)
| CNew (arena : nat)                          (* arena constructed *)
| CRange (arena : nat) (p n : Z)              (* n bytes at p handed to the client or to a constructor *)
| CRegister (arena : nat) (elem fn : Z)       (* successful registration of a cleanup *)
| CReset (arena : nat)                        (* Reset() returned *)
| CMove (src dst : nat)                       (* dst move-constructed from src *)
| CDestroy (arena : nat).                     (* destructor returned *)

Definition history := list event.

(** Blocks obtained from block_alloc and not yet given back, as (address,
    size).  [None] when something was given back that was not held. *)
Fixpoint remove_block (a : Z) (l : list (Z * Z)) : option (list (Z * Z)) :=
  match l with
  | [] => None
  | (b, n) :: r => if b =? a then Some r
                   else option_map (cons (b, n)) (remove_block a r)
  end.

Fixpoint live_blocks (h : history) : option (list (Z * Z)) :=
  match h with
  | [] => Some []
  | e :: r =>
      match live_blocks r with
      | None => None
      | Some l =>
          match e with
          | EBlockAlloc _ n (Some a) => Some ((a, n) :: l)
          | EBlockFree a => remove_block a l
          | _ => Some l
          end
      end
  end.

Definition live_blocks_list (h : history) : list (Z * Z) :=
  match live_blocks h with Some l => l | None => [] end.

(** Blocks held by arena [i], newest first. *)
Fixpoint held (h : history) (i : nat) : list (Z * Z) :=
  match h with
  | [] => []
  | e :: r =>
      match e with
      | EBlockAlloc j n (Some a) => if (j =? i)%nat then (a, n) :: held r i else held r i
      | EBlockFree a => filter (fun x => negb (fst x =? a)) (held r i)
      | CMove j k => if (k =? i)%nat then held r j else if (j =? i)%nat then [] else held r i
      | _ => held r i
      end
  end.

Definition sizes (l : list (Z * Z)) : Z := fold_right (fun x s => snd x + s) 0 l.

(** Ranges handed out by an arena since it was last reset: (arena, p, n). *)
Fixpoint live_ranges (h : history) : list (nat * Z * Z) :=
  match h with
  | [] => []
  | e :: r =>
      match e with
      | CRange i p n => (i, p, n) :: live_ranges r
      | CReset i | CDestroy i => filter (fun x => negb (fst (fst x) =? i)%nat) (live_ranges r)
      | CMove i j =>
          map (fun x => if (fst (fst x) =? i)%nat then (j, snd (fst x), snd x) else x) (live_ranges r)
      | _ => live_ranges r
      end
  end.

(** Cleanups registered with arena [i] and not yet due, newest first. *)
Fixpoint pending (h : history) (i : nat) : list (Z * Z) :=
  match h with
  | [] => []
  | e :: r =>
      match e with
      | CRegister j el fn => if (j =? i)%nat then (el, fn) :: pending r i else pending r i
      | CReset j | CDestroy j => if (j =? i)%nat then [] else pending r i
      | CMove j k =>
          if (k =? i)%nat then pending r j
          else if (j =? i)%nat then [] else pending r i
      | _ => pending r i
      end
  end.

(** Cleanup calls in a piece of history, oldest first. *)
Fixpoint cleanups_run (h : history) : list (Z * Z) :=
  match h with
  | [] => []
  | ECleanup el fn :: r => cleanups_run r ++ [(el, fn)]
  | _ :: r => cleanups_run r
  end.

(** Two byte ranges do not overlap. *)
Definition apart (p n q k : Z) : Prop := p + n <= q \/ q + k <= p.

(** block_alloc hands out memory that is in user space, aligned to [A] and not
    part of a block still held. *)
Definition good_block_alloc (A : Z) (alloc : history -> Z -> option Z) : Prop :=
  forall h size a, alloc h size = Some a ->
    0 < a /\ a mod A = 0 /\ a + size <= 2 ^ 63 /\
    forall b n, In (b, n) (live_blocks_list h) -> apart a size b n.

(** [x] and [y] are apart for all pairs of positions of the list. *)
Definition pairwise {T} (R : T -> T -> Prop) (l : list T) : Prop := ForallOrdPairs R l.

(** Request alignments served by an arena whose blocks are [A]-aligned. *)
Definition alignment_ok (A al : Z) : Prop := (al = 8 \/ al = 16 \/ al = 32) /\ al <= A.
Definition block_alignment (A : Z) : Prop := A = 8 \/ A = 16 \/ A = 32.

(** Largest request considered: a quarter of the address space. *)
Definition max_request : Z := 2 ^ 62.

(** Reports to the metrics hooks in a piece of history, oldest first. *)
Definition is_report (ev : event) : bool :=
  match ev with
  | HInit _ _ | HReset _ _ _ _ | HAlloc _ _ _ _ | HNewBlock _ _ _ _ | HDestroy _ _ _ _ => true
  | _ => false
  end.
Definition reports (h : history) : list event := filter is_report (rev h).

(** Sizes of the blocks obtained by arena [i], oldest first. *)
Fixpoint obtained (i : nat) (h : history) : list Z :=
  match h with
  | [] => []
  | EBlockAlloc j n (Some _) :: r => obtained i r ++ (if (j =? i)%nat then [n] else [])
  | _ :: r => obtained i r
  end.

(** The newblock reports due for blocks of sizes [l] when [k] blocks are held. *)
Fixpoint newblock_reports (i : nat) (cookie k : Z) (l : list Z) : list event :=
  match l with
  | [] => []
  | n :: r => HNewBlock i k n cookie :: newblock_reports i cookie (k + 1) r
  end.

(** Size of a new block for a request of [need] bytes (header excluded). *)
Definition block_size_policy (normal huge init : Z) (first : bool) (need size : Z) : Prop :=
  let total := need + 32 in
  (first = true -> size = Z.max init total) /\
  (first = false -> total <= normal -> size = normal) /\
  (first = false -> normal < total <= huge / 4 ->
     exists r, (r mod normal = 0 /\ need <= r /\ forall k, k mod normal = 0 -> need <= k -> r <= k) /\ size = Z.max r total) /\
  (first = false -> normal < total -> huge / 4 < total <= huge -> size = huge) /\
  (first = false -> normal < total -> huge < total -> size = total).
