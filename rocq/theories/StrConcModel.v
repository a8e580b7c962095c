(** Threads working on strings that share buffers: the reference count protocol
    of /repo/string/string.hpp (lines 557-607 RefCounted, 760-768 copyLarge,
    843-865 unshare and mutableDataLarge), the same in
    /repo/string/arena_string.hpp (lines 329-366).

    A thread works on its own string objects, all of them large; the buffers
    they refer to are common to all threads.  Threads interleave between any two
    accesses to a reference count or to the characters of a buffer.

    [atomic] says how incrementRefs and decrementRefs work.  [false] is the code
    as it is: refCount_ is a plain size_t (line 560, "no need atomic on seastar
    without access cross cpu") and refCount_++ is a load and a later store.
    [true] is the code of the comments in the same lines (std::atomic, fetch_add
    and fetch_sub), and also the code as it is when all strings that share a
    buffer stay on one cpu and tasks switch only between operations on the count.

    Simplifications: sequentially consistent memory; counts are integers without
    bound (every reference is an object of 24 bytes); allocation does not fail
    here (C35 and C45 have that); small and medium strings share nothing and are
    left out; a buffer keeps its place when written. *)
Require Import ZArith List Bool.
From Verif Require Import Base.
Import ListNotations.
Open Scope Z_scope.

(** What a thread can ask for: a new string, a copy of its string number [i],
    the end of string [i], a look at the characters, a change of the characters
    (any function of them). *)
Inductive op :=
| New (l : list Z)
| Copy (i : nat)
| Destroy (i : nat)
| Read (i : nat)
| Mutate (i : nat) (f : list Z -> list Z).

(** RefCounted: refCount_, data_, and how often free was called on it. *)
Record buf := Buf { count : Z; chars : list Z; freed : nat }.

(** Where a thread is within an operation.  [Checked i n f]: refs() returned [n]
    to mutableDataLarge (line 861).  [Dropping i next]: about to decrement the
    count for string [i], which afterwards refers to the buffer in [next], if
    any.  [Freeing b next]: the old count was 1 (line 581).  [IncStore],
    [DecStore]: between load and store of a count that is not atomic. *)
Inductive pc :=
| Idle
| IncStore (i : nat) (n : Z)
| Dropping (i : nat) (next : option (nat * (list Z -> list Z)))
| DecStore (i : nat) (next : option (nat * (list Z -> list Z))) (n : Z)
| Freeing (b : nat) (next : option (nat * (list Z -> list Z)))
| Checked (i : nat) (n : Z) (f : list Z -> list Z)
| Writing (i : nat) (f : list Z -> list Z).

(** A thread: its objects with the buffer each refers to ([None]: destroyed),
    the point it has reached, and the operations it has completed (only for
    stating properties). *)
Record thread := Thread { objs : list (option nat); at_ : pc; done : list op }.
Record state := State { bufs : list buf; threads : list thread }.

Fixpoint set_nth {A} (n : nat) (x : A) (l : list A) : list A :=
  match l, n with
  | [], _ => []
  | _ :: t, O => x :: t
  | y :: t, S k => y :: set_nth k x t
  end.
Definition obj (t : thread) (i : nat) : option nat :=
  match nth_error (objs t) i with Some o => o | None => None end.
(** Touching a freed buffer, or freeing it again, is undefined behaviour. *)
Definition access (bs : list buf) (b : nat) : res buf :=
  match nth_error bs b with
  | Some u => match freed u with O => Ok u | _ => Undef end
  | None => Undef
  end.
Definition goto (t : thread) (p : pc) : thread := Thread (objs t) p (done t).
Definition complete (t : thread) (os : list (option nat)) (p : op) : thread := Thread os Idle (done t ++ [p]).

(** string.hpp:574 incrementRefs and 761-768 copyLarge: the new object refers
    to the same buffer. *)
Definition add_ref (bs : list buf) (t : thread) (i b : nat) (u : buf) (n : Z) : list buf * thread :=
  (set_nth b (Buf (n + 1) (chars u) (freed u)) bs, complete t (objs t ++ [Some b]) (Copy i)).
(** string.hpp:576-584 decrementRefs: oldcnt is [n] (its Assert, line 580, is left out); and 852-853, the object is
    directed to the new buffer. *)
Definition drop_ref (bs : list buf) (t : thread) (i b : nat) (u : buf) (next : option (nat * (list Z -> list Z))) (n : Z) : list buf * thread :=
  let os := set_nth i (match next with Some (nb, _) => Some nb | None => None end) (objs t) in
  let dn := match next with Some _ => done t | None => done t ++ [Destroy i] end in
  (set_nth b (Buf (n - 1) (chars u) (freed u)) bs,
   Thread os (if n =? 1 then Freeing b (match next with Some (_, f) => Some (i, f) | None => None end)
              else match next with Some (_, f) => Writing i f | None => Idle end) dn).

(** One step of a thread; [p] is what it begins if it is idle. *)
Definition tstep (atomic : bool) (bs : list buf) (t : thread) (p : op) : res (list buf * thread) :=
  match at_ t with
  | Idle =>
      match p with
      | New l => Ok (bs ++ [Buf 1 l 0], complete t (objs t ++ [Some (length bs)]) p)
      | Copy i =>
          match obj t i with
          | None => Ok (bs, complete t (objs t) p)
          | Some b => do u <- access bs b; Ok (if atomic then add_ref bs t i b u (count u) else (bs, goto t (IncStore i (count u))))
          end
      | Destroy i =>
          match obj t i with
          | None => Ok (bs, complete t (objs t) p)
          | Some b => Ok (bs, goto t (Dropping i None))
          end
      | Read i =>
          match obj t i with
          | None => Ok (bs, complete t (objs t) p)
          | Some b => do u <- access bs b; Ok (bs, complete t (objs t) p)
          end
      | Mutate i f =>
          match obj t i with
          | None => Ok (bs, complete t (objs t) p)
          | Some b => do u <- access bs b; Ok (bs, goto t (Checked i (count u) f))
          end
      end
  | IncStore i n =>
      match obj t i with
      | None => Undef
      | Some b => do u <- access bs b; Ok (add_ref bs t i b u n)
      end
  | Dropping i next =>
      match obj t i with
      | None => Undef
      | Some b => do u <- access bs b; Ok (if atomic then drop_ref bs t i b u next (count u) else (bs, goto t (DecStore i next (count u))))
      end
  | DecStore i next n =>
      match obj t i with
      | None => Undef
      | Some b => do u <- access bs b; Ok (drop_ref bs t i b u next n)
      end
  | Freeing b next =>
      do u <- access bs b;
      Ok (set_nth b (Buf (count u) (chars u) (S (freed u))) bs, goto t (match next with Some (i, f) => Writing i f | None => Idle end))
  | Checked i n f =>
      match obj t i with
      | None => Undef
      | Some b =>
          if 1 <? n
          then do u <- access bs b; Ok (bs ++ [Buf 1 (chars u) 0], goto t (Dropping i (Some (length bs, f))))
          else Ok (bs, goto t (Writing i f))
      end
  | Writing i f =>
      match obj t i with
      | None => Undef
      | Some b =>
          do u <- access bs b;
          Ok (set_nth b (Buf (count u) (f (chars u)) (freed u)) bs, complete t (objs t) (Mutate i f))
      end
  end.

(** A schedule names the thread that moves next and what it begins if idle. *)
Definition gstep (atomic : bool) (st : state) (c : nat * op) : res state :=
  match nth_error (threads st) (fst c) with
  | None => Ok st
  | Some t =>
      do (bs, t') <- tstep atomic (bufs st) t (snd c);
      Ok (State bs (set_nth (fst c) t' (threads st)))
  end.
Fixpoint grun (atomic : bool) (st : state) (cs : list (nat * op)) : res state :=
  match cs with
  | [] => Ok st
  | c :: cs' => do st' <- gstep atomic st c; grun atomic st' cs'
  end.

(** The beginning: one string with characters [l] has been copied so that thread
    [k] has [nth k ns] of the copies, each thread idle. *)
Definition total (ns : list nat) : nat := fold_right plus 0%nat ns.
Definition start (l : list Z) (ns : list nat) : state :=
  State [Buf (Z.of_nat (total ns)) l 0] (map (fun n => Thread (repeat (Some 0%nat) n) Idle []) ns).
