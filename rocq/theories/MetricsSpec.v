(** What the arena metrics should say: facts read off the list of things that
    happened, independent of the counters. *)
Require Import ZArith List Bool.
From Verif Require Import Base ArenaSpec.
Import ListNotations.
Open Scope Z_scope.

(** What is reported to the metrics of one thread. *)
Inductive probe :=
| PInit
| PAlloc (size loc : Z)                     (* loc: where the arena was initialised *)
| PNewBlock
| PReset (used wasted : Z)
| PDestroy (used wasted lifetime : Z).      (* lifetime in milliseconds *)

(** The counters. *)
Inductive ctr :=
| CInit | CDestruct | CAlloc | CNewblock | CResets
| CSpaceAllocated | CSpaceResettled | CSpaceUsed | CSpaceWasted
| CBucket (k : nat) | CLife (k : nat) | CLoc (key : Z).

(** [x] lies in the [k]-th of the intervals (-inf, b0], (b0, b1], ... *)
Definition in_interval (bounds : list Z) (k : nat) (x : Z) : bool :=
  match nth_error bounds k with
  | None => false
  | Some hi =>
      (x <=? hi) &&
      match k with
      | O => true
      | S j => match nth_error bounds j with Some lo => lo <? x | None => false end
      end
  end.

Definition size_bounds : list Z := [64; 128; 256; 512; 1024; 2048; 4096; 1048576].
Definition life_bounds : list Z := [1; 5; 10; 50; 100; 200; 500; 1000].

(** What one report adds to a counter. *)
Definition contribution (c : ctr) (p : probe) : Z :=
  match c, p with
  | CInit, PInit => 1
  | CDestruct, PDestroy _ _ _ => 1
  | CAlloc, PAlloc _ _ => 1
  | CNewblock, PNewBlock => 1
  | CResets, PReset _ _ => 1
  | CSpaceAllocated, PAlloc n _ => n
  | CSpaceResettled, PReset u _ => u
  | CSpaceUsed, PDestroy u _ _ => u
  | CSpaceWasted, PReset _ w => w
  | CSpaceWasted, PDestroy _ w _ => w
  | CBucket k, PAlloc n _ => if in_interval size_bounds k n then 1 else 0
  | CLife k, PDestroy _ _ t => if in_interval life_bounds k t then 1 else 0
  | CLoc key, PAlloc n loc => if loc =? key then n else 0
  | _, _ => 0
  end.

Definition total (c : ctr) (ps : list probe) : Z :=
  fold_right (fun p s => contribution c p + s) 0 ps.

(** Sizes are unsigned; so are all contributions. *)
Definition probe_ok (p : probe) : Prop :=
  match p with
  | PInit | PNewBlock => True
  | PAlloc n _ => 0 <= n
  | PReset u w | PDestroy u w _ => 0 <= u /\ 0 <= w
  end.

(** Events of an arena history that the counters are about. *)
Definition countif {T} (f : T -> bool) (l : list T) : Z := Z.of_nat (length (filter f l)).
Definition constructed (e : event) : bool := match e with CNew _ => true | _ => false end.
Definition destroyed (e : event) : bool := match e with CDestroy _ => true | _ => false end.
Definition was_reset (e : event) : bool := match e with CReset _ => true | _ => false end.
Definition block_obtained (e : event) : bool := match e with EBlockAlloc _ _ (Some _) => true | _ => false end.
Definition alloc_reported (e : event) : bool := match e with HAlloc _ _ _ _ => true | _ => false end.
Definition sum_of (f : event -> Z) (h : history) : Z := fold_right (fun e s => f e + s) 0 h.

(** Sizes and lifetimes reported. *)
Definition sizes_of (ps : list probe) : list Z := flat_map (fun p => match p with PAlloc n _ => [n] | _ => [] end) ps.
Definition lifetimes_of (ps : list probe) : list Z := flat_map (fun p => match p with PDestroy _ _ t => [t] | _ => [] end) ps.

(** Running sums: the first [k+1] buckets together. *)
Definition up_to {T} (bound : Z) (val : T -> Z) (l : list T) : Z := countif (fun x => val x <=? bound) l.

(** What the hook calls of an arena history say. *)
Definition bytes_reported (e : event) : Z := match e with HAlloc _ _ n _ => n | _ => 0 end.
Definition used_by_resets (e : event) : Z := match e with HReset _ _ u _ => u | _ => 0 end.
Definition used_by_destroyed (e : event) : Z := match e with HDestroy _ _ u _ => u | _ => 0 end.
Definition wasted_reported (e : event) : Z := match e with HReset _ _ _ w | HDestroy _ _ _ w => w | _ => 0 end.
Definition reported_size_in (k : nat) (e : event) : bool :=
  match e with HAlloc _ _ n _ => in_interval size_bounds k n | _ => false end.
