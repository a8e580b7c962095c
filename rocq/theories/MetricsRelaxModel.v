(** The global metrics (arena/metrics.hpp) under the memory model of C++.

    report_to_global_metrics adds with memory_order::relaxed (metrics.hpp:233-258)
    and string() loads (128-165), so only accesses to one counter are ordered.
    Executions are graphs in the style of the standard: events, an order of
    happening before, for every counter one modification order, and for every
    load the modification it reads from.  Not modelled: reset() of the global
    object, and the map of locations (C78_map_race_refuted). *)
Require Import ZArith List Bool.
From Verif Require Import Base ArenaSpec MetricsSpec MetricsModel MetricsGlobalModel.
Import ListNotations.
Open Scope Z_scope.

(** What a thread does: record something, report, or call string(). *)
Inductive call := Record_ (p : probe) | Report | Print.

(** Accesses to the global counters.  fetch_add reads what it adds to from its
    predecessor in the modification order, so only its amount is kept. *)
Inductive act := Add (c : ctr) (d : Z) | Load (c : ctr).

(** metrics.hpp:128-165: the loads of string() in order. *)
Definition loads_of (st : jstep) : list ctr :=
  match st with JShow c | JCount c | JPercent _ c => [c] | _ => [] end.
Definition string_loads : list ctr := flat_map loads_of string_steps.

(** The accesses of a thread with local metrics [l] (metrics.hpp:233-258: the
    local metrics are cleared at the end of a report). *)
Fixpoint acts (l : local) (cs : list call) : list act :=
  match cs with
  | [] => []
  | Record_ p :: r => acts (apply_probe l p) r
  | Report :: r => map (fun c => Add c (l_ctr l c)) fixed_counters ++ acts local_reset r
  | Print :: r => map Load string_loads ++ acts l r
  end.

(** Events: thread number and position in its sequence of accesses. *)
Definition eid := (nat * nat)%type.

(** [mo c]: the modification order of [c]; [pos e]: the load [e] reads what the
    first [pos e] of them made; [hb]: happens before. *)
Record exec := { progs : list (list call); mo : ctr -> list eid; pos : eid -> nat; hb : eid -> eid -> Prop }.

Definition act_at (x : exec) (e : eid) : option act :=
  match nth_error (progs x) (fst e) with
  | Some cs => nth_error (acts local_reset cs) (snd e)
  | None => None
  end.
Definition amount (x : exec) (e : eid) : Z :=
  match act_at x e with Some (Add _ d) => d | _ => 0 end.
(** What counter [c] holds after its first [k] modifications (uint64_t). *)
Definition value (x : exec) (c : ctr) (k : nat) : Z :=
  fold_left (fun v e => add64 v (amount x e)) (firstn k (mo x c)) 0.
Definition loaded (x : exec) (e : eid) : Z :=
  match act_at x e with Some (Load c) => value x c (pos x e) | _ => 0 end.

(** string() given the values of its loads; [None]: division by zero. *)
Fixpoint printed (q : list jstep) (vs : list Z) (count : Z) : option (list (label * Z)) :=
  match q, vs with
  | JShow c :: r, v :: w => option_map (cons (LCounter c, v)) (printed r w count)
  | JClear :: r, w => printed r w 0
  | JCount c :: r, v :: w => printed r w (add64 count v)
  | JPercent l c :: r, v :: w => if v =? 0 then None else option_map (cons (l, mul64 count 100 / v)) (printed r w count)
  | _ :: r, w => printed r w count
  | [], _ => Some []
  end.
(** The text of the call of string() whose loads start at [e]. *)
Definition text_at (x : exec) (e : eid) : option (list (label * Z)) :=
  printed string_steps (map (fun k => loaded x (fst e, (snd e + k)%nat)) (seq 0 (length string_loads))) 0.
