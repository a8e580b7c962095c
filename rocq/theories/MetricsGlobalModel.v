(** Model of GlobalArenaMetrics::string() and reset() (arena/metrics.hpp) running
    while other threads report. *)
Require Import ZArith List Bool.
From Verif Require Import Base ArenaSpec MetricsSpec MetricsModel.
Import ListNotations.
Open Scope Z_scope.

(** A line of the text: "name: value" of a counter or of a map entry, and the
    percentages "le=bound: value%" of the two distributions. *)
Inductive label := LCounter (c : ctr) | LSize (bound : Z) | LLife (bound : Z).

(** What one call does, load by load and store by store.  [JShowAll], [JStoreAll]:
    a loop over the map arena_alloc_counter begins; [JLeave]: it ends. *)
Inductive jstep :=
| JShow (c : ctr)                   (* formatter<atomic<T>>, metrics.hpp:51-61: one load *)
| JClear                            (* count = 0 *)
| JCount (c : ctr)                  (* count += counter *)
| JPercent (l : label) (c : ctr)    (* count * 100 / counter *)
| JStore (c : ctr)                  (* counter.store(0) *)
| JShowAll | JStoreAll | JLeave.

(** metrics.hpp:128-165 string(): every use of an atomic counter is a load; the
    divisor is loaded after the bucket has been added. *)
Definition distribution (mk : nat -> ctr) (lb : Z -> label) (bounds : list Z) (d : ctr) : list jstep :=
  JClear :: flat_map (fun ib => [JCount (mk (fst ib)); JPercent (lb (snd ib)) d]) (combine (seq 0 8) bounds).
Definition string_steps : list jstep :=
  map JShow [CInit; CResets; CDestruct; CAlloc; CNewblock; CSpaceAllocated; CSpaceUsed; CSpaceWasted; CSpaceResettled]
  ++ distribution CBucket LSize alloc_size_bucket CAlloc
  ++ distribution CLife LLife destruct_lifetime_bucket CDestruct
  ++ [JShowAll].

(** metrics.hpp:107-126 reset(): the keys stay in the map. *)
Definition reset_steps : list jstep :=
  map JStore ([CInit; CDestruct; CAlloc; CNewblock; CResets; CSpaceAllocated; CSpaceResettled; CSpaceUsed; CSpaceWasted]
              ++ map CBucket (seq 0 8) ++ map CLife (seq 0 8))
  ++ [JStoreAll].

(** A call in progress: what is left to do, the local variable count, the lines
    written so far (newest first), whether it is iterating over the map. *)
Record job := { j_todo : list jstep; j_count : Z; j_out : list (label * Z); j_inside : bool }.
Definition new_job (q : list jstep) : job := {| j_todo := q; j_count := 0; j_out := []; j_inside := false |}.

(** The global object with reporting threads and calls of string() and reset(). *)
Record gstate := { gs : mstate; jobs : list job }.
Inductive gaction := GThread (a : action) | GString | GReset | GJob (j : nat).
(** [GRace]: one thread iterates over the map or looks a key up while another inserts. *)
Inductive goutcome := GNext (s : gstate) | GDisabled | GRace | GFault.

Fixpoint upd_job (l : list job) (j : nat) (x : job) : list job :=
  match l, j with
  | [], _ => []
  | _ :: r, O => x :: r
  | y :: r, S k => y :: upd_job r k x
  end.

(** The key thread [t] is about to look up with operator[]. *)
Definition entering (s : mstate) (t : nat) : option Z :=
  match nth_error (m_threads s) t with
  | Some {| t_todo := Some (CLoc k :: _); t_inside := false |} => Some k
  | _ => None
  end.
(** Some thread is inserting a new key. *)
Definition inserting (s : mstate) : bool :=
  existsb (fun x => match inside_key x with Some k => negb (has_key k (g_keys s)) | None => false end) (m_threads s).

Definition store_zero (s : mstate) (c : ctr) : mstate :=
  {| m_threads := m_threads s; g_ctr := set_ctr (g_ctr s) c 0; g_keys := g_keys s |}.

Definition gstep (s : gstate) (a : gaction) : goutcome :=
  match a with
  | GThread b =>
      let race := match b with
                  | AEnter t => match entering (gs s) t with
                                | Some k => negb (has_key k (g_keys (gs s))) && existsb j_inside (jobs s)
                                | None => false end
                  | _ => false end in
      if race then GRace else
      match mstep (gs s) b with
      | Next m => GNext {| gs := m; jobs := jobs s |}
      | Disabled => GDisabled
      | Race => GRace
      end
  | GString => GNext {| gs := gs s; jobs := jobs s ++ [new_job string_steps] |}
  | GReset => GNext {| gs := gs s; jobs := jobs s ++ [new_job reset_steps] |}
  | GJob j =>
      match nth_error (jobs s) j with
      | Some {| j_todo := st :: q; j_count := n; j_out := out; j_inside := i |} =>
          let becomes x := GNext {| gs := gs s; jobs := upd_job (jobs s) j x |} in
          let iterate f :=
            if inserting (gs s) then GRace else
            becomes {| j_todo := map (fun k => f (CLoc k)) (g_keys (gs s)) ++ JLeave :: q; j_count := n; j_out := out; j_inside := true |} in
          match st with
          | JShow c => becomes {| j_todo := q; j_count := n; j_out := (LCounter c, g_ctr (gs s) c) :: out; j_inside := i |}
          | JClear => becomes {| j_todo := q; j_count := 0; j_out := out; j_inside := i |}
          | JCount c => becomes {| j_todo := q; j_count := add64 n (g_ctr (gs s) c); j_out := out; j_inside := i |}
          | JPercent l c =>
              if g_ctr (gs s) c =? 0 then GFault else
              becomes {| j_todo := q; j_count := n; j_out := (l, mul64 n 100 / g_ctr (gs s) c) :: out; j_inside := i |}
          | JStore c =>
              GNext {| gs := store_zero (gs s) c;
                       jobs := upd_job (jobs s) j {| j_todo := q; j_count := n; j_out := out; j_inside := i |} |}
          | JShowAll => iterate JShow
          | JStoreAll => iterate JStore
          | JLeave => becomes {| j_todo := q; j_count := n; j_out := out; j_inside := false |}
          end
      | _ => GDisabled
      end
  end.

Definition ginit (n : nat) : gstate := {| gs := minit n; jobs := [] |}.
