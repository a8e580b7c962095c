(** Model of arena/metrics.hpp. *)
Require Import ZArith List Bool.
From Verif Require Import Base ArenaSpec MetricsSpec.
Import ListNotations.
Open Scope Z_scope.

(** metrics.hpp:71-83 *)
Definition alloc_size_bucket : list Z := [64; 128; 256; 512; 1024; 2048; 4096; Z.shiftl 1 20].
Definition destruct_lifetime_bucket : list Z := [1; 5; 10; 50; 100; 200; 500; 1000].

Definition ctr_eqb (a b : ctr) : bool :=
  match a, b with
  | CInit, CInit | CDestruct, CDestruct | CAlloc, CAlloc | CNewblock, CNewblock | CResets, CResets
  | CSpaceAllocated, CSpaceAllocated | CSpaceResettled, CSpaceResettled
  | CSpaceUsed, CSpaceUsed | CSpaceWasted, CSpaceWasted => true
  | CBucket i, CBucket j | CLife i, CLife j => (i =? j)%nat
  | CLoc i, CLoc j => i =? j
  | _, _ => false
  end.

(** metrics.hpp:171-191 LocalArenaMetrics: the counters, and the keys present
    in the map arena_alloc_counter.  Keys "file:line" are abstract numbers. *)
Record local := { l_ctr : ctr -> Z; l_keys : list Z }.

Definition set_ctr (f : ctr -> Z) (c : ctr) (v : Z) : ctr -> Z := fun d => if ctr_eqb d c then v else f d.
Definition bump (l : local) (c : ctr) (n : Z) : local :=
  {| l_ctr := set_ctr (l_ctr l) c (add64 (l_ctr l c) n); l_keys := l_keys l |}.

(** metrics.hpp:193-207 reset *)
Definition local_reset : local := {| l_ctr := fun _ => 0; l_keys := [] |}.

(** metrics.hpp:209-216, 218-226: the loop, from bucket [i]. *)
Fixpoint increase_bucket (mk : nat -> ctr) (bounds : list Z) (i : nat) (x : Z) (l : local) : local :=
  match bounds with
  | [] => l
  | b :: r => if x <=? b then bump l (mk i) 1 else increase_bucket mk r (S i) x l
  end.
Definition increase_alloc_size_counter (l : local) (size : Z) : local :=
  increase_bucket CBucket alloc_size_bucket 0 size l.
Definition increase_destruct_lifetime_counter (l : local) (ms : Z) : local :=
  increase_bucket CLife destruct_lifetime_bucket 0 ms l.
(** metrics.hpp:228-231; operator[] inserts a missing key with value 0. *)
Definition increase_arena_alloc_counter (l : local) (key size : Z) : local :=
  bump {| l_ctr := l_ctr l;
          l_keys := if existsb (Z.eqb key) (l_keys l) then l_keys l else key :: l_keys l |} (CLoc key) size.

(** metrics.hpp:270-308, the five probes. *)
Definition on_init (l : local) : local := bump l CInit 1.
Definition on_allocation (l : local) (size key : Z) : local :=
  increase_arena_alloc_counter
    (increase_alloc_size_counter (bump (bump l CAlloc 1) CSpaceAllocated size) size) key size.
Definition on_newblock (l : local) : local := bump l CNewblock 1.
Definition on_reset (l : local) (used wasted : Z) : local :=
  bump (bump (bump l CResets 1) CSpaceResettled used) CSpaceWasted wasted.
Definition on_destruction (l : local) (used wasted ms : Z) : local :=
  increase_destruct_lifetime_counter
    (bump (bump (bump l CDestruct 1) CSpaceUsed used) CSpaceWasted wasted) ms.

Definition apply_probe (l : local) (p : probe) : local :=
  match p with
  | PInit => on_init l
  | PAlloc n loc => on_allocation l n loc
  | PNewBlock => on_newblock l
  | PReset u w => on_reset l u w
  | PDestroy u w t => on_destruction l u w t
  end.

(** metrics.hpp:233-258 report_to_global_metrics adds the counters one by one
    in this order; the map keys come last (in unspecified order in C++). *)
Definition fixed_counters : list ctr :=
  [CInit; CResets; CAlloc; CNewblock; CDestruct; CSpaceAllocated; CSpaceUsed; CSpaceWasted; CSpaceResettled]
  ++ map CBucket (seq 0 8) ++ map CLife (seq 0 8).
Definition report_order (l : local) : list ctr := fixed_counters ++ map CLoc (l_keys l).

(** One thread: its thread_local metrics; [t_todo = Some q]: inside
    report_to_global_metrics with the counters [q] still to be added;
    [t_inside]: inside unordered_map::operator[] of the global map. *)
Record thread := { t_local : local; t_todo : option (list ctr); t_inside : bool }.
Record mstate := { m_threads : list thread; g_ctr : ctr -> Z; g_keys : list Z }.

Inductive action :=
| AProbe (t : nat) (p : probe)      (* a probe runs to completion: it is thread-local *)
| AReport (t : nat)                 (* report_to_global_metrics is called *)
| AEnter (t : nat)                  (* operator[] of the global map begins *)
| AAdd (t : nat)                    (* the next fetch_add *)
| AEnd (t : nat).                   (* reset() and return *)

(** [Race]: two threads in unordered_map::operator[], one of them inserting. *)
Inductive outcome := Next (s : mstate) | Disabled | Race.

Fixpoint upd_thread (l : list thread) (t : nat) (x : thread) : list thread :=
  match l, t with
  | [], _ => []
  | _ :: r, O => x :: r
  | y :: r, S k => y :: upd_thread r k x
  end.
Definition with_thread (s : mstate) (t : nat) (x : thread) : mstate :=
  {| m_threads := upd_thread (m_threads s) t x; g_ctr := g_ctr s; g_keys := g_keys s |}.
Definition has_key (k : Z) (l : list Z) : bool := existsb (Z.eqb k) l.

(** The key a thread inside operator[] is looking up. *)
Definition inside_key (x : thread) : option Z :=
  if t_inside x then match t_todo x with Some (CLoc k :: _) => Some k | _ => None end else None.

Definition mstep (s : mstate) (a : action) : outcome :=
  match a with
  | AProbe t p =>
      match nth_error (m_threads s) t with
      | Some {| t_local := l; t_todo := None; t_inside := b |} =>
          Next (with_thread s t {| t_local := apply_probe l p; t_todo := None; t_inside := b |})
      | _ => Disabled
      end
  | AReport t =>
      match nth_error (m_threads s) t with
      | Some {| t_local := l; t_todo := None; t_inside := b |} =>
          Next (with_thread s t {| t_local := l; t_todo := Some (report_order l); t_inside := b |})
      | _ => Disabled
      end
  | AEnter t =>
      match nth_error (m_threads s) t with
      | Some {| t_local := l; t_todo := Some (CLoc k :: r); t_inside := false |} =>
          if existsb (fun x => match inside_key x with
                               | Some k' => negb (has_key k' (g_keys s)) || negb (has_key k (g_keys s))
                               | None => false end) (m_threads s)
          then Race
          else Next (with_thread s t {| t_local := l; t_todo := Some (CLoc k :: r); t_inside := true |})
      | _ => Disabled
      end
  | AAdd t =>
      match nth_error (m_threads s) t with
      | Some {| t_local := l; t_todo := Some (c :: r); t_inside := b |} =>
          match c, b with
          | CLoc _, false => Disabled
          | _, _ =>
              Next {| m_threads := upd_thread (m_threads s) t {| t_local := l; t_todo := Some r; t_inside := false |};
                      g_ctr := set_ctr (g_ctr s) c (add64 (g_ctr s c) (l_ctr l c));
                      g_keys := match c with
                                | CLoc k => if has_key k (g_keys s) then g_keys s else k :: g_keys s
                                | _ => g_keys s end |}
          end
      | _ => Disabled
      end
  | AEnd t =>
      match nth_error (m_threads s) t with
      | Some {| t_local := l; t_todo := Some []; t_inside := b |} =>
          Next (with_thread s t {| t_local := local_reset; t_todo := None; t_inside := b |})
      | _ => Disabled
      end
  end.

Definition idle_thread : thread := {| t_local := local_reset; t_todo := None; t_inside := false |}.
Definition minit (n : nat) : mstate := {| m_threads := repeat idle_thread n; g_ctr := fun _ => 0; g_keys := [] |}.

(** metrics.hpp:128-165 GlobalArenaMetrics::string(): the two lists of
    percentages (the rest is text).  Division by a zero counter is undefined. *)
Fixpoint percentages (g : ctr -> Z) (mk : nat -> ctr) (n i : nat) (count denominator : Z) : res (list Z) :=
  match n with
  | O => Ok []
  | S k =>
      let count' := add64 count (g (mk i)) in
      if denominator =? 0 then Undef else
      do r <- percentages g mk k (S i) count' denominator;
      Ok (mul64 count' 100 / denominator :: r)
  end.
Definition global_string (g : ctr -> Z) : res (list Z * list Z) :=
  do a <- percentages g CBucket 8 0 0 (g CAlloc);
  do b <- percentages g CLife 8 0 0 (g CDestruct);
  Ok (a, b).

(** The probes as arena hooks.  [clock h]: steady_clock::now() (nanoseconds)
    after history [h]; [site h]: the source location of the initialisation.
    Cookies are heap objects ArenaMetricsCookie (metrics.hpp:262-268): creation
    time and location. *)
Record hooked_metrics := { hm_local : local; hm_cookies : Z -> option (Z * Z) }.

Definition feed (clock site : history -> Z) (h : history) (ev : event) (m : hooked_metrics) : res hooked_metrics :=
  match ev with
  | HInit _ c =>
      Ok {| hm_local := on_init (hm_local m);
            hm_cookies := fun k => if k =? c then Some (clock h, site h) else hm_cookies m k |}
  | HAlloc _ _ size c =>
      match hm_cookies m c with
      | None => Undef                    (* cookie null or deleted *)
      | Some (_, loc) => Ok {| hm_local := on_allocation (hm_local m) size loc; hm_cookies := hm_cookies m |}
      end
  | HNewBlock _ _ _ _ => Ok {| hm_local := on_newblock (hm_local m); hm_cookies := hm_cookies m |}
  | HReset _ _ u w => Ok {| hm_local := on_reset (hm_local m) u w; hm_cookies := hm_cookies m |}
  | HDestroy _ c u w =>
      match hm_cookies m c with
      | None => Undef
      | Some (t0, _) =>
          Ok {| hm_local := on_destruction (hm_local m) u w (Z.quot (clock h - t0) 1000000);
                hm_cookies := fun k => if k =? c then None else hm_cookies m k |}
      end
  | _ => Ok m
  end.

Fixpoint metrics_of (clock site : history -> Z) (h : history) : res hooked_metrics :=
  match h with
  | [] => Ok {| hm_local := local_reset; hm_cookies := fun _ => None |}
  | ev :: r => do m <- metrics_of clock site r; feed clock site r ev m
  end.
