(** Which calls the theorems on stdb_vector are about, and the executions made of them. *)
Require Import ZArith List Bool.
From Verif Require Import Base VecSpec VecModel.
Import ListNotations.
Open Scope Z_scope.

Definition HALF : Z := 9223372036854775808.

(** malloc refuses more than PTRDIFF_MAX bytes. *)
Definition malloc_sane (mal : Z -> bool) : Prop := forall n, mal n = true -> n < HALF.
(** sizeof(T); larger types make the next capacity 0. *)
Definition size_ok (sz : Z) : Prop := 0 < sz <= 131072.

(** The operation compiles for the kind of element and does not assign to raw
    memory or duplicate an owner. *)
Definition kind_ok (k : kind) (o : uop) : Prop :=
  match k, o with
  | KReloc, (UAssignRange _ | UPush _ _ | UPushMove _ _ | UInsert _ _ _ | UInsertMove _ _ _
            | UInsertN _ _ _ _ | UInsertRange _ _ _ | UEmplace _ _ _) => False
  | KCopy, (UPushMove _ _ | UInsertMove _ _ _) => False
  | _, _ => True
  end.

Definition is_val (r : ref) : Prop := match r with Val _ => True | Elem _ => False end.

Section Allowed.
Variable k : kind.
Variable sz : Z.
Variable dbg : bool.
Variable mal : Z -> bool.

(** [n] elements can be asked for without overflow of the byte count. *)
Definition fits (n : Z) : Prop := 0 <= n /\ n * sz < M64.
(** The unchecked malloc of a vector without a buffer succeeds. *)
Definition null_ok (b : option buf) (n : Z) : Prop := match b with None => mal (n * sz) = true | Some _ => True end.
(** The capacity asked for when [n] elements are needed. *)
Definition cap_for (cap n : Z) : Z := Z.max (next_capacity sz cap) n.
(** Room for [n] more elements, or allowed to grow. *)
Definition room (safe : bool) (b : option buf) (size cap n : Z) : Prop :=
  if safe then fits (size + n) /\ (cap < size + n -> null_ok b (cap_for cap (size + n)))
  else size + n <= cap.

Definition allowed (v : vec) (o : uop) : Prop :=
  match v with
  | Broken => False
  | Vec b size cap =>
      kind_ok k o /\
      match o with
      | UAssignN n r => is_val r /\ (0 < n \/ n = 0 /\ dbg = false) /\ fits n
      | UAssignRange l => (l <> [] \/ size = 0) /\ fits (len l)
      | UShrink | UClear => True
      | UReserve n => fits n /\ (cap < n -> null_ok b n)
      | UFill safe n l => room safe b size cap n
      | UWriteBuffer safe l =>
          size + len l <= cap \/
          safe = true /\ fits (len l) /\ (cap < len l \/ dbg = false) /\
          size + len l <= cap_for cap (len l) /\ null_ok b (cap_for cap (len l))
      | UPush safe _ | UPushMove safe _ | UEmplaceBack safe _ => safe = true \/ size < cap
      | UErase _ | UEraseRange _ _ | UPop | USet _ _ | UEraseIf _ => True
      | UEraseVal r => is_val r
      | UResize n => fits n /\ (cap < n -> null_ok b n)
      | UResizeUnsafe l => fits (size + len l) /\ (cap < size + len l -> null_ok b (size + len l))
      | UResizeVal n r => is_val r /\ fits n /\ (cap < n -> null_ok b n)
      | UInsert safe _ r | UEmplace safe _ r =>
          is_val r /\ (size < cap \/ safe = true /\ null_ok b (next_capacity sz cap))
      | UInsertMove safe _ _ => size < cap \/ safe = true /\ null_ok b (next_capacity sz cap)
      | UInsertN safe _ n r => is_val r /\ room safe b size cap n
      | UInsertRange safe _ l => room safe b size cap (len l)
      end
  end.

Definition allowed_v (s : vsys) (o : vop) : Prop :=
  match o with
  | VNewN n | VNewFill n _ => fits n
  | VNewRange l => k <> KReloc /\ fits (len l)
  | VCopy _ | VAssign _ _ => k <> KReloc
  | VNew | VMove _ | VAssignMove _ _ | VSwap _ _ | VDestroy _ => True
  | VOn i o => match nth_error (vs s) i with Some (Some v) => allowed v o | _ => False end
  end.
End Allowed.

Definition unbroken (s : vsys) : Prop := forall i, nth_error (vs s) i <> Some (Some Broken).

(** Programs: each step has its own malloc.  [ss]: what the vectors should contain. *)
Inductive vreach (k : kind) (sz : Z) (dbg : bool) : vsys -> list (option (list Z)) -> Prop :=
| vreach_init : vreach k sz dbg vinit []
| vreach_done s ss mal o s' r ss' r' :
    vreach k sz dbg s ss -> malloc_sane mal -> allowed_v k sz dbg mal s o ->
    vapply o ss = Some (ss', r') -> vstep k sz dbg mal s o = Ok (s', Done r) ->
    vreach k sz dbg s' ss'
| vreach_threw s ss mal o s' x :
    vreach k sz dbg s ss -> malloc_sane mal -> allowed_v k sz dbg mal s o ->
    vapply o ss = Some x -> vstep k sz dbg mal s o = Ok (s', Threw) -> unbroken s' ->
    vreach k sz dbg s' (vthrow o ss).

(** What the client can see of one vector. *)
Definition shows (dbg : bool) (v : vec) (l : list Z) : Prop :=
  viterate v = Ok l /\ vsize v = Ok (len l) /\ vempty v = Ok (match l with [] => true | _ => false end) /\
  (exists c, vcapacity v = Ok c /\ len l <= c) /\
  (forall i x, at_ l i = Some x -> vat dbg v i = Ok x) /\
  (forall x r, l = x :: r -> vfront dbg v = Ok x) /\
  (forall x r, l = r ++ [x] -> vback dbg v = Ok x).

(** [n] elements appended one at a time by operations that may grow the buffer;
    [m] adds up the sizes at the reallocations. *)
Definition appends (o : uop) : Prop :=
  match o with UPush safe _ | UPushMove safe _ | UEmplaceBack safe _ => safe = true | _ => False end.
Inductive appended (k : kind) (sz : Z) (dbg : bool) (v : vec) (a : acct) : Z -> Z -> vec -> acct -> Prop :=
| app_none : appended k sz dbg v a 0 0 v a
| app_more n m v1 a1 mal o v2 a2 r size cap cap' :
    appended k sz dbg v a n m v1 a1 -> malloc_sane mal -> appends o ->
    run_uop k sz dbg mal v1 a1 o = Ok (v2, a2, Done r) ->
    vsize v1 = Ok size -> vcapacity v1 = Ok cap -> vcapacity v2 = Ok cap' ->
    appended k sz dbg v a (n + 1) (m + if cap =? cap' then 0 else size) v2 a2.

(** Operations that ask for a buffer even if the elements fit. *)
Definition asks_for_buffer (v : vec) (o : uop) : Prop :=
  match v, o with
  | _, UShrink => True
  | Vec _ _ cap, UReserve n => cap < n
  | _, _ => False
  end.
