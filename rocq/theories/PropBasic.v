(** Properties C01 (rounding) and C02 (size literals). *)
Require Import ZArith List Bool Lia.
From Verif Require Import Base AlignModel LiteralsModel BasicSpec BasicProofs.
Import ListNotations.
Open Scope Z_scope.

(** C01.  Whenever the least multiple of N above n fits in 64 bits,
    [AlignUpTo<N>] (for every N its static_asserts admit) returns it. *)
Theorem C01_AlignUpTo_least_multiple : forall N n,
  align_template_ok N = true -> word N -> word n ->
  (exists m, least_multiple_above N n m /\ m < M64) ->
  least_multiple_above N n (AlignUpTo N n).
Proof. exact AlignUpTo_spec'. Qed.
Print Assumptions C01_AlignUpTo_least_multiple.

Example C01_AlignUpTo_case :
  align_template_ok 4096 = true /\ AlignUpTo 4096 4097 = 8192 /\ AlignUpTo 8 0 = 0 /\
  AlignUpTo 8 (M64 - 8) = M64 - 8.
Proof. repeat split; vm_compute; reflexivity. Qed.

(** The static_asserts admit exactly powers of two (at least 8). *)
Theorem C01_template_condition : forall N,
  word N -> align_template_ok N = true -> power_of_two N /\ 8 <= N.
Proof. exact align_template_ok_pow2. Qed.
Print Assumptions C01_template_condition.

Theorem C01_AlignUp_least_multiple : forall n b,
  word n -> word b -> 0 < b ->
  (exists m, least_multiple_above b n m /\ m < M64) ->
  exists m, AlignUp n b = Ok m /\ least_multiple_above b n m.
Proof. exact AlignUp_spec. Qed.
Print Assumptions C01_AlignUp_least_multiple.

Example C01_AlignUp_case :
  AlignUp 5000 4096 = Ok 8192 /\ AlignUp 4096 4096 = Ok 4096 /\ AlignUp 7 3 = Ok 9 /\ AlignUp 7 0 = Undef.
Proof. repeat split; vm_compute; reflexivity. Qed.

(** Beyond the representable range the result wraps to 0: the hypothesis of
    [C01_AlignUpTo_least_multiple] is needed (see DESIGN.md, finding A1). *)
Theorem C01_AlignUpTo_unconditional_refuted :
  exists n, word n /\ AlignUpTo 8 n < n.
Proof. exists (M64 - 1). vm_compute. repeat split; congruence. Qed.
Print Assumptions C01_AlignUpTo_unconditional_refuted.

(** C02. *)
Theorem C02_literals_exact : forall str,
  decimal_text str ->
  (decimal_value str * 1024 < M64 -> lit_KB str = Some (decimal_value str * 1024)) /\
  (decimal_value str * 1024 ^ 2 < M64 -> lit_MB str = Some (decimal_value str * 1024 ^ 2)) /\
  (decimal_value str * 1024 ^ 3 < M64 -> lit_GB str = Some (decimal_value str * 1024 ^ 3)).
Proof. exact literals_exact. Qed.
Print Assumptions C02_literals_exact.

Theorem C02_literals_wrap : forall str,
  decimal_text str ->
  lit_KB str = Some ((decimal_value str * 1024) mod M64) /\
  lit_MB str = Some ((decimal_value str * 1024 ^ 2) mod M64) /\
  lit_GB str = Some ((decimal_value str * 1024 ^ 3) mod M64).
Proof. exact literals_mod. Qed.
Print Assumptions C02_literals_wrap.

Theorem C02_literals_reject : forall str,
  ~ decimal_text str -> lit_KB str = None /\ lit_MB str = None /\ lit_GB str = None.
Proof. exact literals_reject. Qed.
Print Assumptions C02_literals_reject.

(** "16" = [49;54]; "1x" is rejected. *)
Example C02_case :
  decimal_value [49; 54] = 16 /\ lit_KB [49; 54] = Some 16384 /\ lit_GB [49; 54] = Some 17179869184
  /\ lit_KB [49; 120] = None.
Proof. repeat split; vm_compute; reflexivity. Qed.
