(** Property theorems C03, C04, C05. *)
From Coq Require Import ZArith Lia.
From Verif Require Import IntModel IntSpec IntProofs.
Local Open Scope Z_scope.

(** C03 (signed types): whatever is returned is the exact truncated division of the mathematical product. *)
Theorem C03_prod_div_signed_exact :
  forall (t : ity) (N k K q r : Z),
    signed t = true -> 2 <= width t ->
    imin t <= N <= imax t -> imin t <= k <= imax t -> imin t <= K <= imax t ->
    prod_div t N k K = Ok (q, r) ->
    truncated_division (N * k) K q r.
Proof. exact prod_div_signed_exact_spec. Qed.
Print Assumptions C03_prod_div_signed_exact.

(** The 32-bit product 300000 * -10000 does not fit, yet the answer comes back exact. *)
Example C03_prod_div_signed_exact_nonvacuous :
  prod_div int32 300000 (-10000) 777 = Ok (-3861003, -669) /\
  2147483647 < Z.abs (300000 * -10000) /\
  signed int32 = true /\ 2 <= width int32.
Proof. split; [vm_compute; reflexivity|]. repeat split; simpl; lia. Qed.

(** C03/C04, definedness (every type, signed or unsigned): with a nonzero positive [N] and enough room
    for the intermediate product, the call is defined and exact. *)
Theorem C03_prod_div_defined :
  forall (t : ity) (N k K : Z),
    2 <= width t ->
    0 < N <= imax t -> 0 <= k <= imax t -> 0 < K <= imax t ->
    2 * K * k <= imax t -> N * k / K <= imax t ->
    prod_div t N k K = Ok (N * k / K, N * k mod K).
Proof. exact prod_div_total. Qed.
Print Assumptions C03_prod_div_defined.

Example C03_prod_div_defined_nonvacuous :
  2 * 100 * 99 <= imax int64 /\ (2 ^ 62) * 99 / 100 <= imax int64 /\ imax int64 < 2 ^ 62 * 99.
Proof. vm_compute. repeat split; congruence. Qed.

(** C04 is violated: [N = 0] divides by zero for every [k >= 0] and every [K]; [N = -1] overflows. *)
Theorem C04_prod_div_zero_refuted :
  forall (t : ity) (k K : Z), 0 <= k -> prod_div t 0 k K = UB DivByZero.
Proof. exact prod_div_zero. Qed.
Print Assumptions C04_prod_div_zero_refuted.

Theorem C04_prod_div_minus_one_refuted :
  forall (t : ity) (k K : Z), 2 <= width t -> signed t = true -> 0 <= k ->
    prod_div t (-1) k K = UB Overflow.
Proof. exact prod_div_minus_one. Qed.
Print Assumptions C04_prod_div_minus_one_refuted.

(** C04 is violated also when the true quotient is small: the signed loop overflows ... *)
Theorem C04_prod_div_intermediate_overflow_refuted :
  exists N k K, imin int32 <= N <= imax int32 /\ imin int32 <= k <= imax int32 /\
    imin int32 <= K <= imax int32 /\ K <> 0 /\
    imin int32 <= Z.quot (N * k) K <= imax int32 /\ prod_div int32 N k K = UB Overflow.
Proof. exact prod_div_intermediate_overflow. Qed.
Print Assumptions C04_prod_div_intermediate_overflow_refuted.

(** ... and the unsigned instance returns a wrong quotient without any error. *)
Theorem C03_prod_div_unsigned_refuted :
  exists N k K q r, 0 < N <= imax uint32 /\ 0 < k <= imax uint32 /\ 0 < K <= imax uint32 /\
    N * k / K <= imax uint32 /\
    prod_div uint32 N k K = Ok (q, r) /\ ~ truncated_division (N * k) K q r.
Proof. exact prod_div_unsigned_wrong. Qed.
Print Assumptions C03_prod_div_unsigned_refuted.

(** C05: the percentage shown while event number [i] of [n] is processed. *)
Theorem C05_progress_percent :
  forall (n : Z) (i : nat), 0 < n <= 2 ^ 63 - 1 -> Z.of_nat i < n ->
    exists next rem,
      progress_run n i = Some (Ok (100 * Z.of_nat i / n, next, rem)).
Proof. exact progress_percent. Qed.
Print Assumptions C05_progress_percent.

Example C05_progress_percent_nonvacuous :
  0 < 2 ^ 63 - 1 <= 2 ^ 63 - 1 /\ Z.of_nat 1000 < 2 ^ 63 - 1 /\
  progress_run 7 5 = Some (Ok (71, 5, 4)).
Proof. split; [lia|]. split; [vm_compute; reflexivity|vm_compute; reflexivity]. Qed.
