(** C102: drawing the photon variable R in double arithmetic. *)
From Coq Require Import Reals ZArith Lia Lra.
From Flocq Require Import Core.
From Coquelicot Require Rcomplements.
From Verif Require Import ExtModel BoundModel TextModel FMathSpec FMathSeries FMathDilog FMathSqrt FMathProps FMapModel FMapProofs FMapProps FLogModel FLogSpec FLogProofs FLogNeg.
Local Open Scope R_scope.

(** For an offset [r] and limits 0 <= a < b whose distances from [-r] have logarithms of size at most [L]: the error is small against R + r, not against R. *)
Theorem C102_R log exp r p a b L : log_exp (2 * / 2 ^ 53) log exp -> unit_double p -> 0 < r -> 0 <= a -> a + r <= (1 - / 2 ^ 40) * (b + r) ->
  Rabs (ln (a + r)) <= L -> Rabs (ln (b + r)) <= L -> L <= 100 ->
  exists x, fst (f_R log exp r p (Bnd (Fin a) (Fin b))) = Fin x /\ Rabs (x - drawn_log r p a b) <= / 2 ^ 53 * (5 + 6 * L) * (drawn_log r p a b + r) + bpow radix2 (-1075).
Proof.
  rewrite e53. intros LIB U R0 A AB LA LB L1. pose proof (unit_range p U) as P. apply R_err; try assumption; [exact (unit_fmt p U)|]. destruct U as (_ & _ & U). lra.
Qed.
Theorem C102_jacobian log exp r p a b L : log_exp (2 * / 2 ^ 53) log exp -> unit_double p -> 0 < r -> 0 <= a -> a + r <= (1 - / 2 ^ 40) * (b + r) ->
  Rabs (ln (a + r)) <= L -> Rabs (ln (b + r)) <= L -> L <= 100 ->
  exists j, snd (f_R log exp r p (Bnd (Fin a) (Fin b))) = Fin j /\
  Rabs (j - slope_log r p a b) <= / 2 ^ 53 * (drawn_log r p a b + r) * (3 + 7 * L + (5 + 6 * L) * ln ((b + r) / (a + r))) + bpow radix2 (-1075).
Proof.
  rewrite e53. intros LIB U R0 A AB LA LB L1. pose proof (unit_range p U) as P. apply R_jac; try assumption; [exact (unit_fmt p U)|]. destruct U as (_ & _ & U). lra.
Qed.
Theorem C102_slope r p a b : 0 < a + r -> 0 < b + r -> derivable_pt_lim (fun p => drawn_log r p a b) p (slope_log r p a b).
Proof. exact (drawn_slope r p a b). Qed.
(** Whatever the library's functions and the limits: R is zero, or at least 2^-54 of the offset. No photon softer than that is ever drawn. *)
Theorem C102_floor log exp r p bnd x : double r -> bpow radix2 (-900) <= r -> (forall u, double (exp u)) ->
  fst (f_R log exp r p bnd) = Fin x -> x = 0 \/ r * bpow radix2 (-54) <= Rabs x.
Proof. intros (FR & _) R0 FE. apply drawn_floor; [exact FR|exact R0|]. intros u. exact (proj1 (FE u)). Qed.
(** Refuted: that the value drawn is within the limits asked for. With correctly rounded log and exp, an offset of 1/2048 GeV^2 and limits from 0,
    the coordinate 0 gives a negative R, that is, a photon of negative energy. *)
Theorem C102_nonnegative_refuted log exp b : (forall x, double x -> 0 < x -> log x = RN (ln x)) -> (forall x, double x -> Rabs x <= 600 -> exp x = RN (Rtrigo_def.exp x)) ->
  double b -> 1 <= b <= bpow radix2 100 ->
  exists x, fst (f_R log exp (bpow radix2 (-11)) 0 (Bnd (Fin 0) (Fin b))) = Fin x /\ x < 0.
Proof. exact (drawn_negative log exp b). Qed.
(** Without an offset, as for a missing mass at its threshold: R is zero for every coordinate and the weight is NaN. *)
Theorem C102_threshold log exp p b : unit_double p -> 0 < p -> 0 <= b -> f_R log exp 0 p (Bnd (Fin 0) (Fin b)) = (Fin 0, NaN).
Proof. intros U P B. apply drawn_threshold; [|exact (unit_fmt p U)|exact B]. destruct U as (_ & _ & U). lra. Qed.
(** The correctly rounded functions are among those meant. *)
Theorem C102_library : log_exp (2 * / 2 ^ 53) (fun x => RN (ln x)) (fun x => RN (exp x)).
Proof. rewrite e53. exact rounded_ok. Qed.
Print Assumptions C102_R. Print Assumptions C102_jacobian. Print Assumptions C102_slope. Print Assumptions C102_floor. Print Assumptions C102_nonnegative_refuted. Print Assumptions C102_threshold. Print Assumptions C102_library.
(** An offset of 1/2048 and limits 0 and 2 - 1/2048: the middle of the range is drawn at R = 1/32 - 1/2048. *)
Example C102_example : let log := fun x => RN (ln x) in let exp := fun x => RN (exp x) in let r := / 2048 in
  log_exp (2 * / 2 ^ 53) log exp /\ unit_double (1 / 2) /\
  (exists x, fst (f_R log exp r (1 / 2) (Bnd (Fin 0) (Fin (2 - r)))) = Fin x /\ Rabs (x - (/ 32 - / 2048)) <= / 10 ^ 14) /\
  (exists x, fst (f_R log exp r 0 (Bnd (Fin 0) (Fin 1))) = Fin x /\ x < 0).
Proof.
  intros log exp r. split; [exact C102_library|]. assert (D1 : double 1) by (apply small_double; [change 1 with (bpow radix2 0); apply fmt_bpow; lia|rewrite Rabs_R1; lra]).
  assert (U : unit_double (1 / 2)). { split; [|split; [right; apply Rle_trans with (bpow radix2 (-1)); [apply bpow_le; lia|cbn; lra]|lra]]. apply small_double; [|apply Rabs_le; lra]. replace (1 / 2) with (bpow radix2 (-1)) by (cbn; lra). apply fmt_bpow. lia. }
  split; [exact U|]. pose proof ln2_tight as T. assert (E11 : r = bpow radix2 (-11)) by (unfold r; cbn; lra). assert (L1 : ln r = - (11) * ln 2) by (rewrite E11, ln_bpow; f_equal; lra).
  split.
  - assert (D : drawn_log r (1 / 2) 0 (2 - r) = / 32 - / 2048).
    { unfold drawn_log, Rpower. rewrite Rplus_0_l. replace (2 - r + r) with 2 by ring. rewrite <- exp_plus, L1. replace ((1 - 1 / 2) * (- (11) * ln 2) + 1 / 2 * ln 2) with (-5 * ln 2) by (replace (-5) with (- (5)) by lra; lra). rewrite <- ln_bpow, exp_ln by apply bpow_gt_0. unfold r. cbn. lra. }
    destruct (C102_R log exp r (1 / 2) 0 (2 - r) 8 C102_library U) as (x & E & X); try lra; try (unfold r; lra).
    + rewrite Rplus_0_l, L1. apply Rabs_le. lra.
    + replace (2 - r + r) with 2 by ring. apply Rabs_le. lra.
    + exists x. split; [exact E|]. rewrite D, e53 in X. eapply Rle_trans; [exact X|]. pose proof eta_u0. unfold r. cbn [pow]. lra.
  - rewrite E11. apply C102_nonnegative_refuted; [reflexivity|reflexivity|exact D1|]. split; [lra|]. change 1 with (bpow radix2 0). apply bpow_le. lia.
Qed.
Print Assumptions C102_example.
