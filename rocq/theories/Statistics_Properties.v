(** C46, C51, C52: p-values, likelihoods and the maximum gap method. *)
From Coq Require Import Reals ZArith String Lia Lra Bool.
From Coquelicot Require Import Coquelicot.
From Coq Require Import List Permutation.
From Verif Require Import Base XrFacts Quadrature Interpolation Nucleus_Model Particle_Model CrossSection_Model Distribution_Model Atom_Model
  Crystal_Model Rates_Model Crystal_Proofs Detector_Model DetectorTypes_Model Poisson_Proofs MaxGap_Proofs.
Import ListNotations.
Local Open Scope R_scope.

(** C46: more observed events never make the p-value smaller (strictly larger as soon as something is expected). *)
Theorem C46_counts : forall X V d d1 d2 p n1 n2 s b, ideal_statistics X -> predictions_ignore_data V -> direct d ->
  Set_Observed_Events n1 d = Ok d1 -> Set_Observed_Events n2 d = Ok d2 -> (0 <= n1 < n2)%Z ->
  b_background d = Fin b -> 0 <= b -> v_total V d p = Ok (Fin s) -> 0 <= s ->
  exists q1 q2, P_Value X V d1 p = Ok (Fin q1) /\ P_Value X V d2 p = Ok (Fin q2) /\ q1 <= q2 /\ (0 < s + b -> q1 < q2).
Proof. exact p_value_counts. Qed.
Print Assumptions C46_counts.

(** More expected background makes it smaller. *)
Theorem C46_background : forall X V d d1 d2 p b1 b2 s, ideal_statistics X -> predictions_ignore_data V -> direct d ->
  Set_Expected_Background (Fin b1) d = Ok d1 -> Set_Expected_Background (Fin b2) d = Ok d2 -> 0 <= b1 < b2 ->
  (0 <= b_observed d)%Z -> v_total V d p = Ok (Fin s) -> 0 <= s ->
  exists q1 q2, P_Value X V d1 p = Ok (Fin q1) /\ P_Value X V d2 p = Ok (Fin q2) /\ q2 < q1.
Proof. exact p_value_background. Qed.
Print Assumptions C46_background.

(** The binned p-value is the smallest of the p-values of the bins, each the probability of at most the observed number of events. *)
Theorem C46_smallest_bin : forall X V d p l, ideal_statistics X -> direct d -> has_bins V d p l -> Forall good_bin l -> l <> [] ->
  exists q, P_Value X V d p = Ok (Fin q) /\ least q (map bin_p l).
Proof. exact p_value_least. Qed.
Print Assumptions C46_smallest_bin.

(** Hence with more events and less expected in every bin it is not smaller. *)
Theorem C46_bins : forall X V d1 d2 p1 p2 l1 l2, ideal_statistics X -> direct d1 -> direct d2 ->
  has_bins V d1 p1 l1 -> has_bins V d2 p2 l2 -> Forall good_bin l1 -> Forall good_bin l2 -> l1 <> [] ->
  Forall2 (fun x y => signal x <= signal y /\ background x <= background y /\ (count y <= count x)%Z) l1 l2 ->
  exists q1 q2, P_Value X V d1 p1 = Ok (Fin q1) /\ P_Value X V d2 p2 = Ok (Fin q2) /\ q2 <= q1.
Proof. exact p_value_bin_order. Qed.
Print Assumptions C46_bins.

(** With no bin at all the minimum of nothing is dereferenced (excluded above by l <> []). *)
Theorem C46_no_bins : forall X V d p l, direct d -> b_analysis d = Binned_Poisson -> b_bins d = 0%Z -> v_binned V d p = Ok l ->
  P_Value X V d p = UB.
Proof. exact p_value_no_bins. Qed.
Print Assumptions C46_no_bins.

(** The predictions of the three detector classes meet the hypothesis [predictions_ignore_data]. *)
Theorem C46_nuclear : forall X D n, predictions_ignore_data (nuclear_virtuals X D n).
Proof. exact nuclear_ignores_data. Qed.
Print Assumptions C46_nuclear.

Theorem C46_ionization : forall X D s, predictions_ignore_data (ionization_virtuals X D s).
Proof. exact ionization_ignores_data. Qed.
Print Assumptions C46_ionization.

Theorem C46_semiconductor : forall X D s, predictions_ignore_data (semiconductor_virtuals X D s).
Proof. exact semiconductor_ignores_data. Qed.
Print Assumptions C46_semiconductor.

(** Instance: a detector predicting 3 events in all, 1 and 2 in two bins; background 1/2; 1 or 4 observed events. *)
Example C46_instance : exists V d d1 d2, predictions_ignore_data V /\ direct d /\ Set_Observed_Events 1 d = Ok d1 /\ Set_Observed_Events 4 d = Ok d2 /\
  b_background d = Fin (1 / 2) /\ (forall p, v_total V d p = Ok (Fin 3)) /\ ideal_statistics exact_statistics.
Proof.
  exists (mkVirtuals (fun _ _ => Ok (Fin 1000)) (fun _ _ => Ok (Fin 1)) (fun _ _ _ => Ok (Fin 1)) (fun _ _ => Ok (Fin 3)) (fun _ _ => Ok [Fin 1; Fin 2])).
  exists (with_background (Fin (1 / 2)) (Detector_ctor "example"%string (Fin 1) "Nuclei"%string)).
  do 2 eexists. split; [intros d d' p _; split; reflexivity|]. repeat (split; [reflexivity|]). apply exact_statistics_ideal.
Qed.
Example C46_instance_bins : exists V d p, has_bins V d p [mkBin 1 (1/2) 0; mkBin 2 0 3] /\ direct d /\ Forall good_bin [mkBin 1 (1/2) 0; mkBin 2 0 3].
Proof.
  exists (mkVirtuals (fun _ _ => Ok (Fin 1000)) (fun _ _ => Ok (Fin 1)) (fun _ _ _ => Ok (Fin 1)) (fun _ _ => Ok (Fin 3)) (fun _ _ => Ok [Fin 1; Fin 2])).
  exists (with_binned 2 [0; 3]%Z [Fin (1/2); Fin 0] [Fin 1; Fin 1] (Detector_ctor "example"%string (Fin 1) "Nuclei"%string)).
  exists (Particle_ctor SI (Fin 1) (Fin 1)). split; [|split; [reflexivity|repeat (apply Forall_cons || apply Forall_nil); unfold good_bin; cbn; repeat split; lra || lia]]. repeat split.
Qed.

(** C51: whenever the background is taken from the data (nominal value below 1e-4, more events than signal), or it is exactly 0, the log likelihood used is the largest over all backgrounds. *)
Theorem C51_best : forall X V d p s b, ideal_statistics X -> b_analysis d = Poisson -> (0 <= b_observed d)%Z ->
  b_background d = Fin b -> 0 <= b -> v_total V d p = Ok (Fin s) -> 0 <= s ->
  (b < 1.0e-4 /\ s < IZR (b_observed d)) \/ (b = 0 /\ 0 < s) ->
  exists L, Log_Likelihood X V d p = Ok (Fin L) /\
    (forall b', 0 <= b' -> 0 < s + b' -> log_probability (Z.to_nat (b_observed d)) (s + b') <= L) /\
    (exists b', 0 <= b' /\ 0 < s + b' /\ L = log_probability (Z.to_nat (b_observed d)) (s + b')).
Proof. exact log_likelihood_best. Qed.
Print Assumptions C51_best.

(** The same bin by bin: the sum is the largest over all choices of non-negative backgrounds, one for each bin. *)
Theorem C51_best_binned : forall X V d p l, ideal_statistics X -> has_bins V d p l -> Forall good_bin l -> Forall profiled_bin l ->
  exists L, Log_Likelihood X V d p = Ok (Fin L) /\
    forall b' : bin -> R, Forall (fun x => 0 <= b' x /\ 0 < signal x + b' x) l ->
      Rsum (map (fun x => log_probability (Z.to_nat (count x)) (signal x + b' x)) l) <= L.
Proof. exact log_likelihood_best_binned. Qed.
Print Assumptions C51_best_binned.

(** With a nominal background of at least 1e-4 the nominal value is used. *)
Theorem C51_nominal : forall X V d p s b, ideal_statistics X -> b_analysis d = Poisson -> (0 <= b_observed d)%Z ->
  b_background d = Fin b -> 1.0e-4 <= b -> v_total V d p = Ok (Fin s) -> 0 <= s ->
  Log_Likelihood X V d p = Ok (Fin (log_probability (Z.to_nat (b_observed d)) (s + b))).
Proof. exact log_likelihood_nominal. Qed.
Print Assumptions C51_nominal.

(** The proviso is needed: with a nominal background strictly between 0 and 1e-4 and at most as many events as signal, no background at all would be more probable. *)
Theorem C51_tiny_background : forall n s b b', (0 <= n)%Z -> 0 < s -> IZR n <= s -> 0 < b < 1.0e-4 -> b' = 0 ->
  log_probability (Z.to_nat n) (s + profiled_R b n s) < log_probability (Z.to_nat n) (s + b').
Proof. exact profile_second_choice. Qed.
Print Assumptions C51_tiny_background.

Example C51_instance : exists V d, b_analysis d = Poisson /\ b_observed d = 5%Z /\ b_background d = Fin 0 /\ (forall p, v_total V d p = Ok (Fin 3)) /\
  ideal_statistics exact_statistics.
Proof.
  exists (mkVirtuals (fun _ _ => Ok (Fin 1000)) (fun _ _ => Ok (Fin 1)) (fun _ _ _ => Ok (Fin 1)) (fun _ _ => Ok (Fin 3)) (fun _ _ => Ok [Fin 1; Fin 2])).
  exists (with_observed 5 (with_background (Fin 0) (Detector_ctor "example"%string (Fin 1) "Nuclei"%string))).
  repeat (split; [reflexivity|]). apply exact_statistics_ideal.
Qed.
Example C51_instance_bins : Forall good_bin [mkBin 1 0 4; mkBin 2 0 1] /\ Forall profiled_bin [mkBin 1 0 4; mkBin 2 0 1].
Proof.
  split; repeat (apply Forall_cons || apply Forall_nil); unfold good_bin, profiled_bin; cbn [signal background count]; repeat split; lra || lia.
Qed.

(** C52: for at least two events in any order (and fewer than 2^31), and every non-negative prediction whose total is not a multiple of the largest gap, the p-value is a number; it is at least exp(-x) - 1e-20 and at most 1 + 1e-20 (1e-20 is the size at which the code stops summing). *)
Theorem C52_number : forall l d0 d Interpolate deposit dRdE N x t, Use_Maximum_Gap (map Fin l) d0 = Ok d ->
  (2 <= List.length l)%nat -> (Z.of_nat (List.length l) <= 2 ^ 31)%Z -> Permutation l t -> ascending t ->
  predicts Interpolate deposit dRdE d N -> greatest x (gap_sizes N t) ->
  (forall k : nat, (2 <= k)%nat -> x = 0 \/ Rsum (gap_sizes N t) <> INR k * x) ->
  exists q, P_Value_Maximum_Gap Interpolate deposit dRdE d = Ok (Fin q) /\ exp (- x) - 1e-20 <= q <= 1 + 1e-20.
Proof. exact gap_p_value_user. Qed.
Print Assumptions C52_number.

(** A total that is twice the largest gap: whatever the spectrum, three events with equal gaps give not-a-number. *)
Theorem C52_equal_gaps : forall Interpolate deposit dRdE d N a b c x, predicts Interpolate deposit dRdE d N -> b_gap_data d = [Fin a; Fin b; Fin c] ->
  a <= b <= c -> N a b = x -> N b c = x -> 0 < x <= 40 ->
  P_Value_Maximum_Gap Interpolate deposit dRdE d = Ok NaN.
Proof. exact two_equal_gaps. Qed.
Print Assumptions C52_equal_gaps.

(** For example three events at 1, 2, 3 in a flat spectrum. *)
Theorem C52_nan_refuted : exists l d Interpolate deposit dRdE N,
  gap_example l = Ok d /\ predicts Interpolate deposit dRdE d N /\ (2 <= List.length l)%nat /\
  P_Value_Maximum_Gap Interpolate deposit dRdE d = Ok NaN.
Proof. exact example_nan. Qed.
Print Assumptions C52_nan_refuted.

(** A single event is undefined behaviour, for every spectrum: there is no gap. *)
Theorem C52_single : forall Interpolate deposit dRdE d N e, predicts Interpolate deposit dRdE d N -> b_gap_data d = [Fin e] ->
  P_Value_Maximum_Gap Interpolate deposit dRdE d = UB.
Proof. exact one_event. Qed.
Print Assumptions C52_single.

Theorem C52_single_refuted : exists l d Interpolate deposit dRdE N,
  gap_example l = Ok d /\ l <> [] /\ predicts Interpolate deposit dRdE d N /\
  P_Value_Maximum_Gap Interpolate deposit dRdE d = UB.
Proof. exact example_one_event. Qed.
Print Assumptions C52_single_refuted.

(** Instance: events at 4, 1, 2 meet the hypotheses of C52_number. *)
Theorem C52_instance_data : exists d, gap_example [4; 1; 2] = Ok d /\ predicts flat_integral (Ok (Fin 1000)) flat_rate d (fun a b => Rmax 0 (b - a)) /\
  Permutation [4; 1; 2] [1; 2; 4] /\ ascending [1; 2; 4] /\ greatest 2 (gap_sizes (fun a b => Rmax 0 (b - a)) [1; 2; 4]) /\
  (forall k : nat, (2 <= k)%nat -> 2 = 0 \/ Rsum (gap_sizes (fun a b => Rmax 0 (b - a)) [1; 2; 4]) <> INR k * 2).
Proof. exact example_number. Qed.
Print Assumptions C52_instance_data.
