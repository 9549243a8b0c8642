(** Electron numbers of an ionization event (C57). *)
From Coq Require Import Reals ZArith String Lia Lra Bool.
From Coquelicot Require Import Coquelicot.
From Coq Require Import List.
From Verif Require Import Base XrFacts Quadrature Nucleus_Model Nuclear_Model Particle_Model CrossSection_Model Distribution_Model Atom_Model Crystal_Model Crystal_Proofs Rates_Model
  Detector_Model DetectorTypes_Model DetectorWitness_Proofs DetectorBins_Proofs MaxGap_Proofs Poisson_Proofs.
Import ListNotations.
Local Open Scope R_scope.

(** libphysica::PMF_Binomial (external, /repo/src/Direct_Detection_Ionization.cpp:237), idealised: the exact probability; nothing is
    assumed about a negative number of successes or trials. *)
Definition ideal_binomial (PMF : Z -> xr -> Z -> res xr) : Prop := forall n p k, (0 <= n)%Z -> 0 <= p <= 1 -> (0 <= k)%Z ->
  PMF n (Fin p) k = Ok (Fin (if (k <=? n)%Z then Binomial.C (Z.to_nat n) (Z.to_nat k) * p ^ Z.to_nat k * (1 - p) ^ Z.to_nat (n - k) else 0)).
Lemma exact_binomial_ideal : ideal_binomial exact_binomial.
Proof.
  intros n p k N P K. unfold exact_binomial. replace (0 <=? k)%Z with true by (symmetry; apply Z.leb_le; auto). cbn [andb val]. destruct (k <=? n)%Z; reflexivity.
Qed.

(** * Specification: the numbers from 1 to n *)
Definition numbers (lo hi : Z) : list Z := map (fun i => (lo + Z.of_nat i)%Z) (seq 0 (Z.to_nat (hi - lo + 1))).
Lemma numbers_range lo hi : Zrange lo (hi + 1) = numbers lo hi.
Proof. unfold Zrange, numbers. do 3 f_equal. lia. Qed.
Lemma numbers_In lo hi n : In n (numbers lo hi) <-> (lo <= n <= hi)%Z.
Proof. rewrite <- numbers_range, Zrange_In. lia. Qed.
Lemma numbers_split lo mid hi : (lo <= mid + 1)%Z -> (mid <= hi)%Z -> numbers lo hi = numbers lo mid ++ numbers (mid + 1) hi.
Proof. intros A B. rewrite <- !numbers_range. apply Zrange_split. lia. Qed.

Lemma sum_f_Rsum f n : sum_f_R0 f n = Rsum (map f (seq 0 (S n))).
Proof.
  induction n; [cbn; lra|]. change (sum_f_R0 f (S n)) with (sum_f_R0 f n + f (S n)). rewrite IHn. rewrite (seq_S (S n)), map_app, Rsum_app. cbn [Nat.add map Rsum fold_right]. lra.
Qed.
Lemma Rsum_zero {A : Type} (f : A -> R) l : (forall a, In a l -> f a = 0) -> Rsum (map f l) = 0.
Proof. induction l as [|a l IH]; intros H; [reflexivity|]. cbn [map Rsum fold_right]. fold (Rsum (map f l)). rewrite (H a (or_introl eq_refl)), IH by (intros; apply H; right; auto). lra. Qed.
Lemma C_nonneg n k : 0 <= Binomial.C n k.
Proof. unfold Binomial.C. apply Rmult_le_pos; [apply pos_INR|]. apply Rlt_le, Rinv_0_lt_compat, Rmult_lt_0_compat; apply INR_fact_lt_0. Qed.

(** The probability of [ne] electrons when up to [n] secondary ones are possible. *)
Definition electron_law (n : Z) (ne : Z) : R :=
  if (ne - 1 <=? n)%Z then Binomial.C (Z.to_nat n) (Z.to_nat (ne - 1)) * (5 / 6) ^ Z.to_nat (ne - 1) * (1 - 5 / 6) ^ Z.to_nat (n - (ne - 1)) else 0.
Lemma electron_law_nonneg n ne : 0 <= electron_law n ne.
Proof. unfold electron_law. destruct (_ <=? _)%Z; [|lra]. apply Rmult_le_pos; [apply Rmult_le_pos; [apply C_nonneg|]|]; apply pow_le; lra. Qed.
Lemma electron_law_sum n : (0 <= n)%Z -> Rsum (map (electron_law n) (numbers 1 (n + 1))) = 1.
Proof.
  intros N. unfold numbers. rewrite map_map. replace (Z.to_nat (n + 1 - 1 + 1)) with (S (Z.to_nat n)) by lia.
  assert (B := binomial (5 / 6) (1 - 5 / 6) (Z.to_nat n)). replace (5 / 6 + (1 - 5 / 6)) with 1 in B by lra. rewrite pow1, sum_f_Rsum in B. rewrite B. f_equal. apply map_ext_in. intros i Hi. apply in_seq in Hi.
  unfold electron_law. replace (1 + Z.of_nat i - 1)%Z with (Z.of_nat i) by lia. replace (Z.of_nat i <=? n)%Z with true by (symmetry; apply Z.leb_le; lia). rewrite Nat2Z.id. replace (Z.to_nat (n - Z.of_nat i)) with (Z.to_nat n - i)%nat by lia. reflexivity.
Qed.
Lemma electron_law_above n K : (0 <= n)%Z -> (n + 1 <= K)%Z -> Rsum (map (electron_law n) (numbers 1 K)) = 1.
Proof.
  intros N K1. rewrite (numbers_split 1 (n + 1) K), map_app, Rsum_app, electron_law_sum by lia. rewrite Rsum_zero; [lra|]. intros ne H. apply numbers_In in H. unfold electron_law. replace (ne - 1 <=? n)%Z with false by (symmetry; apply Z.leb_gt; lia). reflexivity.
Qed.

Lemma two31 : 2 ^ 31 = IZR (2 ^ 31).
Proof. exact (pow_IZR 2 31). Qed.
Lemma PDF_ne_law PMF ne Ee w n : ideal_binomial PMF -> 0 <= Ee -> 0 < w -> (0 <= n)%Z -> IZR n + Ee / w < 2 ^ 31 -> (1 <= ne < 2 ^ 31)%Z ->
  PDF_ne PMF ne (Fin Ee) (Fin w) n = Ok (Fin (electron_law (n + Rfloor (Ee / w)) ne)).
Proof.
  intros P E W N B NE. assert (E0 : 0 <= Ee / w) by (apply Rmult_le_pos; auto; apply Rlt_le, Rinv_0_lt_compat; auto). destruct (Rfloor_bounds (Ee / w)) as [F1 F2]. set (z := Rfloor (Ee / w)) in *.
  assert (Z0 : (0 <= z)%Z) by (apply (Rfloor_mono 0) in E0; replace 0 with (IZR 0) in E0 by reflexivity; rewrite Rfloor_IZR in E0; exact E0).
  assert (ZB : (n + z < 2 ^ 31)%Z) by (apply lt_IZR; rewrite plus_IZR; rewrite <- two31; lra).
  unfold PDF_ne. rewrite xdiv_fin by lra. cbn [xfloor]. fold z. rewrite xadd_fin, <- plus_IZR. unfold to_int. rewrite double_to_int_IZR. replace ((- 2 ^ 31 <=? n + z) && (n + z <=? 2 ^ 31 - 1))%Z%bool with true by (symmetry; apply andb_true_intro; split; apply Z.leb_le; lia).
  cbn [bind]. rewrite xsub_fin, xadd_fin, xdiv_fin by lra. assert (K : s32 (u32 (ne - 1)) = (ne - 1)%Z). { unfold s32, u32. rewrite (Z.mod_small (ne - 1)) by lia. rewrite Z.mod_small by lia. lia. }
  rewrite K. replace ((1.0 - 0.0) / (1.0 + 0.2)) with (5 / 6) by lra. rewrite P by (try lra; lia). reflexivity.
Qed.
Lemma electron_numbers PMF Ee w n : ideal_binomial PMF -> 0 <= Ee -> 0 < w -> (0 <= n)%Z -> IZR n + Ee / w < 2 ^ 31 ->
  exists p top, (0 <= top)%Z /\ IZR top <= IZR n + Ee / w < IZR top + 1 /\ (forall ne, (1 <= ne < 2 ^ 31)%Z -> PDF_ne PMF ne (Fin Ee) (Fin w) n = Ok (Fin (p ne)) /\ 0 <= p ne /\ ((top + 1 < ne)%Z -> p ne = 0)) /\
    (forall K, (top + 1 <= K)%Z -> Rsum (map p (numbers 1 K)) = 1).
Proof.
  intros P E W N B. exists (electron_law (n + Rfloor (Ee / w))), (n + Rfloor (Ee / w))%Z. destruct (Rfloor_bounds (Ee / w)) as [F1 F2]. set (z := Rfloor (Ee / w)) in *.
  assert (E0 : 0 <= Ee / w) by (apply Rmult_le_pos; auto; apply Rlt_le, Rinv_0_lt_compat; auto).
  assert (Z0 : (0 <= z)%Z) by (apply (Rfloor_mono 0) in E0; replace 0 with (IZR 0) in E0 by reflexivity; rewrite Rfloor_IZR in E0; exact E0).
  split; [lia|]. split; [rewrite plus_IZR; lra|]. split.
  - intros ne H. split; [apply PDF_ne_law; auto|]. split; [apply electron_law_nonneg|]. intros T. unfold electron_law. replace (ne - 1 <=? n + z)%Z with false by (symmetry; apply Z.leb_gt; lia). reflexivity.
  - intros K HK. apply electron_law_above; lia.
Qed.
(** Too many for an int: undefined behaviour. *)
Lemma electron_overflow PMF ne Ee w n : 0 < w -> (0 <= n)%Z -> 2 ^ 31 <= Ee / w -> PDF_ne PMF ne (Fin Ee) (Fin w) n = UB.
Proof.
  intros W N B. unfold PDF_ne. rewrite xdiv_fin by lra. cbn [xfloor]. rewrite xadd_fin, <- plus_IZR. unfold to_int. rewrite double_to_int_IZR.
  assert (Z0 : (2 ^ 31 <= Rfloor (Ee / w))%Z). { apply (Rfloor_mono (2 ^ 31)) in B. rewrite two31 in B. rewrite Rfloor_IZR in B. exact B. }
  replace (n + Rfloor (Ee / w) <=? 2 ^ 31 - 1)%Z with false by (symmetry; apply Z.leb_gt; lia). rewrite andb_false_r. reflexivity.
Qed.

(** * The rates for 1, 2, ... electrons of a shell add up to the rate of the shell *)
Definition shell_energy (k : R) : R := k * k / 2.0 / mElectron.
Definition shell_weight (dl k r : R) : R := ln 10.0 * dl * k * k / mElectron * r.
Lemma sum_res_values {A : Type} (f : A -> res xr) (g : A -> R) l : (forall a, In a l -> f a = Ok (Fin (g a))) -> sum_res f l = Ok (Fin (Rsum (map g l))).
Proof.
  intros H. unfold sum_res. replace (map_res f l) with (Ok (map Fin (map g l))); [cbn [bind]; rewrite xsum_fin; reflexivity|]. symmetry.
  induction l as [|a l IH]; [reflexivity|]. cbn [map_res map]. rewrite (H a (or_introl eq_refl)). cbn [bind]. rewrite IH by (intros; apply H; right; auto). reflexivity.
Qed.
Lemma Rsum_both {A : Type} (f g : A -> R) l : Rsum (map (fun a => f a + g a) l) = Rsum (map f l) + Rsum (map g l).
Proof. induction l as [|a l IH]; cbn [map Rsum fold_right]; [lra|]. fold (Rsum (map f l)) (Rsum (map g l)) (Rsum (map (fun a => f a + g a) l)). rewrite IH. lra. Qed.
Lemma Rsum_swap {A B : Type} (f : A -> B -> R) la lb : Rsum (map (fun a => Rsum (map (f a) lb)) la) = Rsum (map (fun b => Rsum (map (fun a => f a b) la)) lb).
Proof.
  induction la as [|a la IH]; [cbn; symmetry; apply Rsum_zero; auto|]. change (Rsum (map (f a) lb) + Rsum (map (fun a => Rsum (map (f a) lb)) la) = Rsum (map (fun b => f a b + Rsum (map (fun a => f a b) la)) lb)).
  rewrite IH, Rsum_both. reflexivity.
Qed.
Lemma Rsum_scale {A : Type} (f : A -> R) c l : Rsum (map (fun a => c * f a) l) = c * Rsum (map f l).
Proof. induction l as [|a l IH]; cbn [map Rsum fold_right]; [lra|]. fold (Rsum (map f l)) (Rsum (map (fun a => c * f a) l)). rewrite IH. lra. Qed.

Lemma shell_rates X DM D s w n shell ks dl r N : ideal_binomial (x_PMF_Binomial X) -> k_Grid shell = map Fin ks -> dlogk shell = Fin dl -> 0 < w -> (0 <= number_of_secondary_electrons shell < 2 ^ 31)%Z ->
  (forall k, In k ks -> Ionization_dRdE_shell X DM D s (Fin (shell_energy k)) n shell = Ok (Fin (r k))) ->
  (forall k, In k ks -> IZR (number_of_secondary_electrons shell) + shell_energy k / w <= IZR N) -> (N < 2 ^ 31 - 1)%Z ->
  exists rate, (forall ne, (1 <= ne < 2 ^ 31)%Z -> R_ne_shell X DM D s ne (Fin w) n shell = Ok (Fin (rate ne))) /\
    (forall K, (N + 1 <= K)%Z -> Rsum (map rate (numbers 1 K)) = Rsum (map (fun k => shell_weight dl k (r k)) ks)).
Proof.
  intros P G L W S R B NB. set (ns := number_of_secondary_electrons shell) in *. assert (S32 : s32 ns = ns). { unfold s32. rewrite Z.mod_small by lia. lia. }
  assert (me : 0 < mElectron) by (unfold mElectron; lra). assert (SE : forall k, 0 <= shell_energy k). { intros k. unfold shell_energy. assert (0 <= k * k) by apply Rle_0_sqr. unfold Rdiv. apply Rmult_le_pos; [apply Rmult_le_pos; auto; lra|apply Rlt_le, Rinv_0_lt_compat; auto]. }
  exists (fun ne => Rsum (map (fun k => ln 10.0 * dl * k * k / mElectron * electron_law (ns + Rfloor (shell_energy k / w)) ne * r k) ks)). split.
  - intros ne Hne. unfold R_ne_shell. rewrite G. unfold sum_res. rewrite map_res_map.
    change (sum_res (fun k => let* p := PDF_ne (x_PMF_Binomial X) ne (Fin k * Fin k / Fin 2.0 / Fin mElectron)%xr (Fin w) (s32 ns) in let* r0 := Ionization_dRdE_shell X DM D s (Fin k * Fin k / Fin 2.0 / Fin mElectron)%xr n shell in Ok (xlog (Fin 10.0) * dlogk shell * Fin k * Fin k / Fin mElectron * p * r0)%xr) ks = Ok (Fin (Rsum (map (fun k => ln 10.0 * dl * k * k / mElectron * electron_law (ns + Rfloor (shell_energy k / w)) ne * r k) ks)))).
    apply sum_res_values. intros k I. rewrite xmul_fin, !xdiv_fin by lra. fold (shell_energy k). rewrite S32, PDF_ne_law, R; auto; try lia.
    + cbn [bind]. rewrite xlog_fin, L, !xmul_fin, xdiv_fin, !xmul_fin by lra. reflexivity.
    + apply Rle_lt_trans with (IZR N); [apply B; auto|]. rewrite two31. apply IZR_lt. lia.
  - intros K HK. rewrite Rsum_swap. f_equal. apply map_ext_in. intros k I. unfold shell_weight.
    rewrite (map_ext _ (fun ne => ln 10.0 * dl * k * k / mElectron * r k * electron_law (ns + Rfloor (shell_energy k / w)) ne)) by (intros; ring). rewrite Rsum_scale, electron_law_above; [ring| |].
    + assert (E0 : 0 <= shell_energy k / w) by (apply Rmult_le_pos; auto; apply Rlt_le, Rinv_0_lt_compat; auto). apply (Rfloor_mono 0) in E0. replace 0 with (IZR 0) in E0 by reflexivity. rewrite Rfloor_IZR in E0. lia.
    + specialize (B k I). destruct (Rfloor_bounds (shell_energy k / w)) as [F1 F2]. assert (ns + Rfloor (shell_energy k / w) <= N)%Z; [|lia]. apply le_IZR. rewrite plus_IZR. lra.
Qed.
