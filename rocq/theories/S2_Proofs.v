(** Spectra of photoelectrons. *)
From Coq Require Import Reals ZArith String Lra Lia.
From Coq Require Import List.
From Verif Require Import Base XrFacts Nucleus_Model Nuclear_Model Distribution_Model Atom_Model Crystal_Model Rates_Model Detector_Model DetectorTypes_Model
  Electrons_Proofs ElectronBins_Proofs DetectorBins_Proofs Formulas_Proofs.
Import ListNotations.
Local Open Scope R_scope.

(** The Gaussian with mean mu * ne and standard deviation sigma * sqrt ne, evaluated at S2. *)
Definition peak (mu sigma : R) (S2 ne : Z) : R :=
  exp (- (IZR S2 - mu * IZR ne) ^ 2 / (2 * IZR ne * sigma ^ 2)) / sqrt (2 * PI * IZR ne * sigma ^ 2).
Lemma at_ubZ_nth {A : Type} (l : list A) k : (0 <= k)%Z -> at_ubZ l k = match nth_error l (Z.to_nat k) with Some a => Ok a | None => UB end.
Proof.
  intros K. unfold at_ubZ, at_ub. replace (k <? 0)%Z with false by (symmetry; apply Z.ltb_ge; lia).
  destruct (k <? Z.of_nat (List.length l))%Z eqn:E; [reflexivity|]. apply Z.ltb_ge in E.
  replace (nth_error l (Z.to_nat k)) with (@None A); [reflexivity|]. symmetry. apply nth_error_None. lia.
Qed.
(** The photoelectron spectrum of the electron spectrum [r], which gives the rate for each number of electrons from 1 to 100. *)
Definition spread (mu sigma : R) (r : Z -> R) (S2 : Z) : R := Rsum (map (fun ne => peak mu sigma S2 ne * r ne) (Zrange 1 101)).

Lemma in_100 ne : In ne (Zrange 1 101) -> (1 <= ne <= 100)%Z.
Proof. unfold Zrange. rewrite in_map_iff. intros (i & <- & H). apply in_seq in H. lia. Qed.

Lemma gauss_peak mu sigma S2 ne : 0 < sigma -> (1 <= ne)%Z ->
  PDF_Gauss (Fin (IZR S2)) (xmul (Fin mu) (Fin (IZR ne))) (xmul (xsqrt (Fin (IZR ne))) (Fin sigma)) = Fin (peak mu sigma S2 ne).
Proof.
  intros S N. apply IZR_le in N. unfold PDF_Gauss, peak. assert (0 < sqrt (IZR ne)) by (apply sqrt_lt_R0; lra).
  assert (0 < sqrt (2 * PI)) by (apply sqrt_lt_R0; assert (K := PI_RGT_0); lra).
  replace 2.0 with 2 by lra. replace 1.0 with 1 by lra. assert (0 < sqrt (IZR ne) * sigma) by nra.
  rewrite xsqrt_fin, !xmul_fin by lra. rewrite (xsqrt_fin (2 * PI)) by (assert (K := PI_RGT_0); lra). rewrite (xdiv_fin 1) by lra. rewrite xdiv_fin by lra.
  rewrite xsub_fin, xdiv_fin by lra. rewrite xpow_fin, xopp_fin, xdiv_fin by lra. rewrite xexp_fin, xmul_fin. f_equal.
  replace (2 * PI * IZR ne * sigma ^ 2) with (2 * PI * (IZR ne * sigma ^ 2)) by ring. rewrite (sqrt_mult (2 * PI)), (sqrt_mult (IZR ne)) by (assert (K := PI_RGT_0); nra).
  rewrite (sqrt_pow2 sigma) by lra. rewrite Rmult_comm. unfold Rdiv. f_equal.
  - f_equal. assert (Q : sqrt (IZR ne) ^ 2 = IZR ne) by (rewrite <- Rsqr_pow2; apply Rsqr_sqrt; lra). 
    rewrite Rpow_mult_distr, pow_inv, Rpow_mult_distr, Q. field. lra.
  - field. lra.
Qed.

Lemma aux_values mu sigma S2 (r : Z -> R) l : 0 < sigma -> (forall ne, (1 <= ne <= 100)%Z -> at_ubZ l (ne - 1) = Ok (Fin (r ne))) ->
  R_S2_aux S2 (Fin mu) (Fin sigma) l = Ok (Fin (spread mu sigma r S2)).
Proof.
  intros S H. unfold R_S2_aux, spread. apply sum_res_values. intros ne N. apply in_100 in N. rewrite H by lia. cbn [bind].
  rewrite gauss_peak by (auto; lia). rewrite xmul_fin. reflexivity.
Qed.
Lemma computed (f : Z -> res xr) (r : Z -> R) : (forall ne, (1 <= ne <= 100)%Z -> f ne = Ok (Fin (r ne))) ->
  exists l, map_res f (Zrange 1 101) = Ok l /\ forall ne, (1 <= ne <= 100)%Z -> at_ubZ l (ne - 1) = Ok (Fin (r ne)).
Proof.
  intros H. exists (map Fin (map r (Zrange 1 101))). split; [apply map_res_values; intros ne N; apply H, in_100, N|].
  intros ne N. rewrite at_ubZ_nth by lia.
  replace (nth_error (map Fin (map r (Zrange 1 101))) (Z.to_nat (ne - 1))) with (Some (Fin (r ne))); [reflexivity|]. symmetry.
  rewrite !nth_error_map. unfold Zrange. rewrite nth_error_map. change (Z.to_nat (101 - 1)) with 100%nat.
  replace (nth_error (seq 0 100) (Z.to_nat (ne - 1))) with (Some (Z.to_nat (ne - 1))); [cbn [option_map]; do 3 f_equal; lia|]. symmetry.
  rewrite (nth_error_nth' _ 0%nat) by (rewrite seq_length; lia). rewrite seq_nth by lia. reflexivity.
Qed.

Lemma S2_shell X DM D s S2 w n shell mu sigma r : i_S2_mu s = Fin mu -> i_S2_sigma s = Fin sigma -> 0 < sigma ->
  (forall ne, (1 <= ne <= 100)%Z -> R_ne_shell X DM D s ne w n shell = Ok (Fin (r ne))) ->
  R_S2_shell X DM D s S2 w n shell [] = Ok (Fin (spread mu sigma r S2)).
Proof.
  intros M S P H. unfold R_S2_shell. destruct (computed _ r H) as (l & -> & L). cbn [bind]. rewrite M, S. apply aux_values; auto.
Qed.

Lemma spread_sum {A : Type} mu sigma (c : A -> R) (r : A -> Z -> R) l S2 :
  spread mu sigma (fun ne => Rsum (map (fun a => c a * r a ne) l)) S2 = Rsum (map (fun a => c a * spread mu sigma (r a) S2) l).
Proof.
  unfold spread. transitivity (Rsum (map (fun ne => Rsum (map (fun a => c a * (peak mu sigma S2 ne * r a ne)) l)) (Zrange 1 101))).
  - f_equal. apply map_ext. intros ne. cbv beta. etransitivity; [symmetry; apply (Electrons_Proofs.Rsum_scale (fun a => c a * r a ne))|]. f_equal. apply map_ext. intros a. ring.
  - rewrite Rsum_swap. f_equal. apply map_ext. intros a. apply (Electrons_Proofs.Rsum_scale (fun ne => peak mu sigma S2 ne * r a ne)).
Qed.

Lemma S2_atom X DM D s S2 a mu sigma (r : Atomic_Electron -> Z -> R) : i_S2_mu s = Fin mu -> i_S2_sigma s = Fin sigma -> 0 < sigma ->
  (forall shell ne, In shell (electrons a) -> (1 <= ne <= 100)%Z -> R_ne_shell X DM D s ne (W a) (at_nucleus a) shell = Ok (Fin (r shell ne))) ->
  (forall shell, In shell (electrons a) -> R_S2_shell X DM D s S2 (W a) (at_nucleus a) shell [] = Ok (Fin (spread mu sigma (r shell) S2))) /\
  R_S2_atom X DM D s S2 a [] = Ok (Fin (Rsum (map (fun shell => spread mu sigma (r shell) S2) (electrons a)))).
Proof.
  intros M S P H. split; [intros shell I0; apply S2_shell; auto|]. unfold R_S2_atom.
  destruct (computed (fun ne => R_ne_atom X DM D s ne a) (fun ne => Rsum (map (fun sh => 1 * r sh ne) (electrons a)))) as (l & -> & L).
  { intros ne N. unfold R_ne_atom. rewrite (sum_res_values _ (fun sh => r sh ne)); [|intros; apply H; auto]. do 3 f_equal. apply map_ext. intros. ring. }
  cbn [bind]. rewrite M, S. rewrite (aux_values mu sigma S2 _ l P L). rewrite (spread_sum mu sigma (fun _ => 1)). do 3 f_equal. apply map_ext. intros; ring.
Qed.

Lemma S2_detector X DM D s S2 mu sigma (f : Atom -> R) (r : Atom -> Z -> R) : i_S2_mu s = Fin mu -> i_S2_sigma s = Fin sigma -> 0 < sigma ->
  i_fractions s = map (fun a => Fin (f a)) (i_atoms s) ->
  (forall a ne, In a (i_atoms s) -> (1 <= ne <= 100)%Z -> R_ne_atom X DM D s ne a = Ok (Fin (r a ne))) ->
  (forall a, In a (i_atoms s) -> R_S2_atom X DM D s S2 a [] = Ok (Fin (spread mu sigma (r a) S2))) /\
  R_S2 X DM D s S2 [] = Ok (Fin (Rsum (map (fun a => f a * spread mu sigma (r a) S2) (i_atoms s)))).
Proof.
  intros M S P F H. split.
  - intros a I0. unfold R_S2_atom. destruct (computed (fun ne => R_ne_atom X DM D s ne a) (r a)) as (l & -> & L); [auto|]. cbn [bind]. rewrite M, S. apply aux_values; auto.
  - unfold R_S2. destruct (computed (R_ne X DM D s) (fun ne => Rsum (map (fun a => f a * r a ne) (i_atoms s)))) as (l & -> & L).
    { intros ne N. unfold R_ne, weighted. transitivity (sum_res (fun a => let* x := R_ne_atom X DM D s ne a in Ok (xmul (Fin (f a)) x)) (i_atoms s)).
      - unfold sum_res. f_equal. rewrite F. clear F H. 
        assert (G : forall (l : list Atom) k (pre : list Atom), List.length pre = k -> map_res (fun i => let* a := at_ub (pre ++ l) i in let* w := at_ub (map (fun a => Fin (f a)) (pre ++ l)) i in let* x := R_ne_atom X DM D s ne a in Ok (xmul w x)) (seq k (List.length l)) =
          map_res (fun a => let* x := R_ne_atom X DM D s ne a in Ok (xmul (Fin (f a)) x)) l).
        { induction l as [|a l IH]; intros k pre K; [reflexivity|]. cbn [List.length seq map_res]. unfold at_ub. rewrite nth_error_map.
          rewrite nth_error_app2 by lia. replace (k - List.length pre)%nat with 0%nat by lia. cbn [nth_error option_map bind].
          destruct (R_ne_atom X DM D s ne a) as [x| | |]; try reflexivity. cbn [bind].
          specialize (IH (Datatypes.S k) (pre ++ [a])). rewrite <- app_assoc in IH. cbn [app] in IH. unfold at_ub in IH. rewrite IH by (rewrite app_length; cbn; lia). reflexivity. }
        apply (G (i_atoms s) 0%nat []); reflexivity.
      - apply sum_res_values. intros a A. rewrite H by auto. cbn [bind]. rewrite xmul_fin. reflexivity. }
    cbn [bind]. rewrite M, S. rewrite (aux_values mu sigma S2 _ l P L). rewrite (spread_sum mu sigma f). reflexivity.
Qed.

(** A spectrum handed over is used as it is, by all three functions. *)
Lemma S2_given X DM D s S2 w n shell a (spectrum : list R) mu sigma : i_S2_mu s = Fin mu -> i_S2_sigma s = Fin sigma -> 0 < sigma -> (100 <= List.length spectrum)%nat ->
  R_S2 X DM D s S2 (map Fin spectrum) = Ok (Fin (spread mu sigma (fun ne => nth (Z.to_nat (ne - 1)) spectrum 0) S2)) /\
  R_S2_atom X DM D s S2 a (map Fin spectrum) = R_S2 X DM D s S2 (map Fin spectrum) /\
  R_S2_shell X DM D s S2 w n shell (map Fin spectrum) = R_S2 X DM D s S2 (map Fin spectrum).
Proof.
  intros M S P L. assert (E : map Fin spectrum <> []) by (destruct spectrum; [cbn in L; lia|discriminate]).
  unfold R_S2, R_S2_atom, R_S2_shell. destruct (map Fin spectrum) as [|x l] eqn:K; [contradiction|]. cbn [bind]. repeat split.
  rewrite M, S. apply aux_values; auto. intros ne N. rewrite <- K. rewrite at_ubZ_nth by lia.
  rewrite nth_error_map, (nth_error_nth' _ 0) by lia. reflexivity.
Qed.

Lemma S2_short X DM D s S2 w n shell a (spectrum : list xr) : (0 < List.length spectrum < 100)%nat ->
  R_S2 X DM D s S2 spectrum = UB /\ R_S2_atom X DM D s S2 a spectrum = UB /\ R_S2_shell X DM D s S2 w n shell spectrum = UB.
Proof.
  intros L. unfold R_S2, R_S2_atom, R_S2_shell. destruct spectrum as [|x l] eqn:K; [cbn in L; lia|]. cbn [bind]. rewrite <- K in L |- *. clear K x l.
  assert (A : R_S2_aux S2 (i_S2_mu s) (i_S2_sigma s) spectrum = UB); [|rewrite A; auto].
  unfold R_S2_aux, sum_res. 
  assert (G : forall k m, (1 <= k)%Z -> (k <= Z.of_nat (List.length spectrum) + 1)%Z -> (Z.of_nat (List.length spectrum) < k + Z.of_nat m - 1)%Z ->
    map_res (fun ne => let* r := at_ubZ spectrum (ne - 1) in Ok (xmul (PDF_Gauss (Fin (IZR S2)) (xmul (i_S2_mu s) (Fin (IZR ne))) (xmul (xsqrt (Fin (IZR ne))) (i_S2_sigma s))) r))
     (map (fun i => (k + Z.of_nat i)%Z) (seq 0 m)) = UB).
  { intros k m. revert k. induction m as [|m IH]; intros k K1 K2 K3; [cbn in K3; lia|]. cbn [seq map map_res]. rewrite <- seq_shift, map_map.
    rewrite at_ubZ_nth by lia.
    destruct (nth_error spectrum (Z.to_nat (k + Z.of_nat 0 - 1))) as [r|] eqn:E; [|reflexivity]. cbn [bind].
    assert (Z.to_nat (k + Z.of_nat 0 - 1) < List.length spectrum)%nat by (apply nth_error_Some; rewrite E; discriminate).
    rewrite (map_ext (fun x => (k + Z.of_nat (S x))%Z) (fun i => (k + 1 + Z.of_nat i)%Z)) by (intros; lia). rewrite IH by lia. reflexivity. }
  unfold Zrange. rewrite G by (change (Z.to_nat (101 - 1)) with 100%nat; lia). reflexivity.
Qed.
