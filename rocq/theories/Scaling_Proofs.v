(** Rates are proportional to the cross section. *)
From Coq Require Import Reals ZArith String Lia Lra Bool.
From Coquelicot Require Import Coquelicot.
From Coq Require Import List.
From Verif Require Import Base XrFacts Quadrature Nucleus_Model Particle_Model CrossSection_Model Distribution_Model Atom_Model
  Crystal_Model Rates_Model Detector_Model DetectorTypes_Model.
Import ListNotations.
Local Open Scope R_scope.

(** A result multiplied by a number. *)
Definition times (c : R) (m : res xr) : res xr := let* x := m in Ok (xmul (Fin c) x).
Definition times_all (c : R) (m : res (list xr)) : res (list xr) := let* l := m in Ok (map (xmul (Fin c)) l).

(** The integration routine is homogeneous: scaling the integrand scales the result, also when the result is not finite. *)
Definition homogeneous (Integrate : integrator) : Prop :=
  forall c f g a b, 0 < c -> (forall x, g x = times c (f x)) -> Integrate g a b = times c (Integrate f a b).
Definition homogeneous_interpolation (I : interpolation_integral) : Prop :=
  forall c xs ys a b, 0 < c -> I xs (map (xmul (Fin c)) ys) a b = times c (I xs ys a b).

(** * Multiplying by a positive number *)
Ltac crush C :=
  unfold xmul, xdiv, xadd, inf_sign, rpos, rneg;
  repeat match goal with |- context [Rlt_dec ?a ?b] => destruct (Rlt_dec a b) | |- context [Req_EM_T ?a ?b] => destruct (Req_EM_T a b) end;
  try reflexivity; try (exfalso; nra); try (f_equal; try field; auto; nra).
Lemma mul_c_r c a b : 0 < c -> xmul a (xmul (Fin c) b) = xmul (Fin c) (xmul a b).
Proof. intros C. destruct a, b; crush C. Qed.
Lemma mul_c_l c a b : 0 < c -> xmul (xmul (Fin c) a) b = xmul (Fin c) (xmul a b).
Proof. intros C. destruct a, b; crush C. Qed.
Lemma div_c_l c a b : 0 < c -> xdiv (xmul (Fin c) a) b = xmul (Fin c) (xdiv a b).
Proof. intros C. destruct a, b; crush C. Qed.
Lemma add_c c a b : 0 < c -> xadd (xmul (Fin c) a) (xmul (Fin c) b) = xmul (Fin c) (xadd a b).
Proof. intros C. destruct a, b; crush C. Qed.
Lemma c_zero c : xmul (Fin c) (Fin 0) = Fin 0.
Proof. cbn. f_equal. ring. Qed.
Lemma c_c c d a : 0 < c -> 0 < d -> xmul (Fin c) (xmul (Fin d) a) = xmul (Fin (c * d)) a.
Proof. intros C D. assert (0 < c * d) by nra. destruct a; crush C. Qed.
Lemma c_one a : xmul (Fin 1) a = a.
Proof. destruct a; crush C. Qed.

Lemma fold_c c l : 0 < c -> forall a, fold_left xadd (map (xmul (Fin c)) l) (xmul (Fin c) a) = xmul (Fin c) (fold_left xadd l a).
Proof. intros C. induction l as [|x l IH]; intros a; cbn [map fold_left]; auto. rewrite add_c by auto. apply IH. Qed.
Lemma xsum_c c l : 0 < c -> xsum (map (xmul (Fin c)) l) = xmul (Fin c) (xsum l).
Proof. intros C. unfold xsum. rewrite <- (c_zero c) at 1. apply fold_c; auto. Qed.

(** * Results *)
Lemma times_keep {A : Type} c (m : res A) k k' : (forall a, k' a = times c (k a)) -> bind m k' = times c (bind m k).
Proof. intros H. destruct m; cbn [times times_all bind]; auto. Qed.
Lemma times_scaled c (m m' : res xr) k k' : m' = times c m -> (forall a, k' (xmul (Fin c) a) = times c (k a)) -> bind m' k' = times c (bind m k).
Proof. intros -> H. destruct m; cbn [times bind]; auto. Qed.
Lemma times_all_keep {A : Type} c (m : res A) k k' : (forall a, k' a = times_all c (k a)) -> bind m k' = times_all c (bind m k).
Proof. intros H. destruct m; cbn [times times_all bind]; auto. Qed.
Lemma times_zero c : Ok (Fin 0) = times c (Ok (Fin 0)).
Proof. cbn [times bind]. rewrite c_zero. auto. Qed.
Lemma times_one m : times 1 m = m.
Proof. destruct m; cbn [times bind]; auto. rewrite c_one; auto. Qed.
Lemma times_times c d m : 0 < c -> 0 < d -> times c (times d m) = times (c * d) m.
Proof. intros C D. destruct m; cbn [times bind]; auto. rewrite c_c; auto. Qed.
Lemma map_res_times {A : Type} c (f f' : A -> res xr) l : (forall a, In a l -> f' a = times c (f a)) -> map_res f' l = times_all c (map_res f l).
Proof.
  induction l as [|a l IH]; intros H; cbn [map_res]; auto. rewrite H by (left; auto).
  destruct (f a) as [x| | |]; cbn [times bind]; auto. rewrite IH by (intros; apply H; right; auto). destruct (map_res f l); cbn; auto.
Qed.
Lemma sum_res_times {A : Type} c (f f' : A -> res xr) l : 0 < c -> (forall a, In a l -> f' a = times c (f a)) -> sum_res f' l = times c (sum_res f l).
Proof.
  intros C H. unfold sum_res. rewrite (map_res_times c f f' l H). destruct (map_res f l); cbn [times_all times bind]; auto.
  rewrite xsum_c; auto.
Qed.
Lemma Integrate_times I c f g a b : homogeneous I -> 0 < c -> (forall x, g x = times c (f x)) -> I g a b = times c (I f a b).
Proof. intros H C E. apply H; auto. Qed.

(** Leaves: a product with one scaled factor. *)
Ltac leaf C := cbn [times bind]; f_equal; repeat first [rewrite mul_c_r by exact C | rewrite mul_c_l by exact C | rewrite div_c_l by exact C]; reflexivity.

(** * Spectra *)

(** The cross sections of the second particle are c times those of the first; otherwise they are alike. *)
Definition nuclear_scaled (c : R) (DM DM' : DM_interface) : Prop :=
  dm_mass DM' = dm_mass DM /\ dm_fraction DM' = dm_fraction DM /\ dm_use_eta DM' = dm_use_eta DM /\
  forall q t v, dm_dSigma_dq2_Nucleus DM' q t v = times c (dm_dSigma_dq2_Nucleus DM q t v).
Definition electron_scaled (c : R) (DM DM' : DM_interface) : Prop :=
  dm_mass DM' = dm_mass DM /\ dm_fraction DM' = dm_fraction DM /\ dm_use_eta DM' = dm_use_eta DM /\
  (forall q E v s, dm_d2Sigma_Ionization DM' q E v s = times c (dm_d2Sigma_Ionization DM q E v s)) /\
  (forall q E v s, dm_d2Sigma_Crystal DM' q E v s = times c (dm_d2Sigma_Crystal DM q E v s)).

Lemma dSigma_dER_times c DM DM' ER t v : 0 < c -> nuclear_scaled c DM DM' -> dm_dSigma_dER DM' ER t v = times c (dm_dSigma_dER DM ER t v).
Proof.
  intros C (_ & _ & _ & H). unfold dm_dSigma_dER. apply times_scaled; [apply H|]. intros a. leaf C.
Qed.

Lemma isotope_times I c DM DM' D ER t : homogeneous I -> 0 < c -> nuclear_scaled c DM DM' ->
  dRdER_Isotope I ER DM' D t = times c (dRdER_Isotope I ER DM D t).
Proof.
  intros HI C H. pose proof (dSigma_dER_times c DM DM') as S. unfold dRdER_Isotope. cbv zeta. destruct H as (M & F & U & Q).
  assert (H : nuclear_scaled c DM DM') by (split; auto). rewrite M, F, U.
  destruct (xlt _ _). { replace 0.0 with 0 by lra. apply times_zero. }
  destruct (_ && _)%bool.
  - apply times_scaled; [apply S; auto|]. intros a. apply times_keep. intros e. leaf C.
  - apply times_scaled; [|intros; leaf C]. apply Integrate_times; auto. intros v. apply times_keep. intros f.
    apply times_scaled; [apply S; auto|]. intros; leaf C.
Qed.

Lemma nucleus_times I c DM DM' D ER n : 0 < c ->
  (forall t, In t (nisotopes n) -> dRdER_Isotope I ER DM' D t = times c (dRdER_Isotope I ER DM D t)) ->
  dRdER_Nucleus I ER DM' D n = times c (dRdER_Nucleus I ER DM D n).
Proof.
  intros C H. unfold dRdER_Nucleus. apply sum_res_times; auto. intros t T. apply times_scaled; [apply H; auto|]. intros; leaf C.
Qed.

Lemma ER_shell_times I c DM DM' D E m s : homogeneous I -> 0 < c -> electron_scaled c DM DM' ->
  dRdEe_ER_shell I E DM' D m s = times c (dRdEe_ER_shell I E DM D m s).
Proof.
  intros HI C (M & F & U & Q & _). unfold dRdEe_ER_shell, ER_window. rewrite !M.
  match goal with |- match ?o with _ => _ end = _ => destruct o as [[q0 q1]|] end.
  2:{ replace 0.0 with 0 by lra. apply times_zero. }
  cbv zeta. apply times_keep. intros a1. apply times_keep. intros a0. apply times_scaled; [|intros; leaf C].
  apply sum_res_times; auto. intros q _. unfold ER_term. cbv zeta. rewrite M, U. destruct (xlt _ _); [|apply times_zero].
  destruct (_ && _)%bool.
  - apply times_scaled; [apply Q|]. intros a. apply times_keep. intros e. leaf C.
  - apply times_scaled; [|intros; leaf C]. apply Integrate_times; auto. intros v. apply times_keep. intros f.
    apply times_scaled; [apply Q|]. intros; leaf C.
Qed.

Lemma Migdal_sigma_times I2 c DM DM' ER Ee v t s : 0 < c -> nuclear_scaled c DM DM' ->
  dm_d2Sigma_Migdal I2 DM' ER Ee v t s = times c (dm_d2Sigma_Migdal I2 DM ER Ee v t s).
Proof.
  intros C H. unfold dm_d2Sigma_Migdal. cbv zeta. apply times_scaled; [apply dSigma_dER_times; auto|]. intros a.
  apply times_keep. intros f. leaf C.
Qed.
Lemma Migdal_isotope_times I I2 c DM DM' D E t s : homogeneous I -> 0 < c -> nuclear_scaled c DM DM' ->
  dRdEe_Migdal_isotope I I2 E DM' D t s = times c (dRdEe_Migdal_isotope I I2 E DM D t s).
Proof.
  intros HI C H. pose proof (Migdal_sigma_times I2 c DM DM') as S. unfold dRdEe_Migdal_isotope, Migdal_window. cbv zeta.
  destruct H as (M & F & U & Q). assert (H : nuclear_scaled c DM DM') by (split; auto). rewrite M.
  apply times_scaled; [|intros; leaf C]. apply Integrate_times; auto. intros ER. unfold Migdal_integrand. cbv zeta. rewrite M, U.
  destruct (xle _ _). { replace 0.0 with 0 by lra. apply times_zero. }
  destruct (_ && _)%bool.
  - apply times_keep. intros e. apply times_scaled; [apply S; auto|]. intros; leaf C.
  - apply Integrate_times; auto. intros v. apply times_keep. intros f. apply times_scaled; [apply S; auto|]. intros; leaf C.
Qed.
Lemma Migdal_nucleus_times I I2 c DM DM' D E n s : homogeneous I -> 0 < c -> nuclear_scaled c DM DM' ->
  dRdEe_Migdal_nucleus I I2 E DM' D n s = times c (dRdEe_Migdal_nucleus I I2 E DM D n s).
Proof.
  intros HI C H. unfold dRdEe_Migdal_nucleus. apply sum_res_times; auto. intros t _.
  apply times_scaled; [apply Migdal_isotope_times; auto|]. intros; leaf C.
Qed.

Lemma Crystal_times I c DM DM' D E x : homogeneous I -> 0 < c -> electron_scaled c DM DM' ->
  dRdEe_Crystal I E DM' D x = times c (dRdEe_Crystal I E DM D x).
Proof.
  intros HI C (M & F & U & _ & Q). unfold dRdEe_Crystal. destruct (xlt _ _); [apply times_zero|]. cbv zeta.
  apply times_scaled; [|intros; leaf C]. apply sum_res_times; auto. intros qi _. unfold Crystal_term. cbv zeta. rewrite M, U.
  destruct (xlt _ _); [apply times_zero|]. destruct (_ && _)%bool.
  - apply times_keep. intros e. apply times_scaled; [apply Q|]. intros; leaf C.
  - apply times_scaled; [|intros; leaf C]. apply Integrate_times; auto. intros v. apply times_keep. intros f.
    apply times_scaled; [apply Q|]. intros; leaf C.
Qed.
Lemma R_Q_loop_times I c Emax DM DM' D x l : homogeneous I -> 0 < c -> electron_scaled c DM DM' ->
  forall sum, R_Q_loop I Emax DM' D x (xmul (Fin c) sum) l = times c (R_Q_loop I Emax DM D x sum l).
Proof.
  intros HI C H. induction l as [|e l IH]; intros sum; cbn [R_Q_loop]; auto. destruct (xlt _ _); auto.
  apply times_scaled; [apply Crystal_times; auto|]. intros a. rewrite mul_c_r, add_c by auto. apply IH.
Qed.
Lemma R_total_loop_times I c DM DM' D x l : homogeneous I -> 0 < c -> electron_scaled c DM DM' ->
  forall sum, R_total_loop I DM' D x (xmul (Fin c) sum) l = times c (R_total_loop I DM D x sum l).
Proof.
  intros HI C H. induction l as [|e l IH]; intros sum; cbn [R_total_loop]; auto.
  apply times_scaled; [apply Crystal_times; auto|]. intros a. rewrite mul_c_r, add_c by auto. apply IH.
Qed.
Lemma R_Q_times I c Q DM DM' D x : homogeneous I -> 0 < c -> electron_scaled c DM DM' ->
  R_Q_Crystal I Q DM' D x = times c (R_Q_Crystal I Q DM D x).
Proof.
  intros HI C H. unfold R_Q_Crystal. cbv zeta. apply times_keep. intros k.
  rewrite <- (R_Q_loop_times I c _ DM DM' D x _ HI C H). replace 0.0 with 0 by lra. rewrite c_zero. auto.
Qed.
Lemma R_total_times I c Q DM DM' D x : homogeneous I -> 0 < c -> electron_scaled c DM DM' ->
  R_total_Crystal I Q DM' D x = times c (R_total_Crystal I Q DM D x).
Proof.
  intros HI C H. unfold R_total_Crystal. cbv zeta. apply times_keep. intros k.
  rewrite <- (R_total_loop_times I c DM DM' D x _ HI C H). replace 0.0 with 0 by lra. rewrite c_zero. auto.
Qed.

(** * Detectors *)
Lemma energy_bins_times I c f f' d : homogeneous I -> 0 < c -> (forall E, f' E = times c (f E)) ->
  DM_Signals_Energy_Bins I f' d = times_all c (DM_Signals_Energy_Bins I f d).
Proof.
  intros HI C H. unfold DM_Signals_Energy_Bins. destruct (negb _); auto. apply map_res_times. intros i _.
  apply times_keep. intros lo. apply times_keep. intros hi. apply times_scaled; [apply Integrate_times; auto|]. intros a.
  apply times_keep. intros e. leaf C.
Qed.
Lemma binned_base_times I c f f' d : homogeneous I -> 0 < c -> (forall E, f' E = times c (f E)) ->
  DM_Signals_Binned_Base I f' d = times_all c (DM_Signals_Binned_Base I f d).
Proof.
  intros HI C H. unfold DM_Signals_Binned_Base. destruct (b_analysis d); auto. destruct (b_using_bins d); auto. apply energy_bins_times; auto.
Qed.
Lemma sum_all_times c (m m' : res (list xr)) : 0 < c -> m' = times_all c m -> (let* l := m' in Ok (xsum l)) = times c (let* l := m in Ok (xsum l)).
Proof. intros C ->. destruct m; cbn [times_all times bind]; auto. rewrite xsum_c; auto. Qed.
Lemma total_base_times I T c f f' d : homogeneous I -> homogeneous_interpolation T -> 0 < c -> (forall E, f' E = times c (f E)) ->
  DM_Signals_Total_Base I T f' d = times c (DM_Signals_Total_Base I T f d).
Proof.
  intros HI HT C H. unfold DM_Signals_Total_Base.
  assert (K : forall args, (let* values := map_res f' args in let* integral := T args values (b_threshold d) (b_energy_max d) in Ok (xmul (b_exposure d) integral)) =
     times c (let* values := map_res f args in let* integral := T args values (b_threshold d) (b_energy_max d) in Ok (xmul (b_exposure d) integral))).
  { intros args. rewrite (map_res_times c f f' args) by auto. destruct (map_res f args); cbn [times_all times bind]; auto.
    rewrite HT by auto. apply times_scaled; auto. intros; leaf C. }
  destruct (b_analysis d); try apply K. apply sum_all_times; auto. apply binned_base_times; auto.
Qed.

Lemma nuclear_dRdE_times X c DM DM' D n E : homogeneous (x_Integrate X) -> 0 < c ->
  (forall ER t, dRdER_Isotope (x_Integrate X) ER DM' D t = times c (dRdER_Isotope (x_Integrate X) ER DM D t)) ->
  Nuclear_dRdE X DM' D n E = times c (Nuclear_dRdE X DM D n E).
Proof.
  intros HI C H.
  assert (K : forall E ER, Nuclear_sum X DM' D n E ER = times c (Nuclear_sum X DM D n E ER)).
  { intros. unfold Nuclear_sum. apply sum_res_times; auto. intros i _. do 3 (apply times_keep; intros).
    apply times_scaled; [apply nucleus_times; auto|]. intros; leaf C. }
  unfold Nuclear_dRdE. destruct (xlt _ _); auto. apply times_keep. intros lo. apply Integrate_times; auto. intros ER.
  apply times_scaled; [apply K|]. intros; leaf C.
Qed.

(** Three statements about a detector: spectrum, total and bins scale together. *)
Definition scales (V : virtuals) (d : detector) (c : R) (p p' : particle) : Prop :=
  (forall E, v_dRdE V d p' E = times c (v_dRdE V d p E)) /\ v_total V d p' = times c (v_total V d p) /\
  v_binned V d p' = times_all c (v_binned V d p).
(** Routines whose integrals scale. *)
Definition homogeneous_externals (X : externals) : Prop := homogeneous (x_Integrate X) /\ homogeneous_interpolation (x_Interpolate X).

Lemma nuclear_scales X D n d c p p' : homogeneous_externals X -> 0 < c ->
  nuclear_scaled c (interface_of (x_I2 X) p) (interface_of (x_I2 X) p') -> scales (nuclear_virtuals X D n) d c p p'.
Proof.
  intros [HI HT] C H. assert (K : forall E, Nuclear_dRdE X (interface_of (x_I2 X) p') D (with_n_base d n) E =
    times c (Nuclear_dRdE X (interface_of (x_I2 X) p) D (with_n_base d n) E)).
  { intros. apply nuclear_dRdE_times; auto. intros. apply isotope_times; auto. }
  split; [exact K|]. split; cbn [v_total v_binned nuclear_virtuals].
  - apply total_base_times; auto.
  - apply binned_base_times; auto.
Qed.

(** The channel decides which cross section matters. *)
Definition channel_scaled (ch : channel) (c : R) (DM DM' : DM_interface) : Prop :=
  match ch with Electron_Recoil => electron_scaled c DM DM' | Migdal => nuclear_scaled c DM DM' end.

Lemma ionization_shell_times X c DM DM' D s E n sh : homogeneous (x_Integrate X) -> 0 < c -> channel_scaled (i_channel s) c DM DM' ->
  Ionization_dRdE_shell X DM' D s E n sh = times c (Ionization_dRdE_shell X DM D s E n sh).
Proof.
  intros HI C H. unfold Ionization_dRdE_shell. apply times_scaled; [|intros; leaf C]. destruct (i_channel s); cbn [channel_scaled] in H.
  - apply ER_shell_times; auto.
  - apply Migdal_nucleus_times; auto.
Qed.
Lemma weighted_times c s f f' : 0 < c -> (forall a, f' a = times c (f a)) -> weighted s f' = times c (weighted s f).
Proof.
  intros C H. unfold weighted. apply sum_res_times; auto. intros i _. do 2 (apply times_keep; intros).
  apply times_scaled; [apply H|]. intros; leaf C.
Qed.
Lemma ionization_dRdE_times X c DM DM' D s E : homogeneous (x_Integrate X) -> 0 < c -> channel_scaled (i_channel s) c DM DM' ->
  Ionization_dRdE X DM' D s E = times c (Ionization_dRdE X DM D s E).
Proof.
  intros HI C H. unfold Ionization_dRdE. apply weighted_times; auto. intros a. unfold Ionization_dRdE_atom.
  apply sum_res_times; auto. intros. apply ionization_shell_times; auto.
Qed.
Lemma R_ne_times X c DM DM' D s ne : homogeneous (x_Integrate X) -> 0 < c -> channel_scaled (i_channel s) c DM DM' ->
  R_ne X DM' D s ne = times c (R_ne X DM D s ne).
Proof.
  intros HI C H. unfold R_ne. apply weighted_times; auto. intros a. unfold R_ne_atom. apply sum_res_times; auto. intros sh _.
  unfold R_ne_shell. apply sum_res_times; auto. intros k _. cbv zeta. apply times_keep. intros p.
  apply times_scaled; [apply ionization_shell_times; auto|]. intros; leaf C.
Qed.
Lemma R_S2_aux_times c nPE mu sigma l : 0 < c ->
  R_S2_aux nPE mu sigma (map (xmul (Fin c)) l) = times c (R_S2_aux nPE mu sigma l).
Proof.
  intros C. unfold R_S2_aux. apply sum_res_times; auto. intros ne _. apply times_scaled; [|intros; leaf C].
  unfold at_ubZ, at_ub. rewrite map_length. destruct (_ <? _)%Z; auto. destruct (_ <? _)%Z; auto. rewrite nth_error_map. destruct (nth_error l _); cbn [option_map times bind]; auto.
Qed.
Lemma nonempty_Zrange {A : Type} (f : Z -> res A) lo hi l : (lo < hi)%Z -> map_res f (Zrange lo hi) = Ok l -> l <> [].
Proof.
  intros H E. apply map_res_length in E. unfold Zrange in E. rewrite map_length, seq_length in E. intros ->. cbn in E. lia.
Qed.
Lemma R_S2_times X c DM DM' D s S2 l : l <> [] -> 0 < c ->
  R_S2 X DM' D s S2 (map (xmul (Fin c)) l) = times c (R_S2 X DM D s S2 l).
Proof.
  intros L C. unfold R_S2. destruct l as [|x l]; [contradiction|]. cbn [map bind]. apply (R_S2_aux_times c S2 _ _ (x :: l)); auto.
Qed.
Lemma S2_bin_some X c DM DM' D s a b l : l <> [] -> 0 < c ->
  R_S2_Bin X DM' D s a b (map (xmul (Fin c)) l) = times c (R_S2_Bin X DM D s a b l).
Proof.
  intros L C. unfold R_S2_Bin. destruct l as [|x l]; [contradiction|]. cbn [map bind]. destruct (_ =? _)%Z; auto.
  apply sum_res_times; auto. intros PE _. apply times_keep. intros e. apply times_scaled; [|intros; leaf C].
  apply (R_S2_times X c DM DM' D s PE (x :: l)); auto; discriminate.
Qed.
Lemma S2_bin_none X c DM DM' D s a b : homogeneous (x_Integrate X) -> 0 < c -> channel_scaled (i_channel s) c DM DM' ->
  R_S2_Bin X DM' D s a b [] = times c (R_S2_Bin X DM D s a b []).
Proof.
  intros HI C H. unfold R_S2_Bin at 1 2. rewrite (map_res_times c (R_ne X DM D s) (R_ne X DM' D s)) by (intros; apply R_ne_times; auto).
  destruct (map_res (R_ne X DM D s) (Zrange 1 100)) as [l| | |] eqn:E; cbn [times_all bind]; auto.
  apply nonempty_Zrange in E; [|lia]. destruct (_ =? _)%Z; auto.
  apply sum_res_times; auto. intros PE _. apply times_keep. intros e. apply times_scaled; [|intros; leaf C]. apply R_S2_times; auto.
Qed.

Lemma ionization_binned_times X c DM DM' D s : homogeneous_externals X -> 0 < c -> channel_scaled (i_channel s) c DM DM' ->
  Ionization_Binned X DM' D s = times_all c (Ionization_Binned X DM D s).
Proof.
  intros [HI HT] C H. unfold Ionization_Binned. destruct (b_analysis (i_base s)); auto. destruct (b_using_bins (i_base s)).
  { apply energy_bins_times; auto. intros. apply ionization_dRdE_times; auto. }
  destruct (i_using_ne_bins s).
  { unfold DM_Signals_Electron_Bins. destruct (negb _); auto. apply map_res_times. intros i _. cbv zeta.
    apply times_scaled; [apply R_ne_times; auto|]. intros a. apply times_keep. intros e. leaf C. }
  destruct (i_using_S2_bins s) eqn:U; auto. unfold DM_Signals_PE_Bins. rewrite U. cbn [negb].
  rewrite (map_res_times c (R_ne X DM D s) (R_ne X DM' D s)) by (intros; apply R_ne_times; auto).
  destruct (map_res (R_ne X DM D s) (Zrange 1 100)) as [l| | |] eqn:E; cbn [times_all bind]; auto.
  apply nonempty_Zrange in E; [|lia]. apply map_res_times. intros i _. do 2 (apply times_keep; intros).
  apply times_scaled; [apply S2_bin_some; auto|]. intros r. apply times_keep. intros e. leaf C.
Qed.
Lemma ionization_total_times X c DM DM' D s : homogeneous_externals X -> 0 < c -> channel_scaled (i_channel s) c DM DM' ->
  Ionization_Total X DM' D s = times c (Ionization_Total X DM D s).
Proof.
  intros HX C H. pose proof HX as [HI HT].
  assert (K : forall k k' : res xr, k' = times c k -> match b_analysis (i_base s) with Binned_Poisson => let* l := Ionization_Binned X DM' D s in Ok (xsum l) | _ => k' end =
     times c match b_analysis (i_base s) with Binned_Poisson => let* l := Ionization_Binned X DM D s in Ok (xsum l) | _ => k end).
  { intros k k' E. destruct (b_analysis (i_base s)); auto. apply sum_all_times; auto. apply ionization_binned_times; auto. }
  unfold Ionization_Total. apply K. destruct (i_using_ne_threshold s).
  { destruct (_ =? _)%Z; auto. apply sum_res_times; auto. intros ne _. apply times_scaled; [apply R_ne_times; auto|]. intros; leaf C. }
  destruct (b_using_threshold (i_base s)).
  { set (f := fun (DM : DM_interface) (i : nat) => let* a := at_ub (i_atoms s) i in let* w := at_ub (i_fractions s) i in
        map_res (threshold_term X DM D s w (at_nucleus a)) (electrons a)).
    change ((let* terms := map_res (f DM') (seq 0 (List.length (i_atoms s))) in Ok (xsum (concat terms))) =
       times c (let* terms := map_res (f DM) (seq 0 (List.length (i_atoms s))) in Ok (xsum (concat terms)))).
    assert (F : forall i, f DM' i = times_all c (f DM i)).
    { intros i. unfold f. do 2 (apply times_all_keep; intros). apply map_res_times. intros sh _. unfold threshold_term. cbv zeta.
      destruct (xlt _ _); [|apply times_zero]. apply times_scaled; [|intros; leaf C]. apply Integrate_times; auto. intros E.
      apply times_scaled; [apply ionization_shell_times; auto|]. intros; leaf C. }
    assert (G : forall l, map_res (f DM') l = (let* t := map_res (f DM) l in Ok (map (map (xmul (Fin c))) t))).
    { induction l as [|i l IH]; cbn [map_res]; auto. rewrite F. destruct (f DM i); cbn [times_all bind]; auto. rewrite IH.
      destruct (map_res (f DM) l); cbn; auto. }
    rewrite G. destruct (map_res (f DM) _); cbn [bind times]; auto. rewrite <- concat_map, xsum_c; auto. }
  destruct (i_using_S2_threshold s); [|apply times_zero].
  apply times_scaled; [apply S2_bin_none; auto|]. intros; leaf C.
Qed.
Lemma ionization_scales X D s d c p p' : homogeneous_externals X -> 0 < c ->
  channel_scaled (i_channel s) c (interface_of (x_I2 X) p) (interface_of (x_I2 X) p') -> scales (ionization_virtuals X D s) d c p p'.
Proof.
  intros HX C H. split; [|split]; cbn [v_dRdE v_total v_binned ionization_virtuals].
  - intros E. apply ionization_dRdE_times; auto. apply HX.
  - apply ionization_total_times; auto.
  - apply ionization_binned_times; auto.
Qed.

Lemma semiconductor_scales X D s d c p p' : homogeneous_externals X -> 0 < c ->
  electron_scaled c (interface_of (x_I2 X) p) (interface_of (x_I2 X) p') -> scales (semiconductor_virtuals X D s) d c p p'.
Proof.
  intros HX C H. pose proof HX as [HI HT].
  assert (S : forall DM DM' s E, electron_scaled c DM DM' -> Semiconductor_dRdE X DM' D s E = times c (Semiconductor_dRdE X DM D s E)).
  { intros. unfold Semiconductor_dRdE. apply times_scaled; [apply Crystal_times; auto|]. intros; leaf C. }
  assert (B : forall DM DM' s, electron_scaled c DM DM' -> Semiconductor_Binned X DM' D s = times_all c (Semiconductor_Binned X DM D s)).
  { intros DM DM' s0 H0. unfold Semiconductor_Binned. destruct (b_analysis (c_base s0)); auto. destruct (b_using_bins (c_base s0)).
    - apply energy_bins_times; auto.
    - apply times_all_keep. intros u. destruct u; auto. unfold DM_Signals_Q_Bins. apply times_all_keep. intros u. destruct (negb u); auto.
      apply times_all_keep. intros Qt. apply map_res_times. intros Q _. apply times_keep. intros e.
      apply times_scaled; [apply R_Q_times; auto|]. intros; leaf C. }
  split; [|split]; cbn [v_dRdE v_total v_binned semiconductor_virtuals].
  - intros E. apply S; auto.
  - set (s0 := with_c_base d s). unfold Semiconductor_Total. cbv zeta.
    assert (K : forall b : bool, (if b then let* integral := x_Integrate X (Semiconductor_dRdE X (interface_of (x_I2 X) p') D s0) (b_threshold (c_base s0)) (b_energy_max (c_base s0)) in
           Ok (xmul (b_exposure (c_base s0)) integral) else let* u := read_init (c_using_Q_threshold s0) in
        if u then let* Qt := read_init (c_Q_threshold s0) in let* r := R_total_Crystal (x_Integrate X) (s32 Qt) (interface_of (x_I2 X) p') D (c_crystal s0) in
           Ok (xmul (xmul (b_exposure (c_base s0)) (b_flat_efficiency (c_base s0))) r) else Ok (Fin 0)) =
      times c (if b then let* integral := x_Integrate X (Semiconductor_dRdE X (interface_of (x_I2 X) p) D s0) (b_threshold (c_base s0)) (b_energy_max (c_base s0)) in
           Ok (xmul (b_exposure (c_base s0)) integral) else let* u := read_init (c_using_Q_threshold s0) in
        if u then let* Qt := read_init (c_Q_threshold s0) in let* r := R_total_Crystal (x_Integrate X) (s32 Qt) (interface_of (x_I2 X) p) D (c_crystal s0) in
           Ok (xmul (xmul (b_exposure (c_base s0)) (b_flat_efficiency (c_base s0))) r) else Ok (Fin 0))).
    { intros b. destruct b.
      - apply times_scaled; [|intros; leaf C]. apply Integrate_times; auto.
      - apply times_keep. intros u. destruct u; [|apply times_zero]. apply times_keep. intros Qt.
        apply times_scaled; [apply R_total_times; auto|]. intros; leaf C. }
    destruct (b_analysis (c_base s0)) eqn:A; try apply K. apply sum_all_times; auto.
  - apply B; auto.
Qed.

(** * Homogeneous routines exist *)
Lemma RInt_none (f : R -> R) a b : ~ ex_RInt f a b -> RInt f a b = 0.
Proof.
  intros N. unfold RInt, iota, lim. cbn. unfold R_complete_lim.
  match goal with |- real (Lub_Rbar ?P) = 0 => assert (E : Lub_Rbar P = p_infty) end.
  { apply is_lub_Rbar_unique. split.
    - intros x _. exact Logic.I.
    - intros [y| |] B; cbn; auto.
      + assert (y + 1 <= y); [|lra]. apply (B (y + 1)). intros x Hx. exfalso. apply N. exists x. exact Hx.
      + specialize (B 0). apply B. intros x Hx. exfalso. apply N. exists x. exact Hx. }
  rewrite E. reflexivity.
Qed.
Lemma reference_homogeneous : homogeneous reference_Integrate.
Proof.
  intros c f g a b C H. unfold reference_Integrate. cbn [times bind xmul]. do 2 f_equal.
  set (u := fun x => match f (Fin x) with Ok (Fin y) => y | _ => 0 end).
  transitivity (RInt (fun x => c * u x) (val a) (val b)).
  { apply RInt_ext. intros x _. unfold u. rewrite H. destruct (f (Fin x)) as [[y| | |]| | |]; cbn [times bind]; try (cbn; ring).
    - cbn. unfold inf_sign. rewrite rpos_true by auto. ring.
    - cbn. unfold inf_sign. rewrite rpos_false, rneg_true by lra. ring. }
  destruct (Req_dec (RInt (fun x => c * u x) (val a) (val b)) (c * RInt u (val a) (val b))) as [|N]; auto. exfalso.
  assert (N1 : ~ ex_RInt u (val a) (val b)).
  { intros X. apply N. apply (RInt_scal (V := R_CompleteNormedModule) u (val a) (val b) c X). }
  assert (N2 : ~ ex_RInt (fun x => c * u x) (val a) (val b)).
  { intros X. apply N1. apply (ex_RInt_scal (V := R_NormedModule) _ (val a) (val b) (/ c)) in X.
    apply (ex_RInt_ext (V := R_NormedModule)) with (2 := X). intros x _. change (/ c * (c * u x) = u x). field. lra. }
  apply N. rewrite (RInt_none _ _ _ N1), (RInt_none _ _ _ N2). ring.
Qed.
(** The trapezoidal rule over all nodes. *)
Fixpoint trapezoids (xs ys : list xr) : xr :=
  match xs, ys with
  | x0 :: xt, y0 :: yt => match xt, yt with
    | x1 :: _, y1 :: _ => xadd (xmul (xmul (Fin (1 / 2)) (xsub x1 x0)) (xadd y0 y1)) (trapezoids xt yt)
    | _, _ => Fin 0 end
  | _, _ => Fin 0
  end.
Definition reference_Interpolate : interpolation_integral := fun xs ys _ _ => Ok (trapezoids xs ys).
Lemma reference_interpolate_homogeneous : homogeneous_interpolation reference_Interpolate.
Proof.
  intros c xs ys a b C. unfold reference_Interpolate. cbn [times bind]. f_equal. revert ys.
  induction xs as [|x0 xt IH]; intros ys; [cbn [trapezoids]; rewrite c_zero; auto|].
  destruct ys as [|y0 yt]; [cbn [trapezoids map]; rewrite c_zero; auto|].
  specialize (IH yt). destruct xt as [|x1 xt]; [cbn [trapezoids map]; rewrite c_zero; auto|].
  destruct yt as [|y1 yt]; [cbn [trapezoids map]; rewrite c_zero; auto|].
  change (map (xmul (Fin c)) (y0 :: y1 :: yt)) with (xmul (Fin c) y0 :: map (xmul (Fin c)) (y1 :: yt)).
  cbn [map] in *. cbn [trapezoids] in IH |- *. rewrite IH. rewrite add_c, mul_c_r, add_c by auto. auto.
Qed.
