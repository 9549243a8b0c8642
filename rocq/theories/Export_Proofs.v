(** Proofs about exported tables and about the velocity density of imported distributions. *)
From Coq Require Import Reals ZArith Lra Lia Bool Psatz.
From Coquelicot Require Import Coquelicot.
From Coq Require Import List.
From Verif Require Import Base XrFacts Analysis Quadrature Interpolation Erf Astronomy_Model Astronomy_Proofs Distribution_Model Distribution_Proofs Atom_Model
  Halo_Model Halo_Proofs Eta_Proofs HaloState_Proofs HaloMarginal_Proofs HaloFinal_Proofs HaloEta_Proofs AtomTables_Proofs Formulas_Proofs ElectronBins_Proofs Average_Model Average_Proofs.
Import ListNotations.
Local Open Scope R_scope.

(** Specification: the i-th of n points from a to b, evenly spaced or evenly spaced in the logarithm. *)
Definition point (a b : R) (n : nat) (log_scale : bool) (i : nat) : R :=
  if log_scale then a * Rpower (b / a) (INR i / INR (n - 1)) else a + INR i / INR (n - 1) * (b - a).
(** Specification: the file holds n rows, the i-th of which is the i-th point in km/s and the function there in s/km. *)
Definition holds_rows (rows : list (xr * xr)) (f : R -> R) (n : nat) (p : nat -> R) : Prop :=
  length rows = n /\ forall i, (i < n)%nat -> nth_error rows i = Some (Fin (p i / (km / sec)), Fin (f (p i) / (sec / km))).

Lemma speed_points a b n log_scale : (2 <= n)%nat -> 0 <= a < b -> (log_scale = true -> 0 < a) ->
  speed_list (Fin a) (Fin b) n log_scale = map (fun i => Fin (point a b n log_scale i)) (seq 0 n).
Proof.
  intros N AB L. assert (P : 0 < INR (n - 1)) by (apply lt_0_INR; lia). unfold speed_list, point. destruct log_scale.
  - rewrite Log_Space_nodes by (auto; try lra; assert (Q := L eq_refl); lra). reflexivity.
  - unfold Linear_Space. apply map_ext. intros i. rewrite xsub_fin, xdiv_fin, xmul_fin, xadd_fin by lra. f_equal. field. lra.
Qed.
Lemma point_in a b n log_scale i : (2 <= n)%nat -> 0 <= a < b -> (log_scale = true -> 0 < a) -> (i < n)%nat -> a <= point a b n log_scale i <= b.
Proof.
  intros N AB L Hi. assert (P : 0 < INR (n - 1)) by (apply lt_0_INR; lia).
  assert (F : 0 <= INR i / INR (n - 1) <= 1).
  { assert (H := le_INR i (n - 1) ltac:(lia)). assert (H1 := pos_INR i). split; [apply Rmult_le_pos; auto; left; apply Rinv_0_lt_compat; auto|].
    apply Rmult_le_reg_r with (INR (n - 1)); auto. replace (INR i / INR (n - 1) * INR (n - 1)) with (INR i) by (field; lra). lra. }
  unfold point. destruct log_scale; [|nra]. assert (A := L eq_refl). assert (BA : 1 <= b / a) by (apply Rmult_le_reg_r with a; auto; unfold Rdiv; rewrite Rmult_assoc, Rinv_l; lra).
  assert (R1 : 1 <= Rpower (b / a) (INR i / INR (n - 1))) by (rewrite <- (Rpower_O (b / a)) by lra; apply Rle_Rpower; lra).
  assert (R2 : Rpower (b / a) (INR i / INR (n - 1)) <= b / a) by (rewrite <- (Rpower_1 (b / a)) at 2 by lra; apply Rle_Rpower; lra).
  split; [nra|]. replace b with (a * (b / a)) at 2 by (field; lra). apply Rmult_le_compat_l; lra.
Qed.
Lemma point_ends a b n log_scale : (2 <= n)%nat -> 0 <= a < b -> (log_scale = true -> 0 < a) ->
  point a b n log_scale 0 = a /\ point a b n log_scale (n - 1) = b /\
  (forall i j, (i < j)%nat -> point a b n log_scale i < point a b n log_scale j).
Proof.
  intros N AB L. assert (P : 0 < INR (n - 1)) by (apply lt_0_INR; lia). unfold point.
  replace (INR (n - 1) / INR (n - 1)) with 1 by (field; lra). replace (INR 0 / INR (n - 1)) with 0 by (cbn [INR]; field; lra).
  assert (M : forall i j, (i < j)%nat -> INR i / INR (n - 1) < INR j / INR (n - 1)).
  { intros i j H. apply lt_INR in H. apply Rmult_lt_compat_r; auto. apply Rinv_0_lt_compat; auto. }
  destruct log_scale.
  - assert (A := L eq_refl). assert (BA : 1 < b / a) by (apply Rmult_lt_reg_r with a; auto; unfold Rdiv; rewrite Rmult_assoc, Rinv_l; lra).
    split; [rewrite Rpower_O by lra; ring|]. split; [rewrite Rpower_1 by lra; field; lra|].
    intros i j H. apply Rmult_lt_compat_l; auto. apply Rpower_lt; auto.
  - split; [ring|]. split; [ring|]. intros i j H. assert (Q := M i j H). nra.
Qed.
Lemma units_pos : 0 < km / sec /\ 0 < sec / km.
Proof.
  assert (a := km_pos). assert (b := sec_pos). split; apply Rdiv_lt_0_compat; auto.
Qed.
Lemma export_rows_at F f a b n log_scale : (2 <= n)%nat -> 0 <= a < b -> (log_scale = true -> 0 < a) ->
  (forall v, a <= v <= b -> F (Fin v) = Ok (Fin (f v))) ->
  exists rows, Export_Function F (speed_list (Fin a) (Fin b) n log_scale) = Ok rows /\ holds_rows rows f n (point a b n log_scale).
Proof.
  intros N AB L HF. destruct units_pos as [U1 U2]. unfold Export_Function. rewrite speed_points by auto.
  exists (map (fun i => (Fin (point a b n log_scale i / (km / sec)), Fin (f (point a b n log_scale i) / (sec / km)))) (seq 0 n)). split.
  - assert (E : forall l, (forall i, In i l -> (i < n)%nat) -> map_res (fun v => let* y := F v in Ok (xdiv v (xdiv (Fin km) (Fin sec)), xdiv y (xdiv (Fin sec) (Fin km))))
      (map (fun i => Fin (point a b n log_scale i)) l) = Ok (map (fun i => (Fin (point a b n log_scale i / (km / sec)), Fin (f (point a b n log_scale i) / (sec / km)))) l)).
    { assert (S0 : sec <> 0) by (intros Z; rewrite Z in U2; unfold Rdiv in U2; rewrite Rmult_0_l in U2; lra).
      assert (K0 : km <> 0) by (intros Z; rewrite Z in U1; unfold Rdiv in U1; rewrite Rmult_0_l in U1; lra).
      induction l as [|i l IH]; intros H; [reflexivity|]. cbn [map map_res]. rewrite IH by (intros; apply H; right; auto).
      rewrite HF by (apply point_in; auto; apply H; left; auto). cbn [bind]. rewrite (xdiv_fin km sec), (xdiv_fin sec km), !xdiv_fin by lra. reflexivity. }
    apply E. intros i Hi. apply in_seq in Hi. lia.
  - split; [rewrite map_length, seq_length; auto|]. intros i Hi. rewrite nth_error_map.
    assert (E : nth_error (seq 0 n) i = Some i) by (rewrite (nth_error_nth' (seq 0 n) 0%nat) by (rewrite seq_length; auto); rewrite seq_nth by auto; reflexivity).
    rewrite E. reflexivity.
Qed.
(** C100 *)
Lemma export_speed_density F f a b n log_scale : (2 <= n)%nat -> 0 <= a < b -> (log_scale = true -> 0 < a) ->
  (forall v, a <= v <= b -> F (Fin v) = Ok (Fin (f v))) ->
  (exists rows, Export_Speed_Density F (Fin a) (Fin b) n log_scale = Ok rows /\ holds_rows rows f n (point a b n log_scale)) /\
  point a b n log_scale 0 = a /\ point a b n log_scale (n - 1) = b /\
  (forall i j, (i < j)%nat -> point a b n log_scale i < point a b n log_scale j).
Proof. intros N AB L HF. split; [apply export_rows_at; auto|apply point_ends; auto]. Qed.
Lemma export_eta E f a b n log_scale : (2 <= n)%nat -> 0 <= a < b -> (log_scale = true -> 0 < a) ->
  (forall v, a <= v <= b -> E (Fin v) = Ok (Fin (f v))) ->
  exists rows, Export_Eta_Function E (Fin a) (Fin b) n log_scale = Ok rows /\ holds_rows rows f n (point a b n log_scale).
Proof. intros N AB L HF. apply export_rows_at; auto. Qed.
(** Logarithmic export of a distribution whose speeds start at zero. *)
Lemma Log_Space_zero b n : (2 <= n)%nat -> 0 < b -> Log_Space (Fin 0) (Fin b) n = repeat NaN n.
Proof.
  intros N B. assert (P : 0 < INR (n - 1)) by (apply lt_0_INR; lia).
  assert (L0 : xlog (Fin 0) = NInf) by (unfold xlog, rpos, rneg; destruct (Rlt_dec 0 0); [lra|]; reflexivity).
  unfold Log_Space. rewrite L0, xlog_fin by auto.
  assert (E : forall i, xexp (NInf + Fin (INR i) * ((Fin (ln b) - NInf) / Fin (INR (n - 1))))%xr = NaN).
  { intros i. assert (Q : ((Fin (ln b) - NInf) / Fin (INR (n - 1)))%xr = PInf).
    { cbn. unfold inf_sign, rpos, rneg. destruct (Rlt_dec 0 (INR (n - 1))); [|lra]. destruct (Rlt_dec (INR (n - 1)) 0); [lra|]. reflexivity. }
    assert (I0 := pos_INR i). rewrite Q. cbn. unfold inf_sign, rpos, rneg. destruct (Rlt_dec 0 (INR i)), (Rlt_dec (INR i) 0); try lra; reflexivity. }
  rewrite (map_ext _ (fun _ => NaN)) by (intros; apply E). clear. generalize 0%nat. induction n as [|n IH]; intros k; [reflexivity|]. cbn [seq map repeat]. f_equal. apply IH.
Qed.
Lemma export_zero F b n : (2 <= n)%nat -> 0 < b -> (exists y, F NaN = Ok y) ->
  exists rows, Export_Speed_Density F (Fin 0) (Fin b) n true = Ok rows /\ length rows = n /\ forall r, In r rows -> fst r = NaN.
Proof.
  intros N B [y Y]. unfold Export_Speed_Density, speed_list. rewrite Log_Space_zero by auto. unfold Export_Function. clear N.
  induction n as [|n (rows & E & L & H)]; [exists []; repeat split; intros r []|]. cbn [repeat map_res]. rewrite Y. cbn [bind]. rewrite E.
  eexists. split; [reflexivity|]. split; [cbn [length]; f_equal; auto|]. intros r [<- | Hr]; [reflexivity|auto].
Qed.

(** Imported distributions: the speed density is not the angular integral of the velocity density, which stays the zero of the base class. *)
Lemma imported_velocity_zero I2 v : ideal_quadrature_2D I2 -> 0 <= v -> PDF_Speed_Base I2 PDF_Velocity_default (Fin v) = Ok (Fin 0).
Proof. intros H2 V. rewrite (base_speed_isotropic I2 _ (fun _ => 0)); auto. do 2 f_equal. ring. Qed.
Lemma imported_marginal_refuted : exists I I2 I3 J s, ideal_quadrature I /\ ideal_quadrature_2D I2 /\ ideal_quadrature_3D I3 /\ ideal_interpolation J /\
  Imported_of_table I J (map node [(1, Fin (1/2)); (2, Fin (1/2)); (3, Fin (1/2))]) (Fin 1) = Ok s /\
  (forall v, 1 <= v <= 3 -> Imported_PDF_Speed J s (Fin v) = Ok (Fin (1/2)) /\ PDF_Speed_Base I2 PDF_Velocity_default (Fin v) = Ok (Fin 0)) /\
  Average_Velocity I3 PDF_Velocity_default (im_dmin s) (im_dmax s) = Ok (Fin 0, Fin 0, Fin 0) /\
  PDF_Norm I (Imported_PDF_Speed J s) (im_dmin s) (im_dmax s) = Ok (Fin 1).
Proof.
  assert (X : exists s, Imported_of_table reference_Integrate reference_Interpolation (map node [(1, Fin (1/2)); (2, Fin (1/2)); (3, Fin (1/2))]) (Fin 1) = Ok s).
  { cbn [map]. unfold node. cbn [fst snd]. apply (reference_import _ _ _ _ _ 3); [lra|reflexivity]. }
  destruct X as [s H]. exists reference_Integrate, reference_quadrature_2D, reference_quadrature_3D, reference_Interpolation, s.
  assert (Inc : increasing [(1, Fin (1/2)); (2, Fin (1/2)); (3, Fin (1/2))]) by (unfold increasing; repeat constructor; cbn; lra).
  assert (IM : imported reference_Integrate reference_Interpolation (1, Fin (1/2)) [(2, Fin (1/2)); (3, Fin (1/2))] s) by (left; exists (Fin 1); exact H).
  assert (D : im_dmin s = Fin 1 /\ im_dmax s = Fin 3).
  { destruct (imported_inv _ _ _ _ _ IM) as (nm & fl & rho & flag & E). apply import_inv in E. destruct E as (E1 & E2 & _). split; auto. }
  destruct D as [D1 D2].
  assert (V : forall v, 1 <= v <= 3 -> Imported_PDF_Speed reference_Interpolation s (Fin v) = Ok (Fin (1/2))).
  { intros v Hv. destruct (imported_density _ _ _ _ _ ideal_interpolation_exists Inc IM) as (_ & _ & B).
    destruct (B (1/2) (1/2) v) as (y & Y & Y2); [|cbn; lra|].
    - intros q [<- | [<- | [<- | []]]]; cbn; eexists; split; try reflexivity; lra.
    - rewrite Y. do 2 f_equal. lra. }
  split; [apply ideal_quadrature_exists|]. split; [apply ideal_quadrature_2D_exists|]. split; [apply ideal_quadrature_3D_exists|].
  split; [apply ideal_interpolation_exists|]. split; [auto|]. split; [|split].
  - intros v Hv. split; auto. apply imported_velocity_zero; [apply ideal_quadrature_2D_exists|lra].
  - rewrite D1, D2. apply average_default; [apply ideal_quadrature_3D_exists|lra].
  - unfold PDF_Norm. rewrite D1, D2. assert (K := is_RInt_const (V := R_NormedModule) 1 3 (1/2)).
    rewrite (ideal_quadrature_exists _ (fun _ => 1/2) 1 3).
    + do 2 f_equal. rewrite (is_RInt_unique _ _ _ _ K). unfold scal; cbn; unfold mult; cbn. field.
    + intros x Hx. rewrite Rmin_left, Rmax_right in Hx by lra. apply V; auto.
    + eexists. exact K.
Qed.

(** Witnesses. *)
Lemma mean_instance : (exists s, halo_history s 2 (V3 0 0 (-5)) 6 /\
  Average_Velocity reference_quadrature_3D (PDF_Velocity s) (h_dmin s) (h_dmax s) = Ok (Fin 0, Fin 0, Fin 5)) /\
  (exists s, halo_history s 2 (V3 3 4 0) 6 /\ orthonormal (V3 (3/5) (4/5) 0) (V3 (-4/5) (3/5) 0) (V3 0 0 1) /\ V3 3 4 0 = vscale (vnorm (V3 3 4 0)) (V3 (3/5) (4/5) 0)).
Proof.
  split.
  - exists (SHM_of_velocity 1 2 (V3 0 0 (-5)) 6). assert (H := hh_velocity 1 2 (V3 0 0 (-5)) 6). split; auto.
    rewrite (average_halo _ _ 2 (-5) 6 ideal_quadrature_3D_exists H) by (try lra; rewrite Rabs_left; lra). do 3 f_equal. ring.
  - exists (SHM_of_velocity 1 2 (V3 3 4 0) 6). split; [apply hh_velocity|]. split; [unfold orthonormal, vdot; cbn [vx vy vz]; repeat split; field|].
    assert (N : vnorm (V3 3 4 0) = 5) by (unfold vnorm, vdot; cbn [vx vy vz]; replace (3 * 3 + 4 * 4 + 0 * 0) with (5 * 5) by ring; apply sqrt_square; lra).
    rewrite N. unfold vscale. cbn [vx vy vz]. f_equal; field.
Qed.
Lemma average_instance : ideal_quadrature_3D reference_quadrature_3D /\ volume_integral (fun v c phi => vz (Spherical_Coordinates v (acos c) phi) * (1 + c)) 0 1 (-1) 1 0 (2 * PI) (PI / 3).
Proof.
  split; [apply ideal_quadrature_3D_exists|].
  - exists (fun v c => 2 * PI * v ^ 3 * (c + c * c)), (fun v => 2 * PI * v ^ 3 * (2 / 3)). split; [|split].
    + intros v c Hv Hc. apply (is_RInt_ext (fun _ => v * v * (v * c * (1 + c)))).
      * intros phi _. unfold Spherical_Coordinates. cbn [vz]. rewrite cos_acos by lra. reflexivity.
      * assert (K := is_RInt_const (V := R_NormedModule) 0 (2 * PI) (v * v * (v * c * (1 + c)))).
        match type of K with is_RInt _ _ _ ?z => replace (2 * PI * v ^ 3 * (c + c * c)) with z; auto end. unfold scal; cbn; unfold mult; cbn. ring.
    + intros v Hv. replace (2 * PI * v ^ 3 * (2 / 3)) with (2 * PI * v ^ 3 * (1 ^ 2 / 2 + 1 ^ 3 / 3) - 2 * PI * v ^ 3 * ((-1) ^ 2 / 2 + (-1) ^ 3 / 3)) by field.
      apply (RInt_by_derive (fun c => 2 * PI * v ^ 3 * (c ^ 2 / 2 + c ^ 3 / 3))); [lra| |]; intros c _; [auto_derive; auto; field|apply continuous_of_ex_derive; auto_derive; auto].
    + replace (PI / 3) with (2 * PI * (1 ^ 4 / 4) * (2 / 3) - 2 * PI * (0 ^ 4 / 4) * (2 / 3)) by field.
      apply (RInt_by_derive (fun v => 2 * PI * (v ^ 4 / 4) * (2 / 3))); [lra| |]; intros c _; [auto_derive; auto; field|apply continuous_of_ex_derive; auto_derive; auto].
Qed.
Lemma export_instance : exists s f, halo_history s 2 (V3 0 0 5) 6 /\ (forall v, 0 <= v <= 11 -> Ok (PDF_Speed_SHM s (Fin v)) = Ok (Fin (f v))) /\
  h_dmin s = Fin 0 /\ h_dmax s = Fin 11 /\
  exists rows, Export_Speed_Density (fun v => Ok (PDF_Speed_SHM s v)) (h_dmin s) (h_dmax s) 100 false = Ok rows /\ holds_rows rows f 100 (point 0 11 100 false).
Proof.
  assert (H := hh_velocity 1 2 (V3 0 0 5) 6). destruct (history_consistent _ _ _ _ H) as [CS _]. rewrite axis_norm, Rabs_right in CS by lra.
  assert (D := CS). destruct D as (_ & _ & _ & D0 & D1 & _). replace (6 + 5) with 11 in D1 by ring.
  exists (SHM_of_velocity 1 2 (V3 0 0 5) 6), (pdf_all (gauss3 (6 / 2)) 2 5 6). split; auto.
  assert (E : forall v, Ok (PDF_Speed_SHM (SHM_of_velocity 1 2 (V3 0 0 5) 6) (Fin v)) = Ok (Fin (pdf_all (gauss3 (6 / 2)) 2 5 6 v))).
  { intros v. f_equal. apply PDF_Speed_all; auto; lra. }
  split; [auto|]. split; [auto|]. split; [auto|]. rewrite D0, D1. apply export_rows_at; [repeat constructor|lra|discriminate|]. intros; apply E.
Qed.
Lemma export_log_refuted : exists s, halo_history s 2 (V3 0 0 5) 6 /\ h_dmin s = Fin 0 /\ h_dmax s = Fin 11 /\
  exists rows, Export_Speed_Density (fun v => Ok (PDF_Speed_SHM s v)) (h_dmin s) (h_dmax s) 100 true = Ok rows /\ length rows = 100%nat /\ forall r, In r rows -> fst r = NaN.
Proof.
  assert (H := hh_velocity 1 2 (V3 0 0 5) 6). destruct (history_consistent _ _ _ _ H) as [CS _]. rewrite axis_norm, Rabs_right in CS by lra.
  destruct CS as (_ & _ & _ & D0 & D1 & _). replace (6 + 5) with 11 in D1 by ring.
  exists (SHM_of_velocity 1 2 (V3 0 0 5) 6). split; auto. split; [auto|]. split; [auto|]. rewrite D0, D1. apply export_zero; [repeat constructor|lra|eauto].
Qed.
