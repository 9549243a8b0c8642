(** The tabulated eta functions (SHM++ and imported distributions) and the default speed density. *)
From Coq Require Import Reals ZArith String Lra Lia Bool Psatz.
From Coquelicot Require Import Coquelicot.
From Coq Require Import List Sorting.Sorted.
From Verif Require Import Base XrFacts Analysis Quadrature Erf Astronomy_Model Astronomy_Proofs Distribution_Model Interpolation
  Halo_Model Halo_Proofs Eta_Proofs HaloState_Proofs HaloShape_Proofs HaloMarginal_Proofs HaloFinal_Proofs Distribution_Proofs.
Import ListNotations.
Local Open Scope R_scope.

(** libphysica::Integrate_2D(f, x1, x2, y1, y2) (external; /repo/src/DM_Distribution.cpp:41), idealised: whenever the integrand
    evaluates to finite numbers g(x, y) on the rectangle and the iterated integral exists, the result is the exact iterated
    integral. Nothing is assumed otherwise. *)
Definition ideal_quadrature_2D (Integrate_2D : integrator2) : Prop :=
  forall F g G a b c d, a <= b -> c <= d ->
    (forall x y, a <= x <= b -> c <= y <= d -> F (Fin x) (Fin y) = Ok (Fin (g x y))) ->
    (forall x, a <= x <= b -> is_RInt (g x) c d (G x)) -> ex_RInt G a b ->
    Integrate_2D F (Fin a) (Fin b) (Fin c) (Fin d) = Ok (Fin (RInt G a b)).
Definition reference_quadrature_2D (F : xr -> xr -> res xr) (a b c d : xr) : res xr :=
  Ok (Fin (RInt (fun x => RInt (fun y => match F (Fin x) (Fin y) with Ok (Fin z) => z | _ => 0 end) (val c) (val d)) (val a) (val b))).
Lemma ideal_quadrature_2D_exists : ideal_quadrature_2D reference_quadrature_2D.
Proof.
  intros F g G a b c d AB CD HF HG EX. unfold reference_quadrature_2D. cbn [val]. do 2 f_equal.
  apply RInt_ext. intros x Hx. rewrite Rmin_left, Rmax_right in Hx by auto.
  rewrite <- (is_RInt_unique _ _ _ _ (HG x ltac:(lra))). apply RInt_ext. intros y Hy. rewrite Rmin_left, Rmax_right in Hy by auto.
  rewrite (HF x y) by lra. reflexivity.
Qed.

(** * Tables *)
Lemma map_res_in {A B} (g : A -> res B) l : forall t x, map_res g l = Ok t -> In x l -> exists y, g x = Ok y /\ In y t.
Proof.
  induction l as [|a l IH]; intros t x H M; [destruct M|]. destruct M as [<- | Hx]; cbn in H; destruct (g a) as [y| | |] eqn:E; try discriminate; cbn in H;
    destruct (map_res g l) as [r| | |] eqn:R; try discriminate; cbn in H; apply Ok_inj in H; subst t.
  - exists y. split; auto. left; auto.
  - destruct (IH r x eq_refl Hx) as (z & Z1 & Z2). exists z. split; auto. right; auto.
Qed.
Definition grid (a b : R) (n i : nat) : R := a + INR i * ((b - a) / INR (S n)).
Lemma grid_in a b n i : a < b -> (i <= S n)%nat -> a <= grid a b n i <= b.
Proof.
  intros AB Hi. unfold grid. apply le_INR in Hi. assert (P := pos_INR i). assert (Q : 0 < INR (S n)) by (apply lt_0_INR; lia).
  assert (0 <= INR i / INR (S n) <= 1).
  { split; [apply Rdiv_le_0_compat; auto|]. apply (Rmult_le_reg_r (INR (S n))); auto. unfold Rdiv. rewrite Rmult_assoc, Rinv_l by lra. lra. }
  replace (INR i * ((b - a) / INR (S n))) with (INR i / INR (S n) * (b - a)) by (field; lra). nra.
Qed.
Lemma table_value (g : xr -> res xr) J a b n t i : ideal_interpolation J -> a < b ->
  map_res (fun v => let* e := g v in Ok (v, e)) (Linear_Space (Fin a) (Fin b) (S (S n))) = Ok t -> (i <= S n)%nat ->
  J t (Fin (grid a b n i)) = g (Fin (grid a b n i)).
Proof.
  intros HJ AB H Hi. assert (L := linear_table _ _ _ _ _ AB H). destruct L as (p & r & -> & Inc & _).
  destruct (HJ p r Inc) as (_ & _ & N & _).
  assert (M : In (Fin (grid a b n i)) (Linear_Space (Fin a) (Fin b) (S (S n)))).
  { rewrite Linear_Space_fin by lia. apply in_map. apply in_map_iff. exists i. split; [reflexivity|]. apply in_seq. lia. }
  destruct (map_res_in _ _ _ _ H M) as (y & Y1 & Y2).
  destruct (g (Fin (grid a b n i))) as [z| | |] eqn:E; try discriminate. cbn [bind] in Y1. apply Ok_inj in Y1. subst y.
  apply in_map_iff in Y2. destruct Y2 as ((u, w) & U1 & U2). unfold node in U1. cbn [fst snd] in U1.
  assert (u = grid a b n i /\ w = z) as [-> ->] by (split; congruence). exact (N _ U2).
Qed.
(** Between the nodes: never outside the range of the values at the nodes. *)
Lemma table_between (g : xr -> res xr) J a b n t lo hi x : ideal_interpolation J -> a < b ->
  map_res (fun v => let* e := g v in Ok (v, e)) (Linear_Space (Fin a) (Fin b) (S (S n))) = Ok t ->
  (forall i, (i <= S n)%nat -> exists y, g (Fin (grid a b n i)) = Ok (Fin y) /\ lo <= y <= hi) -> a <= x <= b ->
  exists y, J t (Fin x) = Ok (Fin y) /\ lo <= y <= hi.
Proof.
  intros HJ AB H Hg Hx. assert (F := map_res_fst _ _ _ H). assert (L := linear_table _ _ _ _ _ AB H). destruct L as (p & r & -> & Inc & Ea & Eb).
  destruct (HJ p r Inc) as (_ & _ & N & B). apply B; [|rewrite Ea, Eb; auto].
  intros q Hq. assert (M : In (Fin (fst q)) (map fst (map node (p :: r)))).
  { rewrite map_map. apply in_map_iff. exists q. auto. }
  rewrite F, Linear_Space_fin in M by lia. rewrite map_map in M. apply in_map_iff in M. destruct M as (i & M1 & M2). apply in_seq in M2.
  apply Fin_inj in M1. change (grid a b n i = fst q) in M1.
  destruct (Hg i ltac:(lia)) as (y & Y & Y2). assert (T := table_value g J a b n _ i HJ AB H ltac:(lia)).
  rewrite M1 in T. rewrite (N q Hq), <- M1, Y in T. apply Ok_inj in T. exists y. auto.
Qed.

(** * C86: the eta function of the SHM++ *)
Lemma eta_SHM_finite rho v0 vel ve x : 0 < v0 -> 0 < ve -> vnorm vel <= ve -> 0 <= x -> exists r, Eta_Function_SHM (SHM_of_velocity rho v0 vel ve) (Fin x) = Fin r.
Proof. intros A B C D. destruct (history_eta _ _ _ _ (hh_velocity rho v0 vel ve) A B C) as (f & E & _ & H & _). rewrite H by auto. eauto. Qed.
Lemma mixture_eta J t rho v0 vel ve e b x q : 0 < v0 -> 0 < ve -> vnorm vel <= ve -> 0 <= x <= ve + vnorm vel ->
  Eta_Function_pp J (with_table t (pp_core (SHM_of_velocity rho v0 vel ve) 1 b)) (Fin x) = Ok (Fin q) ->
  exists r, Eta_Function_SHM (SHM_of_velocity rho v0 vel ve) (Fin x) = Fin r /\
    Eta_Function_pp J (with_table t (pp_core (SHM_of_velocity rho v0 vel ve) e b)) (Fin x) = Ok (Fin ((1 - e) * r + e * q)).
Proof.
  intros H0 He Hle Hx H. destruct (eta_SHM_finite rho v0 vel ve x H0 He Hle (proj1 Hx)) as [r E]. exists r. split; [exact E|]. revert H.
  unfold Eta_Function_pp.
  change (h_dmin (p_base (with_table t (pp_core (SHM_of_velocity rho v0 vel ve) 1 b)))) with (Fin 0).
  change (h_dmin (p_base (with_table t (pp_core (SHM_of_velocity rho v0 vel ve) e b)))) with (Fin 0).
  change (h_dmax (p_base (with_table t (pp_core (SHM_of_velocity rho v0 vel ve) 1 b)))) with (Fin (ve + vnorm vel)).
  change (h_dmax (p_base (with_table t (pp_core (SHM_of_velocity rho v0 vel ve) e b)))) with (Fin (ve + vnorm vel)).
  rewrite !xlt_false by lra.
  change (p_table (with_table t (pp_core (SHM_of_velocity rho v0 vel ve) 1 b))) with t.
  change (p_table (with_table t (pp_core (SHM_of_velocity rho v0 vel ve) e b))) with t.
  destruct (J t (Fin x)) as [y| | |]; cbn [bind]; try discriminate.
  change (p_base _) with (renamed (SHM_of_velocity rho v0 vel ve)).
  change (Eta_Function_SHM (renamed ?s) ?v) with (Eta_Function_SHM s v). rewrite E.
  change (p_eta (with_table t (pp_core (SHM_of_velocity rho v0 vel ve) 1 b))) with (Fin 1).
  change (p_eta (with_table t (pp_core (SHM_of_velocity rho v0 vel ve) e b))) with (Fin e).
  intros H. apply Ok_inj in H. rewrite xsub_fin, xmul_fin in H.
  destruct y as [y| | |]; [|cbn in H; unfold inf_sign in H; repeat (match type of H with context [if ?x then _ else _] => destruct x end; cbn in H); discriminate..].
  rewrite xmul_fin, xadd_fin in H. apply Fin_inj in H. rewrite xsub_fin, !xmul_fin, xadd_fin. do 2 f_equal. rewrite <- H. ring.
Qed.
Lemma history_mixture_eta I I2 J rho v0 vel ve e b l s0 s s1 x q :
  SHMpp_of_velocity I I2 rho v0 vel ve e b = Ok s0 -> pprun s0 l = Ok s -> ppstep s (Set_Eta 1) = Ok s1 ->
  0 < last_v0 v0 (base_ops l) -> 0 < last_vesc ve (base_ops l) ->
  (forall u, last_vel vel (base_ops l) u -> vnorm u <= last_vesc ve (base_ops l) /\ 0 <= x <= last_vesc ve (base_ops l) + vnorm u) ->
  Eta_Function_pp J s1 (Fin x) = Ok (Fin q) ->
  exists u r, last_vel vel (base_ops l) u /\
    Eta_Function_SHM (SHM_of_velocity rho (last_v0 v0 (base_ops l)) u (last_vesc ve (base_ops l))) (Fin x) = Fin r /\
    Eta_Function_pp J s (Fin x) = Ok (Fin ((1 - last_eta e l) * r + last_eta e l * q)).
Proof.
  intros H0 H H1 A B C D. destruct (pp_history _ _ _ _ _ _ _ _ _ _ _ H0 H) as (u & U & ->).
  apply pp_put_eta in H1. subst s1. destruct (C u U) as [C1 C2].
  destruct (mixture_eta _ _ _ _ _ _ (last_eta e l) _ _ _ A B C1 C2 D) as (r & R1 & R2). exists u, r. auto.
Qed.
Lemma history_eta_outside I I2 J rho v0 vel ve e b l s0 s x :
  SHMpp_of_velocity I I2 rho v0 vel ve e b = Ok s0 -> pprun s0 l = Ok s ->
  (x < 0 -> Eta_Function_pp J s (Fin x) = Exit) /\
  ((forall u, last_vel vel (base_ops l) u -> last_vesc ve (base_ops l) + vnorm u < x) -> 0 <= x -> Eta_Function_pp J s (Fin x) = Ok (Fin 0)).
Proof.
  intros H0 H. destruct (pp_history _ _ _ _ _ _ _ _ _ _ _ H0 H) as (u & U & ->). unfold Eta_Function_pp.
  change (h_dmin (p_base (with_table _ (pp_core (SHM_of_velocity ?rho ?v0 ?vel ?ve) ?e ?b)))) with (Fin 0).
  change (h_dmax (p_base (with_table _ (pp_core (SHM_of_velocity ?rho ?v0 ?vel ?ve) ?e ?b)))) with (Fin (ve + vnorm vel)).
  split.
  - intros X. rewrite xlt_true by lra. reflexivity.
  - intros X Y. specialize (X u U). rewrite xlt_false by lra. rewrite xlt_true by lra. reflexivity.
Qed.

(** At the nodes of its table the sausage part is the integral of the sausage speed density over the speed. *)
Lemma sausage_eta_nodes I I2 J rho v0 vel ve e b s s1 f k (q : R) : ideal_quadrature I -> ideal_interpolation J -> 0 < v0 -> 0 < ve -> vnorm vel <= ve ->
  SHMpp_of_velocity I I2 rho v0 vel ve e b = Ok s -> ppstep s (Set_Eta 1) = Ok s1 ->
  (forall v, 0 < v <= ve + vnorm vel -> PDF_Speed_pp I2 s1 (Fin v) = Ok (Fin (f v))) ->
  (1 <= k <= 99)%nat -> let x := INR k * ((ve + vnorm vel) / 99) in
  is_RInt (fun v => f v / v) x (ve + vnorm vel) q -> Eta_Function_pp J s1 (Fin x) = Ok (Fin q).
Proof.
  intros HI HJ H0 He Hle HC H1 Hf Hk x Q. set (D := ve + vnorm vel) in *.
  assert (Vo := vnorm_nonneg vel). assert (DP : 0 < D) by (unfold D; lra).
  rewrite SHMpp_of_velocity_eq in HC. assert (CC := ctor_core _ _ _ _ _ _ HC).
  assert (T : exists t, map_res (fun v => let* e := Eta_Function_S I I2 (pp_core (SHM_of_velocity rho v0 vel ve) e b) v in Ok (v, e))
                    (Linear_Space (Fin 0) (Fin D) (S (S 98))) = Ok t /\ p_table s = t).
  { unfold SHMpp_of_base, Interpolate_Eta_Function_S in HC. change (Normalize_PDF_pp _) with (pp_core (SHM_of_velocity rho v0 vel ve) e b) in HC.
    change (h_dmin (p_base (pp_core (SHM_of_velocity rho v0 vel ve) e b))) with (Fin 0) in HC.
    change (h_dmax (p_base (pp_core (SHM_of_velocity rho v0 vel ve) e b))) with (Fin D) in HC.
    match type of HC with context [map_res ?g ?l] => destruct (map_res g l) as [t| | |] eqn:E; try discriminate HC end.
    cbn [bind] in HC. apply Ok_inj in HC. exists t. split; auto. rewrite <- HC. reflexivity. }
  destruct T as (t & T1 & T2). rewrite CC, T2 in H1. apply pp_put_eta in H1. clear CC HC.
  assert (EX : x = grid 0 D 98 k).
  { unfold x, grid. change (INR (S 98)) with (INR 99). replace (INR 99) with 99 by (rewrite INR_IZR_INZ; reflexivity). lra. }
  assert (X : 0 < x <= D).
  { split; [unfold x; apply Rmult_lt_0_compat; [apply lt_0_INR; lia|lra]|]. rewrite EX. apply grid_in; auto; lia. }
  assert (TV := table_value _ J 0 D 98 t k HJ DP T1 ltac:(lia)). rewrite <- EX in TV.
  unfold Eta_Function_pp. subst s1.
  change (h_dmin (p_base (with_table _ (pp_core (SHM_of_velocity ?rho ?v0 ?vel ?ve) ?e ?b)))) with (Fin 0) in *.
  change (h_dmax (p_base (with_table _ (pp_core (SHM_of_velocity ?rho ?v0 ?vel ?ve) ?e ?b)))) with (Fin D) in *.
  rewrite !xlt_false by lra. change (p_table (with_table t _)) with t. rewrite TV.
  destruct (eta_SHM_finite rho v0 vel ve x H0 He Hle ltac:(lra)) as [r E].
  (* the sausage density at the abscissas of the integral *)
  assert (HS : forall v, x <= v <= D -> PDF_Speed_S I2 (pp_core (SHM_of_velocity rho v0 vel ve) e b) (Fin v) = Ok (Fin (f v))).
  { intros v Hv. assert (P := Hf v ltac:(lra)). unfold PDF_Speed_pp in P.
    change (PDF_Speed_S I2 (with_table t (pp_core (SHM_of_velocity rho v0 vel ve) 1 b)) (Fin v))
      with (PDF_Speed_S I2 (pp_core (SHM_of_velocity rho v0 vel ve) e b) (Fin v)) in P.
    destruct (PDF_Speed_S _ _ _) as [y| | |]; try discriminate P. cbn [bind] in P. apply Ok_inj in P.
    change (p_base _) with (renamed (SHM_of_velocity rho v0 vel ve)) in P.
    change (PDF_Speed_SHM (renamed ?s) ?v) with (PDF_Speed_SHM s v) in P.
    destruct (history_nonneg _ _ _ _ v (hh_velocity rho v0 vel ve) H0 He Hle) as (p & EP & _). rewrite EP in P.
    change (p_eta _) with (Fin 1) in P. rewrite xsub_fin, xmul_fin in P.
    destruct y as [y| | |]; [|cbn in P; unfold inf_sign in P; repeat (match type of P with context [if ?x then _ else _] => destruct x end; cbn in P); discriminate..].
    rewrite xmul_fin, xadd_fin in P. apply Fin_inj in P. do 2 f_equal. rewrite <- P. ring. }
  assert (V : Eta_Function_S I I2 (pp_core (SHM_of_velocity rho v0 vel ve) e b) (Fin x) = Ok (Fin q)).
  { unfold Eta_Function_S.
    change (h_dmin (p_base (pp_core (SHM_of_velocity rho v0 vel ve) e b))) with (Fin 0).
    change (h_dmax (p_base (pp_core (SHM_of_velocity rho v0 vel ve) e b))) with (Fin D).
    rewrite xlt_false by lra. cbn [orb]. destruct (Rle_lt_or_eq_dec x D (proj2 X)) as [L | L].
    - rewrite xle_false by lra. rewrite (HI _ (fun v => f v / v) x D).
      + do 2 f_equal. apply is_RInt_unique, Q.
      + intros v Hv. rewrite Rmin_left, Rmax_right in Hv by lra. rewrite HS by lra. cbn [bind]. rewrite xdiv_fin by lra. reflexivity.
      + exists q. exact Q.
    - rewrite xle_true by lra. do 2 f_equal. rewrite L in Q. symmetry. rewrite <- (is_RInt_unique _ _ _ _ Q). exact (RInt_point (V := R_CompleteNormedModule) D (fun v => f v / v)). }
  rewrite V. cbn [bind]. change (p_base _) with (renamed (SHM_of_velocity rho v0 vel ve)).
  change (Eta_Function_SHM (renamed ?s) ?v) with (Eta_Function_SHM s v). rewrite E. change (p_eta _) with (Fin 1).
  rewrite xsub_fin, !xmul_fin, xadd_fin. do 2 f_equal. ring.
Qed.

(** * C87: the default speed density *)
Lemma acos_fin c : -1 <= c <= 1 -> xacos (Fin c) = Fin (acos c).
Proof. intros H. unfold xacos. destruct (Rle_dec (-1) c); [|lra]. destruct (Rle_dec c 1); [reflexivity|lra]. Qed.
Lemma sin_acos' c : -1 <= c <= 1 -> sin (acos c) = sqrt (1 - c * c).
Proof. intros H. rewrite sin_acos by lra. reflexivity. Qed.
Lemma spherical_polar v c phi : -1 <= c <= 1 -> Spherical_Coordinates v (acos c) phi = polar (V3 0 0 1) (V3 1 0 0) (V3 0 1 0) v c phi.
Proof.
  intros H. unfold Spherical_Coordinates, polar, vadd, vscale. cbn [vx vy vz]. rewrite sin_acos', cos_acos by lra. f_equal; ring.
Qed.
Lemma spherical_norm v c phi : 0 <= v -> -1 <= c <= 1 -> vnorm (Spherical_Coordinates v (acos c) phi) = v.
Proof.
  intros Hv H. unfold vnorm, vdot, Spherical_Coordinates. cbn [vx vy vz]. rewrite cos_acos, sin_acos' by lra.
  assert (Q : sqrt (1 - c * c) * sqrt (1 - c * c) = 1 - c * c) by (apply sqrt_sqrt; nra).
  assert (P := sin2_cos2 phi). unfold Rsqr in P. set (S := sqrt (1 - c * c)) in *.
  replace (v * S * cos phi * (v * S * cos phi) + v * S * sin phi * (v * S * sin phi) + v * c * (v * c))
    with (v * v * (S * S) * (sin phi * sin phi + cos phi * cos phi) + v * v * (c * c)) by ring.
  rewrite P, Q. replace (v * v * (1 - c * c) * 1 + v * v * (c * c)) with (v * v) by ring. apply sqrt_square; auto.
Qed.
Lemma base_speed_axial I2 pdf f v p : ideal_quadrature_2D I2 ->
  (forall c phi, -1 <= c <= 1 -> pdf (Spherical_Coordinates v (acos c) phi) = Fin (f c)) ->
  is_RInt (fun c => 2 * PI * v ^ 2 * f c) (-1) 1 p -> PDF_Speed_Base I2 pdf (Fin v) = Ok (Fin p).
Proof.
  intros H2 Hp Q. unfold PDF_Speed_Base. change (xopp (Fin 1)) with (Fin (-1)). rewrite xmul_fin.
  assert (PP := PI_RGT_0).
  rewrite (H2 _ (fun c phi => v * v * f c) (fun c => 2 * PI * v ^ 2 * f c)); try lra.
  - do 2 f_equal. apply is_RInt_unique, Q.
  - intros c phi Hc _. unfold angular_integrand. rewrite acos_fin by auto. rewrite Hp by auto. rewrite !xmul_fin. reflexivity.
  - intros c Hc. assert (K := is_RInt_const (V := R_NormedModule) 0 (2 * PI) (v * v * f c)).
    match type of K with is_RInt _ _ _ ?z => replace (2 * PI * v ^ 2 * f c) with z; auto end.
    unfold scal; cbn; unfold mult; cbn. ring.
  - exists p. exact Q.
Qed.
Lemma base_speed_isotropic I2 pdf g v : ideal_quadrature_2D I2 -> 0 <= v -> (forall w, vnorm w = v -> pdf w = Fin (g v)) ->
  PDF_Speed_Base I2 pdf (Fin v) = Ok (Fin (4 * PI * v ^ 2 * g v)).
Proof.
  intros H2 Hv Hp. apply (base_speed_axial I2 pdf (fun _ => g v)); auto.
  - intros c phi Hc. apply Hp, spherical_norm; auto.
  - assert (K := is_RInt_const (V := R_NormedModule) (-1) 1 (2 * PI * v ^ 2 * g v)).
    match type of K with is_RInt _ _ _ ?z => replace (4 * PI * v ^ 2 * g v) with z; auto end.
    unfold scal; cbn; unfold mult; cbn. ring.
Qed.
(** The halo of an observer moving along the polar axis: the default agrees with the closed formula. *)
Lemma base_speed_halo I2 s v0 vo ve v : ideal_quadrature_2D I2 -> halo_history s v0 (V3 0 0 vo) ve -> 0 < v0 -> 0 <= vo <= ve -> 0 < ve ->
  0 < v <= ve + vo -> PDF_Speed_Base I2 (PDF_Velocity s) (Fin v) = Ok (PDF_Speed_SHM s (Fin v)).
Proof.
  intros H2 HH H0 Ho He Hv.
  assert (VN : vnorm (V3 0 0 vo) = vo).
  { unfold vnorm, vdot. cbn [vx vy vz]. replace (0 * 0 + 0 * 0 + vo * vo) with (vo * vo) by ring. apply sqrt_square; lra. }
  assert (O : orthonormal (V3 0 0 1) (V3 1 0 0) (V3 0 1 0)) by (unfold orthonormal, vdot; cbn [vx vy vz]; repeat split; ring).
  assert (EV : V3 0 0 vo = vscale (vnorm (V3 0 0 vo)) (V3 0 0 1)) by (rewrite VN; unfold vscale; cbn [vx vy vz]; f_equal; ring).
  destruct (history_marginal _ _ _ _ _ _ _ HH H0 He ltac:(lra) O EV) as (f & p & F1 & F2 & F3 & _).
  destruct (history_consistent _ _ _ _ HH) as [CS VE]. rewrite VN in *.
  assert (CS' := CS). destruct (PDF_Velocity_any s v0 vo ve (vadd (Spherical_Coordinates v (acos (-1)) 0) (V3 0 0 vo)) CS' H0 He) as (f1 & F1' & _).
  set (h := fun c => if Req_EM_T c (-1) then f1 else f v c).
  rewrite F2. apply (base_speed_axial I2 _ h).
  - auto.
  - intros c phi Hc. unfold h. destruct (Req_EM_T c (-1)) as [-> | N].
    + unfold PDF_Velocity. rewrite VE, <- F1'. f_equal. f_equal. rewrite !spherical_polar by lra. unfold polar, vadd, vscale. cbn [vx vy vz].
      replace (1 - -1 * -1) with 0 by ring. rewrite sqrt_0. f_equal; ring.
    + rewrite spherical_polar by auto. apply F1; lra.
  - apply (is_RInt_ext (fun c => 2 * PI * v ^ 2 * f v c)); [|apply F3; lra].
    intros c Hc. rewrite Rmin_left, Rmax_right in Hc by lra. unfold h. destruct (Req_EM_T c (-1)); [lra|reflexivity].
Qed.

(** * C88: imported distributions *)
Lemma import_inv I J nm file rho flag p r s : import_table I J nm file rho flag (map node (p :: r)) = Ok s ->
  im_dmin s = Fin (fst p) /\ im_dmax s = Fin (fst (last r p)) /\ im_pdf_table s = map node (p :: r) /\ im_rho s = rho /\
  map_res (fun v => let* e := Eta_Function_Base I (Imported_PDF_Speed J s) (Fin (fst p)) (Fin (fst (last r p))) v in Ok (v, e))
    (Linear_Space (Fin (fst p)) (Fin (fst (last r p))) (S (S 498))) = Ok (im_eta_table s).
Proof.
  unfold import_table. cbn [map table_domain bind fst snd]. rewrite last_map. unfold node at 1 2 3 4. cbn [fst snd].
  unfold Interpolate_Eta. cbn [im_dmin im_dmax]. change 500%nat with (S (S 498)).
  match goal with |- context [map_res ?g ?l] => destruct (map_res g l) as [t| | |] eqn:E; try discriminate end.
  cbn [bind]. intros H. apply Ok_inj in H. subst s. cbn [im_dmin im_dmax im_pdf_table im_rho im_eta_table]. repeat (split; [reflexivity|]).
  rewrite <- E. reflexivity.
Qed.
Definition imported (I : integrator) (J : interpolator) (p : R * xr) (r : list (R * xr)) (s : Imported) : Prop :=
  (exists rho, Imported_of_table I J (map node (p :: r)) rho = Ok s) \/
  (exists rho path rows, Imported_of_file I J rho path rows = Ok s /\ Import_Table rows = map node (p :: r)).
Lemma imported_inv I J p r s : imported I J p r s -> exists nm file rho flag, import_table I J nm file rho flag (map node (p :: r)) = Ok s.
Proof. intros [(rho & H) | (rho & path & rows & H & E)]; unfold Imported_of_table, Imported_of_file in H; [|rewrite E in H]; eauto. Qed.
Lemma imported_density I J p r s : ideal_interpolation J -> increasing (p :: r) -> imported I J p r s ->
  let a := fst p in let b := fst (last r p) in
  (forall v, v < a \/ b < v -> Imported_PDF_Speed J s (Fin v) = Ok (Fin 0)) /\
  (forall q, In q (p :: r) -> Imported_PDF_Speed J s (Fin (fst q)) = Ok (snd q)) /\
  (forall lo hi v, (forall q, In q (p :: r) -> exists y, snd q = Fin y /\ lo <= y <= hi) -> a <= v <= b ->
     exists y, Imported_PDF_Speed J s (Fin v) = Ok (Fin y) /\ lo <= y <= hi).
Proof.
  intros HJ Inc H. destruct (imported_inv _ _ _ _ _ H) as (nm & file & rho & flag & H'). apply import_inv in H'.
  destruct H' as (E1 & E2 & E3 & _). cbv zeta. unfold Imported_PDF_Speed. rewrite E1, E2, E3. destruct (HJ p r Inc) as (_ & _ & N & B).
  assert (IN : forall q, In q (p :: r) -> fst p <= fst q <= fst (last r p)).
  { intros q Hq. destruct (Rlt_dec (fst q) (fst p)) as [L | L].
    - destruct (HJ p r Inc) as (X & _). specialize (X (fst q) (or_introl L)). rewrite (N q Hq) in X. discriminate.
    - destruct (Rlt_dec (fst (last r p)) (fst q)) as [L2 | L2]; [|lra].
      destruct (HJ p r Inc) as (X & _). specialize (X (fst q) (or_intror L2)). rewrite (N q Hq) in X. discriminate. }
  split; [|split].
  - intros v [Hv | Hv].
    + rewrite xlt_true by auto. reflexivity.
    + destruct (xlt (Fin v) (Fin (fst p))); [reflexivity|]. rewrite xlt_true by auto. reflexivity.
  - intros q Hq. specialize (IN q Hq). rewrite !xlt_false by lra. cbn [orb]. apply N; auto.
  - intros lo hi v Hq Hv. rewrite !xlt_false by lra. cbn [orb]. apply B; auto.
Qed.
Lemma imported_eta I J p r s f : ideal_quadrature I -> ideal_interpolation J -> increasing (p :: r) -> 0 < fst p < fst (last r p) -> imported I J p r s ->
  let a := fst p in let b := fst (last r p) in
  (forall x, x < a -> Imported_Eta_Function J s (Fin x) = Exit) /\
  (forall x, b < x -> Imported_Eta_Function J s (Fin x) = Ok (Fin 0)) /\
  ((forall v, a <= v <= b -> Imported_PDF_Speed J s (Fin v) = Ok (Fin (f v))) ->
   (forall k (q : R), (k <= 499)%nat -> is_RInt (fun v => f v / v) (a + INR k * ((b - a) / 499)) b q ->
     Imported_Eta_Function J s (Fin (a + INR k * ((b - a) / 499))) = Ok (Fin q)) /\
   (forall (T : R) x, (forall v, a <= v <= b -> 0 <= f v) -> is_RInt (fun v => f v / v) a b T -> a <= x <= b ->
     exists y, Imported_Eta_Function J s (Fin x) = Ok (Fin y) /\ 0 <= y <= T)).
Proof.
  intros HI HJ Inc AB H. destruct (imported_inv _ _ _ _ _ H) as (nm & file & rho & flag & H'). apply import_inv in H'.
  destruct H' as (E1 & E2 & E3 & _ & E5). cbv zeta. set (a := fst p) in *. set (b := fst (last r p)) in *.
  unfold Imported_Eta_Function. rewrite E1, E2. split; [|split].
  - intros x Hx. rewrite xlt_true by auto. reflexivity.
  - intros x Hx. rewrite xlt_false by lra. rewrite xlt_true by auto. reflexivity.
  - intros Hf.
    assert (EB : forall x (q : R), a <= x <= b -> is_RInt (fun v => f v / v) x b q -> Eta_Function_Base I (Imported_PDF_Speed J s) (Fin a) (Fin b) (Fin x) = Ok (Fin q)).
    { intros x q Hx Q. unfold Eta_Function_Base. rewrite xlt_false by lra. destruct (Rle_lt_or_eq_dec x b (proj2 Hx)) as [L | L].
      - rewrite xle_false by lra. rewrite (HI _ (fun v => f v / v) x b).
        + do 2 f_equal. apply is_RInt_unique, Q.
        + intros v Hv. rewrite Rmin_left, Rmax_right in Hv by lra. rewrite Hf by lra. cbn [bind]. rewrite xdiv_fin by lra. rewrite xmul_fin.
          do 2 f_equal. field. lra.
        + exists q. exact Q.
      - rewrite xle_true by lra. do 2 f_equal. rewrite L in Q. symmetry. rewrite <- (is_RInt_unique _ _ _ _ Q).
        exact (RInt_point (V := R_CompleteNormedModule) b (fun v => f v / v)). }
    assert (G : forall k, a + INR k * ((b - a) / 499) = grid a b 498 k).
    { intros k. unfold grid. replace (INR (S 498)) with 499 by (rewrite INR_IZR_INZ; reflexivity). reflexivity. }
    split.
    + intros k q Hk Q. rewrite G in *. assert (X := grid_in a b 498 k (proj2 AB) ltac:(lia)). rewrite !xlt_false by lra.
      rewrite (table_value _ J a b 498 _ k HJ (proj2 AB) E5) by lia. apply EB; auto.
    + intros T x Hp Q Hx. rewrite !xlt_false by lra. apply (table_between _ J a b 498 _ 0 T x HJ (proj2 AB) E5); auto.
      intros i Hi. assert (X := grid_in a b 498 i (proj2 AB) Hi). set (y := grid a b 498 i) in *.
      assert (X1 : ex_RInt (fun v => f v / v) a b) by (exists T; auto).
      assert (Xl : ex_RInt (fun v => f v / v) a y) by (apply (ex_RInt_Chasles_1 (V := R_CompleteNormedModule) _ _ _ b); auto).
      assert (Xr : ex_RInt (fun v => f v / v) y b) by (apply (ex_RInt_Chasles_2 (V := R_CompleteNormedModule) _ a); auto).
      exists (RInt (fun v => f v / v) y b). split; [apply EB; auto; apply (RInt_correct (V := R_CompleteNormedModule)); auto|].
      assert (nl : 0 <= RInt (fun v => f v / v) a y) by (apply RInt_ge_0; [tauto|assumption|intros v Hv; apply Rdiv_le_0_compat; [apply Hp; lra|lra]]).
      assert (nr : 0 <= RInt (fun v => f v / v) y b) by (apply RInt_ge_0; [tauto|assumption|intros v Hv; apply Rdiv_le_0_compat; [apply Hp; lra|lra]]).
      assert (CH := RInt_Chasles (V := R_CompleteNormedModule) _ _ _ _ Xl Xr). rewrite (is_RInt_unique _ _ _ _ Q) in CH. change (RInt (fun v => f v / v) a y + RInt (fun v => f v / v) y b = T) in CH. lra.
Qed.

(** * Instances *)
Lemma eta_mixture_instance : exists I I2 J s0 s s1 q,
  SHMpp_of_velocity I I2 1 1 (V3 0 1 0) 2 (1/5) (9/10) = Ok s0 /\
  pprun s0 [Set_Beta (1/2); Set_Eta (1/3)] = Ok s /\ ppstep s (Set_Eta 1) = Ok s1 /\ vnorm (V3 0 1 0) <= 2 /\
  Eta_Function_pp J s1 (Fin 1) = Ok (Fin q).
Proof.
  destruct (reference_ctor_velocity 1 1 (V3 0 1 0) 2 (1/5) (9/10)) as [s0 H0].
  destruct (pprun_ok [Set_Beta (1/2); Set_Eta (1/3)] s0) as [s H]. destruct (ppstep_ok s (Set_Eta 1)) as [s1 H1].
  exists reference_Integrate, reference_Integrate_2D, (fun _ _ => Ok (Fin (1/7))), s0, s, s1.
  destruct (pp_history _ _ _ _ _ _ _ _ _ _ _ H0 H) as (u & U & ES).
  assert (u = V3 0 1 0). { inversion U; auto. } subst u.
  assert (VN : vnorm (V3 0 1 0) = 1) by (apply vnorm_y; lra).
  assert (H1' := H1). rewrite ES in H1'. apply pp_put_eta in H1'.
  destruct (eta_SHM_finite 1 1 (V3 0 1 0) 2 1 ltac:(lra) ltac:(lra) ltac:(lra) ltac:(lra)) as [r E].
  eexists. split; [exact H0|]. split; [exact H|]. split; [exact H1|]. split; [lra|].
  rewrite H1'. cbn [base_ops flat_map app last_v0 last_vesc]. unfold Eta_Function_pp.
  change (h_dmin (p_base (with_table _ (pp_core (SHM_of_velocity ?rho ?v0 ?vel ?ve) ?e ?b)))) with (Fin 0).
  change (h_dmax (p_base (with_table _ (pp_core (SHM_of_velocity ?rho ?v0 ?vel ?ve) ?e ?b)))) with (Fin (ve + vnorm vel)).
  rewrite !xlt_false by lra. cbn [bind].
  change (p_base _) with (renamed (SHM_of_velocity 1 1 (V3 0 1 0) 2)).
  change (Eta_Function_SHM (renamed ?s) ?v) with (Eta_Function_SHM s v). rewrite E. change (p_eta _) with (Fin 1).
  rewrite xsub_fin, !xmul_fin, xadd_fin. reflexivity.
Qed.

Lemma eta_nodes_instance : exists I I2 J s s1 f, ideal_quadrature I /\ ideal_interpolation J /\
  SHMpp_of_velocity I I2 1 1 (V3 0 1 0) 2 (1/5) (9/10) = Ok s /\ ppstep s (Set_Eta 1) = Ok s1 /\ vnorm (V3 0 1 0) = 1 /\
  (forall v, 0 < v <= 2 + vnorm (V3 0 1 0) -> PDF_Speed_pp I2 s1 (Fin v) = Ok (Fin (f v))) /\
  INR 33 * ((2 + vnorm (V3 0 1 0)) / 99) = 1 /\ is_RInt (fun v => f v / v) 1 (2 + vnorm (V3 0 1 0)) (ln 3).
Proof.
  set (I2 := (fun _ _ _ _ _ => Ok (Fin 1)) : integrator2).
  assert (X : exists s, SHMpp_of_velocity reference_Integrate I2 1 1 (V3 0 1 0) 2 (1/5) (9/10) = Ok s).
  { rewrite SHMpp_of_velocity_eq. unfold SHMpp_of_base, Interpolate_Eta_Function_S.
    match goal with |- context [map_res ?g ?l] => destruct (map_res_ok g l) as [t T] end; [|rewrite T; cbn [bind]; eauto].
    intros v _. unfold Eta_Function_S. destruct (_ || _)%bool; cbn [bind]; [eauto|]. unfold reference_Integrate. cbn [bind]. eauto. }
  destruct X as [s H]. destruct (ppstep_ok s (Set_Eta 1)) as [s1 H1].
  assert (VN : vnorm (V3 0 1 0) = 1) by (apply vnorm_y; lra).
  exists reference_Integrate, I2, reference_Interpolation, s, s1, (fun v => if Rlt_dec v 3 then 1 else 0).
  split; [apply ideal_quadrature_exists|]. split; [apply ideal_interpolation_exists|]. repeat (split; [assumption|]).
  rewrite VN. split; [|split].
  - intros v Hv. rewrite SHMpp_of_velocity_eq in H. rewrite (ctor_core _ _ _ _ _ _ H) in H1. apply pp_put_eta in H1. subst s1.
    unfold PDF_Speed_pp, PDF_Speed_S.
    change (h_dmin (p_base (with_table _ (pp_core (SHM_of_velocity ?rho ?v0 ?vel ?ve) ?e ?b)))) with (Fin 0).
    change (h_dmax (p_base (with_table _ (pp_core (SHM_of_velocity ?rho ?v0 ?vel ?ve) ?e ?b)))) with (Fin (ve + vnorm vel)).
    rewrite xle_false by lra. cbn [orb].
    change (p_base _) with (renamed (SHM_of_velocity 1 1 (V3 0 1 0) 2)).
    change (PDF_Speed_SHM (renamed ?s) ?v) with (PDF_Speed_SHM s v).
    destruct (history_nonneg _ _ _ _ v (hh_velocity 1 1 (V3 0 1 0) 2) ltac:(lra) ltac:(lra) ltac:(lra)) as (p & EP & _). rewrite EP.
    change (p_eta _) with (Fin 1). rewrite VN. destruct (Rlt_dec v 3) as [L | L].
    + rewrite xle_false by lra. unfold I2. cbn [bind]. rewrite xsub_fin, !xmul_fin, xadd_fin. do 2 f_equal. ring.
    + rewrite xle_true by lra. cbn [bind]. rewrite xsub_fin, !xmul_fin, xadd_fin. do 2 f_equal. ring.
  - rewrite INR_IZR_INZ. change (IZR (Z.of_nat 33)) with 33. field.
  - replace (2 + 1) with 3 by ring. apply (is_RInt_ext (fun v => / v)).
    + intros v Hv. rewrite Rmin_left, Rmax_right in Hv by lra. destruct (Rlt_dec v 3); [|lra]. match goal with |- ?a = ?b => change (@eq R a b) end. unfold Rdiv. ring.
    + cut (is_RInt (fun v => / v) 1 3 (minus (ln 3) (ln 1))); [rewrite ln_1; unfold minus, plus, opp; cbn; rewrite Ropp_0, Rplus_0_r; auto|].
      apply (is_RInt_derive (V := R_CompleteNormedModule) ln).
      * intros v Hv. rewrite Rmin_left, Rmax_right in Hv by lra. auto_derive; [lra|]. field. lra.
      * intros v Hv. rewrite Rmin_left, Rmax_right in Hv by lra. apply continuous_Rinv. lra.
Qed.
Lemma base_speed_instance : ideal_quadrature_2D reference_quadrature_2D /\ (exists s, halo_history s 2 (V3 0 0 5) 6) /\
  (forall w, vnorm w = 3 -> Fin (exp (- (vnorm w))) = Fin ((fun x => exp (- x)) 3)).
Proof. split; [apply ideal_quadrature_2D_exists|]. split; [eexists; apply (hh_velocity 1)|]. intros w ->. reflexivity. Qed.
Lemma imported_instance : exists I J s f T, ideal_quadrature I /\ ideal_interpolation J /\ increasing [(1, Fin (1/2)); (2, Fin (1/2)); (3, Fin (1/2))] /\
  imported I J (1, Fin (1/2)) [(2, Fin (1/2)); (3, Fin (1/2))] s /\
  (forall v, 1 <= v <= 3 -> Imported_PDF_Speed J s (Fin v) = Ok (Fin (f v))) /\ is_RInt (fun v => f v / v) 1 3 T /\ T = ln 3 / 2.
Proof.
  assert (X : exists s, Imported_of_table reference_Integrate reference_Interpolation (map node [(1, Fin (1/2)); (2, Fin (1/2)); (3, Fin (1/2))]) (Fin 1) = Ok s).
  { cbn [map]. unfold node. cbn [fst snd]. apply (reference_import _ _ _ _ _ 3); [lra|reflexivity]. }
  destruct X as [s H]. exists reference_Integrate, reference_Interpolation, s, (fun _ => 1/2), (ln 3 / 2).
  assert (Inc : increasing [(1, Fin (1/2)); (2, Fin (1/2)); (3, Fin (1/2))]) by (unfold increasing; repeat constructor; cbn; lra).
  assert (IM : imported reference_Integrate reference_Interpolation (1, Fin (1/2)) [(2, Fin (1/2)); (3, Fin (1/2))] s) by (left; exists (Fin 1); exact H).
  split; [apply ideal_quadrature_exists|]. split; [apply ideal_interpolation_exists|]. split; [auto|]. split; [auto|]. split; [|split; [|reflexivity]].
  - intros v Hv. destruct (imported_density _ _ _ _ _ ideal_interpolation_exists Inc IM) as (_ & _ & B).
    destruct (B (1/2) (1/2) v) as (y & Y & Y2); [|cbn; lra|].
    + intros q [<- | [<- | [<- | []]]]; cbn; eexists; split; try reflexivity; lra.
    + rewrite Y. do 2 f_equal. lra.
  - apply (is_RInt_ext (fun v => scal (1/2) (/ v))).
    + intros v Hv. rewrite Rmin_left, Rmax_right in Hv by lra. unfold scal; cbn; unfold mult; cbn. match goal with |- ?a = ?b => change (@eq R a b) end. field. lra.
    + replace (ln 3 / 2) with (1/2 * (ln 3 - ln 1)) by (rewrite ln_1; field).
      apply (is_RInt_scal (V := R_NormedModule)). apply (is_RInt_derive (V := R_CompleteNormedModule) ln).
      * intros v Hv. rewrite Rmin_left, Rmax_right in Hv by lra. auto_derive; [lra|]. field. lra.
      * intros v Hv. rewrite Rmin_left, Rmax_right in Hv by lra. apply continuous_Rinv. lra.
Qed.
