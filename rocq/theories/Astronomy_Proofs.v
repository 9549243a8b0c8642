(** Proofs about Astronomy_Model.v. *)
From Coq Require Import Reals ZArith Lia Lra Psatz List.
From Verif Require Import Base XrFacts Astronomy_Model.
From Coq Require Import Nsatz.
Local Open Scope R_scope.

Lemma vec3_eq a b : vx a = vx b -> vy a = vy b -> vz a = vz b -> a = b.
Proof. destruct a, b; simpl; intros; subst; reflexivity. Qed.
Lemma mat3_eq a b : row1 a = row1 b -> row2 a = row2 b -> row3 a = row3 b -> a = b.
Proof. destruct a, b; simpl; intros; subst; reflexivity. Qed.

Definition mtrans (m : mat3) : mat3 := M3 (col1 m) (col2 m) (col3 m).
Definition mid : mat3 := M3 (V3 1 0 0) (V3 0 1 0) (V3 0 0 1).

(** Orthogonality of the rows, and determinant one. *)
Record rotation (m : mat3) : Prop := {
  rot_11 : vdot (row1 m) (row1 m) = 1;
  rot_22 : vdot (row2 m) (row2 m) = 1;
  rot_33 : vdot (row3 m) (row3 m) = 1;
  rot_12 : vdot (row1 m) (row2 m) = 0;
  rot_13 : vdot (row1 m) (row3 m) = 0;
  rot_23 : vdot (row2 m) (row3 m) = 0;
  rot_det : mdet m = 1 }.

Lemma sc2 x : sin x ^ 2 = 1 - cos x ^ 2.
Proof. assert (h := sin2_cos2 x); unfold Rsqr in h; lra. Qed.


Lemma P_poly (s1 c1 s2 c2 s3 c3 : R) :
  s1 ^ 2 = 1 - c1 ^ 2 -> s2 ^ 2 = 1 - c2 ^ 2 -> s3 ^ 2 = 1 - c3 ^ 2 ->
  rotation (M3 (V3 (c1 * c2 * c3 - s1 * s3) (- s1 * c2 * c3 - c1 * s3) (- s2 * c3))
     (V3 (c1 * c2 * s3 + s1 * c3) (- s1 * c2 * s3 + c1 * c3) (- s2 * s3))
     (V3 (c1 * s2) (- s1 * s2) c2)).
Proof.
  intros H1 H2 H3; split; unfold vdot, mdet; simpl; ring [H1 H2 H3].
Qed.

Lemma P_rotation T : rotation (Transformation_Matrix_P T).
Proof. unfold Transformation_Matrix_P; apply P_poly; apply sc2. Qed.

Lemma M_poly (sl cl sa ca sd cd : R) :
  sl ^ 2 = 1 - cl ^ 2 -> sa ^ 2 = 1 - ca ^ 2 -> sd ^ 2 = 1 - cd ^ 2 ->
  rotation (M3 (V3 (- sl * sa - cl * ca * sd) (sl * ca - cl * sa * sd) (cl * cd))
     (V3 (cl * sa - sl * ca * sd) (- cl * ca - sl * sa * sd) (sl * cd))
     (V3 (ca * cd) (sa * cd) sd)).
Proof.
  intros H1 H2 H3; split; unfold vdot, mdet; simpl; ring [H1 H2 H3].
Qed.
Lemma M_rotation : rotation Transformation_Matrix_M.
Proof. unfold Transformation_Matrix_M; apply M_poly; apply sc2. Qed.

Lemma R_rotation T : rotation (Transformation_Matrix_R T).
Proof.
  unfold Transformation_Matrix_R, Rotation_Matrix.
  assert (H := sc2 (ecliptic_obliquity T)).
  generalize dependent (sin (ecliptic_obliquity T)).
  intros s H. generalize dependent (cos (ecliptic_obliquity T)). intros c H.
  split; unfold vdot, mdet; simpl; ring [H].
Qed.

(** For a rotation the adjugate is the transpose. *)
Lemma rotation_adj m : rotation m -> madj m = mtrans m.
Proof.
  intros [h11 h22 h33 h12 h13 h23 hd].
  destruct m as [[a b c] [d e f] [g h i]]; unfold vdot, mdet in *; simpl in *.
  unfold madj, mtrans, col1, col2, col3; simpl.
  apply mat3_eq; apply vec3_eq; simpl; nsatz.
Qed.

Lemma rotation_inverse m : rotation m -> minverse m = Ok (mtrans m).
Proof.
  intros H; unfold minverse; rewrite (rot_det m H).
  destruct (Req_EM_T 1 0) as [h|_]; [lra|].
  rewrite (rotation_adj m H). f_equal.
  destruct m as [[a b c] [d e f] [g h i]]; unfold mscale, mtrans, vscale; simpl.
  replace (/ 1) with 1 by field.
  apply mat3_eq; apply vec3_eq; simpl; ring.
Qed.

Lemma rotation_trans m : rotation m -> rotation (mtrans m).
Proof.
  intros Hm; assert (Ha := rotation_adj m Hm); destruct Hm as [h11 h22 h33 h12 h13 h23 hd].
  destruct m as [[a b c] [d e f] [g h i]]; unfold vdot, mdet in *; simpl in *.
  unfold madj, mtrans, col1, col2, col3 in *; simpl in *.
  injection Ha as e1 e2 e3 e4 e5 e6 e7 e8 e9.
  clear h11 h22 h33 h12 h13 h23.
  split; unfold vdot, mdet; simpl.
  - rewrite <- e1 at 1; rewrite <- e2 at 1; rewrite <- e3 at 1; rewrite <- hd; ring.
  - rewrite <- e4 at 1; rewrite <- e5 at 1; rewrite <- e6 at 1; rewrite <- hd; ring.
  - rewrite <- e7 at 1; rewrite <- e8 at 1; rewrite <- e9 at 1; rewrite <- hd; ring.
  - transitivity ((e * i - f * h) * b + (c * h - b * i) * e + (b * f - c * e) * h); [rewrite e1, e2, e3; ring|ring].
  - transitivity ((e * i - f * h) * c + (c * h - b * i) * f + (b * f - c * e) * i); [rewrite e1, e2, e3; ring|ring].
  - transitivity ((f * g - d * i) * c + (a * i - c * g) * f + (c * d - a * f) * i); [rewrite e4, e5, e6; ring|ring].
  - rewrite <- hd; ring.
Qed.

Lemma mvec_mmul a b v : mvec (mmul a b) v = mvec a (mvec b v).
Proof.
  destruct a as [[? ? ?] [? ? ?] [? ? ?]], b as [[? ? ?] [? ? ?] [? ? ?]], v as [? ? ?].
  unfold mvec, mmul, vdot, col1, col2, col3; simpl. apply vec3_eq; simpl; ring.
Qed.

Lemma rotation_dot m v w : rotation m -> vdot (mvec m v) (mvec m w) = vdot v w.
Proof.
  intros Hm; apply rotation_trans in Hm; destruct Hm as [h11 h22 h33 h12 h13 h23 _].
  destruct m as [[a b c] [d e f] [g h i]], v as [x y z], w as [x' y' z'].
  unfold mtrans, col1, col2, col3, mvec, vdot in *; simpl in *. 
  replace ((a * x + b * y + c * z) * (a * x' + b * y' + c * z') +
    (d * x + e * y + f * z) * (d * x' + e * y' + f * z') +
    (g * x + h * y + i * z) * (g * x' + h * y' + i * z')) with
   ((a * a + d * d + g * g) * (x * x') + (b * b + e * e + h * h) * (y * y') + (c * c + f * f + i * i) * (z * z')
    + (a * b + d * e + g * h) * (x * y' + y * x') + (a * c + d * f + g * i) * (x * z' + z * x')
    + (b * c + e * f + h * i) * (y * z' + z * y')) by ring.
  rewrite h11, h22, h33, h12, h13, h23; ring.
Qed.

Lemma mtrans_inv_l m v : rotation m -> mvec (mtrans m) (mvec m v) = v.
Proof.
  intros Hm; apply rotation_trans in Hm; destruct Hm as [h11 h22 h33 h12 h13 h23 _].
  destruct m as [[a b c] [d e f] [g h i]], v as [x y z].
  unfold mtrans, col1, col2, col3, mvec, vdot in *; simpl in *.
  apply vec3_eq; simpl.
  - transitivity ((a * a + d * d + g * g) * x + (a * b + d * e + g * h) * y + (a * c + d * f + g * i) * z); [ring|].
    rewrite h11, h12, h13; ring.
  - transitivity ((a * b + d * e + g * h) * x + (b * b + e * e + h * h) * y + (b * c + e * f + h * i) * z); [ring|].
    rewrite h22, h12, h23; ring.
  - transitivity ((a * c + d * f + g * i) * x + (b * c + e * f + h * i) * y + (c * c + f * f + i * i) * z); [ring|].
    rewrite h33, h13, h23; ring.
Qed.
Lemma mtrans_invol m : mtrans (mtrans m) = m.
Proof. destruct m as [[a b c] [d e f] [g h i]]; reflexivity. Qed.
Lemma mtrans_inv_r m v : rotation m -> mvec m (mvec (mtrans m) v) = v.
Proof.
  intros Hm. rewrite <- (mtrans_invol m) at 1. apply mtrans_inv_l, rotation_trans, Hm.
Qed.

Lemma equat_to_gal_eq v T :
  Transform_Equat_to_Gal v T
  = Ok (mvec Transformation_Matrix_M (mvec (mtrans (Transformation_Matrix_P T)) v)).
Proof.
  unfold Transform_Equat_to_Gal; rewrite (rotation_inverse _ (P_rotation T)); simpl.
  rewrite mvec_mmul; reflexivity.
Qed.
Lemma gal_to_equat_eq v T :
  Transform_Gal_to_Equat v T
  = Ok (mvec (Transformation_Matrix_P T) (mvec (mtrans Transformation_Matrix_M) v)).
Proof.
  unfold Transform_Gal_to_Equat; rewrite (rotation_inverse _ M_rotation); simpl.
  rewrite mvec_mmul; reflexivity.
Qed.
Lemma geoecl_to_gal_eq v T :
  Transform_GeoEcl_to_Gal v T
  = Ok (mvec Transformation_Matrix_M (mvec (mtrans (Transformation_Matrix_P T)) (mvec (Transformation_Matrix_R T) v))).
Proof.
  unfold Transform_GeoEcl_to_Gal; rewrite (rotation_inverse _ (P_rotation T)); simpl.
  rewrite !mvec_mmul; reflexivity.
Qed.
Lemma mvec_mscale s m v : mvec (mscale s m) v = vscale s (mvec m v).
Proof.
  destruct m as [[? ? ?] [? ? ?] [? ? ?]], v as [? ? ?].
  unfold mvec, mscale, vscale, vdot; simpl; apply vec3_eq; simpl; ring.
Qed.
Lemma helecl_to_gal_eq v T :
  Transform_HelEcl_to_Gal v T
  = Ok (vscale (-1) (mvec Transformation_Matrix_M (mvec (mtrans (Transformation_Matrix_P T)) (mvec (Transformation_Matrix_R T) v)))).
Proof.
  unfold Transform_HelEcl_to_Gal; rewrite (rotation_inverse _ (P_rotation T)); simpl.
  rewrite !mvec_mmul, mvec_mscale; reflexivity.
Qed.

Lemma round_trip_equat v T :
  exists w, Transform_Equat_to_Gal v T = Ok w /\ Transform_Gal_to_Equat w T = Ok v.
Proof.
  eexists; split; [apply equat_to_gal_eq|].
  rewrite gal_to_equat_eq, mtrans_inv_l by apply M_rotation.
  rewrite mtrans_inv_r by apply P_rotation; reflexivity.
Qed.
Lemma round_trip_gal v T :
  exists w, Transform_Gal_to_Equat v T = Ok w /\ Transform_Equat_to_Gal w T = Ok v.
Proof.
  eexists; split; [apply gal_to_equat_eq|].
  rewrite equat_to_gal_eq, mtrans_inv_l by apply P_rotation.
  rewrite mtrans_inv_r by apply M_rotation; reflexivity.
Qed.

Definition isometry_res (f : vec3 -> R -> res vec3) : Prop :=
  forall T v w, exists v' w', f v T = Ok v' /\ f w T = Ok w' /\ vdot v' w' = vdot v w.

Lemma equat_isometry : isometry_res Transform_Equat_to_Gal.
Proof.
  intros T v w; do 2 eexists; rewrite !equat_to_gal_eq; repeat split.
  rewrite !rotation_dot; [reflexivity|apply rotation_trans, P_rotation|apply M_rotation].
Qed.
Lemma gal_isometry : isometry_res Transform_Gal_to_Equat.
Proof.
  intros T v w; do 2 eexists; rewrite !gal_to_equat_eq; repeat split.
  rewrite !rotation_dot; [reflexivity|apply rotation_trans, M_rotation|apply P_rotation].
Qed.
Lemma geo_dot T v w :
  vdot (mvec Transformation_Matrix_M (mvec (mtrans (Transformation_Matrix_P T)) (mvec (Transformation_Matrix_R T) v)))
       (mvec Transformation_Matrix_M (mvec (mtrans (Transformation_Matrix_P T)) (mvec (Transformation_Matrix_R T) w)))
  = vdot v w.
Proof.
  rewrite !rotation_dot; [reflexivity|apply R_rotation|apply rotation_trans, P_rotation|apply M_rotation].
Qed.
Lemma geo_isometry : isometry_res Transform_GeoEcl_to_Gal.
Proof.
  intros T v w; do 2 eexists; rewrite !geoecl_to_gal_eq; repeat split. apply geo_dot.
Qed.
Lemma vdot_scale s t a b : vdot (vscale s a) (vscale t b) = s * t * vdot a b.
Proof. destruct a, b; unfold vdot, vscale; simpl; ring. Qed.
Lemma hel_isometry : isometry_res Transform_HelEcl_to_Gal.
Proof.
  intros T v w; do 2 eexists; rewrite !helecl_to_gal_eq; repeat split.
  rewrite vdot_scale, geo_dot; ring.
Qed.
Lemma hel_is_minus_geo v T :
  exists w, Transform_GeoEcl_to_Gal v T = Ok w /\ Transform_HelEcl_to_Gal v T = Ok (vscale (-1) w).
Proof. eexists; split; [apply geoecl_to_gal_eq|apply helecl_to_gal_eq]. Qed.

Lemma hel_is_minus_geo_components v T :
  exists w, Transform_GeoEcl_to_Gal v T = Ok w /\
            Transform_HelEcl_to_Gal v T = Ok (V3 (- vx w) (- vy w) (- vz w)).
Proof.
  destruct (hel_is_minus_geo v T) as [w [H1 H2]]. exists w; split; auto.
  rewrite H2; f_equal; apply vec3_eq; simpl; ring.
Qed.

(** Earth's velocity. *)
Lemma cos_diff_id L w :
  sin L * sin (2 * L - w) + cos L * cos (2 * L - w) = cos (L - w).
Proof.
  transitivity (cos ((2 * L - w) - L)); [rewrite (cos_minus (2 * L - w) L); ring|f_equal; ring].
Qed.

Lemma vdot_comm a b : vdot a b = vdot b a.
Proof. unfold vdot; ring. Qed.
Lemma vdot_add_l a b c : vdot (vadd a b) c = vdot a c + vdot b c.
Proof. unfold vdot, vadd; simpl; ring. Qed.
Lemma vdot_scale_l s a b : vdot (vscale s a) b = s * vdot a b.
Proof. unfold vdot, vscale; simpl; ring. Qed.

Lemma vdot_lin2 a b u w :
  vdot (vadd (vscale a u) (vscale b w)) (vadd (vscale a u) (vscale b w))
  = a * a * vdot u u + 2 * a * b * vdot u w + b * b * vdot w w.
Proof. destruct u, w; unfold vdot, vadd, vscale; simpl; ring. Qed.

Lemma earth_relative n :
  exists v, Earth_Velocity n = Ok v /\
  exists x, -1 <= x <= 1 /\
  vdot (vsub v Sun_Velocity) (vsub v Sun_Velocity)
  = (29.79 * km / sec) * (29.79 * km / sec) * (1 + 0.01671 * 0.01671 + 2 * 0.01671 * x).
Proof.
  unfold Earth_Velocity.
  rewrite !helecl_to_gal_eq; simpl.
  eexists; split; [reflexivity|].
  set (L := Rfmod _ _) in *. set (w := Rfmod (282.932 * deg + _) _).
  set (T := n / 36525). exists (cos (L - w)). split; [split; apply COS_bound|].
  match goal with |- vdot (vsub (vadd ?s ?u) ?s') _ = _ =>
    replace (vsub (vadd s u) s') with u
  end.
  2:{ unfold vsub, vadd; simpl; apply vec3_eq; simpl; ring. }
  rewrite vdot_lin2, !vdot_scale, !geo_dot.
  unfold vdot; simpl.
  rewrite <- (cos_diff_id L w).
  assert (h1 := sc2 L). assert (h2 := sc2 (2 * L - w)).
  set (ve := 29.79 * km / sec).
  set (sL := sin L) in *. set (cL := cos L) in *.
  set (s2 := sin (2 * L - w)) in *. set (c2 := cos (2 * L - w)) in *.
  ring [h1 h2].
Qed.

Lemma ve_pos : 0 < 29.79 * km / sec.
Proof. unfold Rdiv. assert (h := km_pos). assert (h' := Rinv_0_lt_compat _ sec_pos). apply Rmult_lt_0_compat; lra. Qed.

Lemma earth_speed_bounds n :
  exists v, Earth_Velocity n = Ok v /\
  29.79 * (1 - 0.01671) * (km / sec) <= vnorm (vsub v Sun_Velocity) <= 29.79 * (1 + 0.01671) * (km / sec).
Proof.
  destruct (earth_relative n) as [v [Hv [x [Hx Hn]]]].
  exists v; split; auto. unfold vnorm; rewrite Hn.
  assert (hv := ve_pos). 
  replace (29.79 * (1 - 0.01671) * (km / sec)) with (29.79 * km / sec * (1 - 0.01671)) by (unfold Rdiv; ring).
  replace (29.79 * (1 + 0.01671) * (km / sec)) with (29.79 * km / sec * (1 + 0.01671)) by (unfold Rdiv; ring).
  set (ve := 29.79 * km / sec) in *.
  split.
  - rewrite <- (sqrt_square (ve * (1 - 0.01671))) by nra. apply sqrt_le_1_alt. nra.
  - rewrite <- (sqrt_square (ve * (1 + 0.01671))) by nra. apply sqrt_le_1_alt. nra.
Qed.

(** Triangle inequality for [vnorm]. *)
Lemma vdot_self_nonneg a : 0 <= vdot a a.
Proof. unfold vdot; nra. Qed.
Lemma cauchy_schwarz a b : vdot a b <= vnorm a * vnorm b.
Proof.
  unfold vnorm. rewrite <- sqrt_mult by apply vdot_self_nonneg.
  apply Rsqr_incr_0_var; [|apply sqrt_pos].
  unfold Rsqr. rewrite sqrt_sqrt by (apply Rmult_le_pos; apply vdot_self_nonneg).
  unfold vdot. destruct a as [a1 a2 a3], b as [b1 b2 b3]; simpl.
  assert (H1 := pow2_ge_0 (a1 * b2 - a2 * b1)).
  assert (H2 := pow2_ge_0 (a1 * b3 - a3 * b1)).
  assert (H3 := pow2_ge_0 (a2 * b3 - a3 * b2)).
  lra.
Qed.
Lemma vnorm_nonneg a : 0 <= vnorm a.
Proof. apply sqrt_pos. Qed.
Lemma vnorm_sqr a : vnorm a * vnorm a = vdot a a.
Proof. apply sqrt_sqrt, vdot_self_nonneg. Qed.
Lemma vnorm_triangle a b : vnorm (vadd a b) <= vnorm a + vnorm b.
Proof.
  apply Rsqr_incr_0_var; [|assert (h := vnorm_nonneg a); assert (h' := vnorm_nonneg b); lra].
  unfold Rsqr. rewrite vnorm_sqr.
  replace (vdot (vadd a b) (vadd a b)) with (vdot a a + 2 * vdot a b + vdot b b) by (unfold vdot, vadd; simpl; ring).
  assert (h := cauchy_schwarz a b). assert (ha := vnorm_sqr a). assert (hb := vnorm_sqr b). nra.
Qed.
Lemma vnorm_opp a : vnorm (vscale (-1) a) = vnorm a.
Proof. unfold vnorm, vdot, vscale; simpl; f_equal; ring. Qed.
Lemma vnorm_rev_triangle a b : Rabs (vnorm a - vnorm b) <= vnorm (vsub a b).
Proof.
  apply Rabs_le; split.
  - assert (h := vnorm_triangle a (vscale (-1) (vsub a b))).
    rewrite vnorm_opp in h.
    replace (vadd a (vscale (-1) (vsub a b))) with b in h; [lra|].
    unfold vadd, vscale, vsub; simpl; apply vec3_eq; simpl; ring.
  - assert (h := vnorm_triangle b (vsub a b)).
    replace (vadd b (vsub a b)) with a in h; [lra|].
    unfold vadd, vsub; simpl; apply vec3_eq; simpl; ring.
Qed.
Lemma earth_vs_sun n :
  exists v, Earth_Velocity n = Ok v /\
  Rabs (vnorm v - vnorm Sun_Velocity) <= 29.79 * (1 + 0.01671) * (km / sec).
Proof.
  destruct (earth_speed_bounds n) as [v [Hv [_ Hb]]]; exists v; split; auto.
  eapply Rle_trans; [apply vnorm_rev_triangle|exact Hb].
Qed.
