(** Lemmas about the generic distribution functions and imported distributions. *)
From Coq Require Import Reals List ZArith String Lra Lia Bool Psatz.
From Coquelicot Require Import Coquelicot.
From Verif Require Import Base XrFacts Analysis Quadrature Erf Astronomy_Model Distribution_Model Interpolation
  Halo_Model Halo_Proofs Eta_Proofs HaloState_Proofs HaloFinal_Proofs.
Import ListNotations.
Local Open Scope R_scope.

(** A normalised, non-negative, continuous speed density f on [a, b] and an object whose PDF_Speed computes it there.
    ([clamp a b] maps everything outside to the nearest end, so that continuity refers to [a, b] only.) *)
Record speed_density (pdf : xr -> res xr) (f : R -> R) (a b : R) : Prop := {
  sd_ab : a < b;
  sd_pdf : forall v, a <= v <= b -> pdf (Fin v) = Ok (Fin (f v));
  sd_nonneg : forall v, a <= v <= b -> 0 <= f v;
  sd_cont : forall v, continuous (fun x => f (clamp a b x)) v;
  sd_one : is_RInt f a b 1 }.

Section Generic.
Variables (Integrate : integrator) (pdf : xr -> res xr) (f : R -> R) (a b : R).
Hypothesis (HI : ideal_quadrature Integrate) (SD : speed_density pdf f a b).

Lemma sd_int x y : a <= x -> x <= y -> y <= b -> ex_RInt f x y.
Proof. intros. apply (ex_RInt_sub f a b); auto. exists 1. apply SD. Qed.
Lemma sd_int_nonneg x y : a <= x -> x <= y -> y <= b -> 0 <= RInt f x y.
Proof. intros. apply RInt_ge_0; auto; [apply sd_int; auto|]. intros z Hz. apply (sd_nonneg _ _ _ _ SD). lra. Qed.
Lemma sd_split x : a <= x <= b -> RInt f a x + RInt f x b = 1.
Proof.
  intros H. rewrite <- (is_RInt_unique _ _ _ _ (sd_one _ _ _ _ SD)).
  apply (RInt_Chasles (V := R_CompleteNormedModule) f a x b); apply sd_int; lra.
Qed.
Lemma sd_chasles x y z : a <= x -> x <= y -> y <= z -> z <= b -> RInt f x y + RInt f y z = RInt f x z.
Proof. intros. apply (RInt_Chasles (V := R_CompleteNormedModule) f x y z); apply sd_int; lra. Qed.

(** C27 *)
Lemma generic_cdf : exists F, (forall v, CDF_Speed_Base Integrate pdf (Fin a) (Fin b) (Fin v) = Ok (Fin (F v))) /\
  (forall v, v < a -> F v = 0) /\ (forall v, b <= v -> F v = 1) /\
  (forall v, a <= v <= b -> is_RInt f a v (F v)) /\
  (forall v w, v <= w -> 0 <= F v <= F w /\ F w <= 1).
Proof.
  assert (AB := sd_ab _ _ _ _ SD).
  set (F := fun v => if Rlt_dec v a then 0 else if Rlt_dec b v then 1 else RInt f a v).
  assert (FB : F b = 1).
  { unfold F. destruct (Rlt_dec b a); [lra|]. destruct (Rlt_dec b b); [lra|]. apply is_RInt_unique, (sd_one _ _ _ _ SD). }
  exists F. split; [|split; [|split; [|split]]].
  - intros v. unfold CDF_Speed_Base, F. destruct (Rlt_dec v a); [rewrite xlt_true by auto; auto|]. rewrite xlt_false by lra.
    destruct (Rlt_dec b v); [rewrite xlt_true by auto; auto|]. rewrite xlt_false by lra.
    apply HI; [|apply sd_int; lra]. intros x Hx. rewrite Rmin_left, Rmax_right in Hx by lra. apply (sd_pdf _ _ _ _ SD); lra.
  - intros v H. unfold F. destruct (Rlt_dec v a); lra.
  - intros v [H | <-]; auto. unfold F. destruct (Rlt_dec v a); [lra|]. destruct (Rlt_dec b v); lra.
  - intros v H. unfold F. destruct (Rlt_dec v a); [lra|]. destruct (Rlt_dec b v); [lra|]. apply (RInt_correct (V := R_CompleteNormedModule)), sd_int; lra.
  - intros v w H. unfold F. destruct (Rlt_dec v a), (Rlt_dec w a); try lra.
    + destruct (Rlt_dec b w); [lra|]. assert (h := sd_int_nonneg a w). assert (h2 := sd_int_nonneg w b). assert (h3 := sd_split w). lra.
    + destruct (Rlt_dec b v), (Rlt_dec b w); try lra.
      * assert (h := sd_int_nonneg a v). assert (h2 := sd_int_nonneg v b). assert (h3 := sd_split v). lra.
      * assert (h := sd_int_nonneg a v). assert (h2 := sd_int_nonneg v w). assert (h3 := sd_chasles a v w).
        assert (h4 := sd_int_nonneg w b). assert (h5 := sd_split w). lra.
Qed.

(** First moments. *)
Lemma moment_ex x : a <= x <= b -> ex_RInt (fun v => v * f v) x b.
Proof.
  intros H. apply (ex_RInt_ext (fun v => v * f (clamp a b v))).
  - intros v Hv. rewrite Rmin_left, Rmax_right in Hv by lra. rewrite clamp_id by lra. auto.
  - apply (ex_RInt_continuous (V := R_CompleteNormedModule)). intros v _. apply (continuous_mult (fun x => x) (fun x => f (clamp a b x)));
      [apply continuous_id|apply (sd_cont _ _ _ _ SD)].
Qed.
Lemma moment_value x : a <= x <= b -> Integrate (fun v => let* g := pdf v in Ok (xmul v g)) (Fin x) (Fin b) = Ok (Fin (RInt (fun v => v * f v) x b)).
Proof.
  intros H. apply HI; [|apply moment_ex; auto]. intros v Hv. rewrite Rmin_left, Rmax_right in Hv by lra.
  rewrite (sd_pdf _ _ _ _ SD) by lra. reflexivity.
Qed.

Lemma average_all : Average_Speed Integrate pdf (CDF_Speed_Base Integrate pdf (Fin a) (Fin b)) (Fin a) (Fin b) (Fin (-1)) =
  Ok (Fin (RInt (fun v => v * f v) a b)).
Proof.
  unfold Average_Speed. rewrite (xlt_true (-1) 0) by lra. apply moment_value. assert (h := sd_ab _ _ _ _ SD). lra.
Qed.

Lemma flux_value rho m : 0 < m ->
  Total_DM_Flux Integrate pdf (Fin rho) (Fin a) (Fin b) (Fin m) = Ok (Fin (rho / m * RInt (fun v => v * f v) a b)).
Proof.
  intros Hm. assert (AB := sd_ab _ _ _ _ SD). unfold Total_DM_Flux.
  assert (E := moment_ex a ltac:(lra)).
  rewrite (HI _ (fun v => rho / m * v * f v)).
  - do 2 f_equal. rewrite <- (RInt_scal (V := R_CompleteNormedModule) (fun v => v * f v)) by auto.
    apply RInt_ext. intros v _. unfold scal; cbn; unfold mult; cbn. ring.
  - intros v Hv. rewrite Rmin_left, Rmax_right in Hv by lra. unfold Differential_DM_Flux. rewrite (sd_pdf _ _ _ _ SD) by lra. cbn [bind].
    rewrite xdiv_fin by lra. rewrite !xmul_fin. reflexivity.
  - apply (ex_RInt_ext (fun v => scal (rho / m) (v * f v))); [intros; unfold scal; cbn; unfold mult; cbn; ring|].
    apply (ex_RInt_scal (V := R_NormedModule)). exact E.
Qed.

(** C28 *)
Lemma flux_consistent rho m : 0 < m -> exists mean,
  Average_Speed Integrate pdf (CDF_Speed_Base Integrate pdf (Fin a) (Fin b)) (Fin a) (Fin b) (Fin (-1)) = Ok (Fin mean) /\
  Total_DM_Flux Integrate pdf (Fin rho) (Fin a) (Fin b) (Fin m) = Ok (Fin (rho / m * mean)) /\
  exists dF, (forall v, a <= v <= b -> Differential_DM_Flux pdf (Fin rho) (Fin v) (Fin m) = Ok (Fin (dF v))) /\
    is_RInt dF a b (rho / m * mean).
Proof.
  intros Hm. assert (AB := sd_ab _ _ _ _ SD). exists (RInt (fun v => v * f v) a b). split; [apply average_all|]. split; [apply flux_value; auto|].
  exists (fun v => rho / m * v * f v). split.
  - intros v Hv. unfold Differential_DM_Flux. rewrite (sd_pdf _ _ _ _ SD) by lra. cbn [bind].
    rewrite xdiv_fin by lra. rewrite !xmul_fin. reflexivity.
  - apply (is_RInt_ext (fun v => scal (rho / m) (v * f v))); [intros; unfold scal; cbn; unfold mult; cbn; ring|].
    apply (is_RInt_scal (V := R_NormedModule)). apply (RInt_correct (V := R_CompleteNormedModule)), moment_ex. lra.
Qed.

Lemma average_between x c : 0 <= x -> a <= x < b ->
  CDF_Speed_Base Integrate pdf (Fin a) (Fin b) (Fin x) = Ok (Fin c) -> c < 1 ->
  exists mean, Average_Speed Integrate pdf (CDF_Speed_Base Integrate pdf (Fin a) (Fin b)) (Fin a) (Fin b) (Fin x) = Ok (Fin mean) /\
    x <= mean <= b.
Proof.
  intros H0 Hx HC Hc. exists (RInt (fun v => v * f v) x b / (1 - c)).
  assert (EC : c = RInt f a x).
  { revert HC. unfold CDF_Speed_Base. rewrite !xlt_false by lra. rewrite (HI _ f).
    - intros E. apply Ok_inj, Fin_inj in E. auto.
    - intros v Hv. rewrite Rmin_left, Rmax_right in Hv by lra. apply (sd_pdf _ _ _ _ SD); lra.
    - apply sd_int; lra. }
  assert (S := sd_split x ltac:(lra)). split.
  - unfold Average_Speed. rewrite (xlt_false x 0), (xlt_false x a), (xle_false b x) by lra. cbn [orb].
    rewrite moment_value by lra. cbn [bind]. rewrite HC. cbn [bind]. rewrite xsub_fin, xdiv_fin by lra. reflexivity.
  - assert (L : RInt (fun v => scal x (f v)) x b <= RInt (fun v => v * f v) x b).
    { apply RInt_le; [lra|apply (ex_RInt_scal (V := R_NormedModule)), sd_int; lra|apply moment_ex; lra|].
      intros v Hv. apply Rmult_le_compat_r; [apply (sd_nonneg _ _ _ _ SD); lra|lra]. }
    assert (U : RInt (fun v => v * f v) x b <= RInt (fun v => scal b (f v)) x b).
    { apply RInt_le; [lra|apply moment_ex; lra|apply (ex_RInt_scal (V := R_NormedModule)), sd_int; lra|].
      intros v Hv. apply Rmult_le_compat_r; [apply (sd_nonneg _ _ _ _ SD); lra|lra]. }
    rewrite (RInt_scal (V := R_CompleteNormedModule)) in L, U by (apply sd_int; lra).
    change (x * RInt f x b <= RInt (fun v => v * f v) x b) in L. change (RInt (fun v => v * f v) x b <= b * RInt f x b) in U.
    replace (RInt f x b) with (1 - c) in L, U by (rewrite EC; lra).
    clear - Hc L U. set (M := RInt (fun v => v * f v) x b) in *. clearbody M.
    assert (Q : M / (1 - c) * (1 - c) = M) by (field; lra).
    split; apply Rmult_le_reg_r with (1 - c); rewrite ?Q; lra.
Qed.

(** The generic eta function: non-negative, non-increasing, at most (1 - CDF)/vMin, zero from the maximum speed on. *)
Lemma inverse_ex x : 0 < x -> a <= x <= b -> ex_RInt (fun v => 1 / v * f v) x b.
Proof.
  intros H0 H. apply (ex_RInt_ext (fun v => 1 / v * f (clamp a b v))).
  - intros v Hv. rewrite Rmin_left, Rmax_right in Hv by lra. rewrite clamp_id by lra. auto.
  - apply (ex_RInt_continuous (V := R_CompleteNormedModule)). intros v Hv. rewrite Rmin_left, Rmax_right in Hv by lra.
    apply (continuous_mult (fun x => 1 / x) (fun x => f (clamp a b x))); [|apply (sd_cont _ _ _ _ SD)].
    apply continuous_of_ex_derive. auto_derive. lra.
Qed.
Lemma generic_eta : exists E, (forall x, 0 < x -> a <= x -> Eta_Function_Base Integrate pdf (Fin a) (Fin b) (Fin x) = Ok (Fin (E x))) /\
  (forall x, x < a -> Eta_Function_Base Integrate pdf (Fin a) (Fin b) (Fin x) = Exit) /\
  (forall x, b <= x -> E x = 0) /\
  (forall x, 0 < x -> a <= x <= b -> is_RInt (fun v => f v / v) x b (E x)) /\
  (forall x y, 0 < x -> a <= x -> x <= y -> 0 <= E y <= E x) /\
  (forall x c, 0 < x -> a <= x <= b -> CDF_Speed_Base Integrate pdf (Fin a) (Fin b) (Fin x) = Ok (Fin c) -> x * E x <= 1 - c).
Proof.
  assert (AB := sd_ab _ _ _ _ SD).
  set (E := fun x => if Rle_dec b x then 0 else RInt (fun v => 1 / v * f v) x b).
  assert (I : forall x, 0 < x -> a <= x <= b -> is_RInt (fun v => 1 / v * f v) x b (E x)).
  { intros x H0 Hx. unfold E. destruct (Rle_dec b x).
    - replace x with b by lra. apply (is_RInt_point (V := R_NormedModule)).
    - apply (RInt_correct (V := R_CompleteNormedModule)), inverse_ex; lra. }
  exists E. split; [|split; [|split; [|split; [|split]]]].
  - intros x H0 Hx. unfold Eta_Function_Base, E. rewrite xlt_false by lra.
    destruct (Rle_dec b x); [rewrite xle_true by auto; auto|]. rewrite xle_false by lra.
    apply HI; [|apply inverse_ex; lra]. intros v Hv. rewrite Rmin_left, Rmax_right in Hv by lra.
    rewrite (sd_pdf _ _ _ _ SD) by lra. cbn [bind]. rewrite xdiv_fin by lra. rewrite xmul_fin. reflexivity.
  - intros x Hx. unfold Eta_Function_Base. rewrite xlt_true by auto. reflexivity.
  - intros x Hx. unfold E. destruct (Rle_dec b x); lra.
  - intros x H0 Hx. apply (is_RInt_ext (fun v => 1 / v * f v)); [|apply I; auto]. intros v Hv. rewrite Rmin_left, Rmax_right in Hv by lra.
    req. field. lra.
  - intros x y H0 Ha Hxy. destruct (Rle_dec b y) as [Hy | Hy].
    + assert (Z : E y = 0) by (unfold E; destruct (Rle_dec b y); lra). rewrite Z. split; [lra|].
      unfold E. destruct (Rle_dec b x); [lra|]. apply RInt_ge_0; [lra|apply inverse_ex; lra|]. intros v Hv.
      apply Rmult_le_pos; [left; apply Rdiv_lt_0_compat; lra|apply (sd_nonneg _ _ _ _ SD); lra].
    + unfold E. destruct (Rle_dec b y); [lra|]. destruct (Rle_dec b x); [lra|].
      assert (G : forall u w, 0 < u -> a <= u -> u <= w -> w <= b -> 0 <= RInt (fun v => 1 / v * f v) u w).
      { intros u w U1 U2 U3 U4. apply RInt_ge_0; [lra|apply (ex_RInt_sub _ u b); try lra; apply inverse_ex; lra|]. intros v Hv.
        apply Rmult_le_pos; [left; apply Rdiv_lt_0_compat; lra|apply (sd_nonneg _ _ _ _ SD); lra]. }
      split; [apply G; lra|].
      assert (C : RInt (fun v => 1 / v * f v) x y + RInt (fun v => 1 / v * f v) y b = RInt (fun v => 1 / v * f v) x b).
      { apply (RInt_Chasles (V := R_CompleteNormedModule) (fun v => 1 / v * f v) x y b); [apply (ex_RInt_sub _ x b); try lra|]; apply inverse_ex; lra. }
      assert (h := G x y). lra.
  - intros x c H0 Hx HC. assert (EC : c = RInt f a x).
    { revert HC. unfold CDF_Speed_Base. rewrite !xlt_false by lra. rewrite (HI _ f).
      - intros Z. apply Ok_inj, Fin_inj in Z. auto.
      - intros v Hv. rewrite Rmin_left, Rmax_right in Hv by lra. apply (sd_pdf _ _ _ _ SD); lra.
      - apply sd_int; lra. }
    assert (S := sd_split x ltac:(lra)). replace (1 - c) with (RInt f x b) by lra.
    unfold E. destruct (Rle_dec b x); [rewrite Rmult_0_r; apply sd_int_nonneg; lra|].
    assert (L : RInt (fun v => scal x (1 / v * f v)) x b <= RInt f x b).
    { apply RInt_le; [lra|apply (ex_RInt_scal (V := R_NormedModule)), inverse_ex; lra|apply sd_int; lra|].
      intros v Hv. unfold scal; cbn; unfold mult; cbn. assert (N := sd_nonneg _ _ _ _ SD v ltac:(lra)).
      replace (x * (1 / v * f v)) with (x / v * f v) by (field; lra).
      assert (x / v <= 1) by (apply Rmult_le_reg_r with v; [lra|]; replace (x / v * v) with x by (field; lra); lra). nra. }
    rewrite (RInt_scal (V := R_CompleteNormedModule)) in L by (apply inverse_ex; lra). exact L.
Qed.
End Generic.

Lemma pdf_all_continuous N v0 vo ve v : 0 < N -> 0 < v0 -> 0 <= vo -> 0 < ve -> continuous (fun x => pdf_all N v0 vo ve (clamp 0 (ve + vo) x)) v.
Proof.
  intros HN H0 Ho He. assert (P := sqrt_PI_pos). destruct (Rlt_dec 0 vo) as [L | L].
  - apply (continuous_ext (fun x => (clamp 0 (ve + vo) x / N / v0 / sqrt PI / vo) *
      (bell v0 (clamp 0 (ve + vo) x - vo) - bell v0 (clamp 0 ve (clamp 0 (ve + vo) x + vo))))).
    + intros x. assert (C := clamp_in 0 (ve + vo) x ltac:(lra)). unfold pdf_all.
      destruct (Rlt_dec _ 0); [lra|]. destruct (Rlt_dec (ve + vo) _); [lra|]. destruct (Rlt_dec 0 vo); [|lra].
      unfold pdf_moving. do 3 f_equal. unfold clamp at 1. rewrite Rmax_right; [apply Rmin_comm|]. apply Rmin_glb; lra.
    + assert (CC : forall y, continuous (clamp 0 (ve + vo)) y) by (intros; apply clamp_continuous).
      apply (continuous_mult (fun x => clamp 0 (ve + vo) x / N / v0 / sqrt PI / vo)
        (fun x => bell v0 (clamp 0 (ve + vo) x - vo) - bell v0 (clamp 0 ve (clamp 0 (ve + vo) x + vo)))).
      * apply (continuous_comp (clamp 0 (ve + vo)) (fun y => y / N / v0 / sqrt PI / vo)); [apply CC|].
        apply continuous_of_ex_derive. auto_derive. auto.
      * apply (continuous_minus (fun x => bell v0 (clamp 0 (ve + vo) x - vo)) (fun x => bell v0 (clamp 0 ve (clamp 0 (ve + vo) x + vo)))).
        -- apply (continuous_comp (fun x => clamp 0 (ve + vo) x - vo) (bell v0)); [|apply bell_continuous; lra].
           apply (continuous_minus (clamp 0 (ve + vo)) (fun _ => vo)); [apply CC|apply continuous_const].
        -- apply (continuous_comp (fun x => clamp 0 ve (clamp 0 (ve + vo) x + vo)) (bell v0)); [|apply bell_continuous; lra].
           apply (continuous_comp (fun x => clamp 0 (ve + vo) x + vo) (clamp 0 ve)); [|apply clamp_continuous].
           apply (continuous_plus (clamp 0 (ve + vo)) (fun _ => vo)); [apply CC|apply continuous_const].
  - assert (Z : vo = 0) by lra. subst vo.
    apply (continuous_ext (fun x => pdf_rest N v0 (clamp 0 (ve + 0) x))).
    + intros x. assert (C := clamp_in 0 (ve + 0) x ltac:(lra)). unfold pdf_all.
      destruct (Rlt_dec _ 0); [lra|]. destruct (Rlt_dec (ve + 0) _); [lra|]. destruct (Rlt_dec 0 0); [lra|]. auto.
    + apply (continuous_comp (clamp 0 (ve + 0)) (pdf_rest N v0)); [apply clamp_continuous|apply pdf_rest_continuous; auto].
Qed.

(** The standard halo is an instance, and its closed formulas agree with the generic functions. *)
Lemma halo_density s v0 vel ve : halo_history s v0 vel ve -> 0 < v0 -> 0 < ve -> vnorm vel <= ve ->
  exists f, (forall v, PDF_Speed_SHM s (Fin v) = Fin (f v)) /\ speed_density (fun v => Ok (PDF_Speed_SHM s v)) f 0 (ve + vnorm vel).
Proof.
  intros H H0 He Ho. assert (Vo := vnorm_nonneg vel). destruct (history_cdf s v0 vel ve H H0 He Ho) as (f & A & B & _ & D).
  exists f. split; auto. constructor.
  - lra.
  - intros v _. rewrite A. reflexivity.
  - intros v _. destruct (history_nonneg s v0 vel ve v H H0 He Ho) as (p & E & P). rewrite A in E. apply Fin_inj in E. lra.
  - intros v. assert (C := history_consistent _ _ _ _ H).
    apply (continuous_ext (fun x => pdf_all (gauss3 (ve / v0)) v0 (vnorm vel) ve (clamp 0 (ve + vnorm vel) x))).
    + intros x. assert (Q := A (clamp 0 (ve + vnorm vel) x)). rewrite (PDF_Speed_all s v0 (vnorm vel) ve) in Q by tauto. apply Fin_inj in Q. auto.
    + apply pdf_all_continuous; auto. apply gauss3_pos, Rdiv_lt_0_compat; auto.
  - destruct (B (ve + vnorm vel) ltac:(lra)) as (c & E & I). rewrite D in E by lra. apply Fin_inj in E. subst c. exact I.
Qed.
Lemma halo_generic_cdf Integrate s v0 vel ve v : ideal_quadrature Integrate -> halo_history s v0 vel ve -> 0 < v0 -> 0 < ve -> vnorm vel <= ve ->
  CDF_Speed_Base Integrate (fun x => Ok (PDF_Speed_SHM s x)) (h_dmin s) (h_dmax s) (Fin v) = Ok (CDF_Speed_SHM s (Fin v)).
Proof.
  intros HI H H0 He Ho. assert (Vo := vnorm_nonneg vel).
  destruct (halo_density s v0 vel ve H H0 He Ho) as (f & A & SD).
  destruct (generic_cdf Integrate _ f 0 (ve + vnorm vel) HI SD) as (F & F1 & F2 & F3 & F4 & _).
  destruct (history_cdf s v0 vel ve H H0 He Ho) as (g & G1 & G2 & G3 & G4).
  destruct (history_domain s v0 vel ve H) as (-> & -> & _). rewrite F1. f_equal.
  destruct (Rlt_dec v 0) as [L | L]; [rewrite F2, G3 by lra; auto|].
  destruct (Rle_dec (ve + vnorm vel) v) as [M | M]; [rewrite F3, G4 by lra; auto|].
  destruct (G2 v ltac:(lra)) as (c & -> & I). f_equal. assert (J := F4 v ltac:(lra)).
  apply (is_RInt_unique (V := R_CompleteNormedModule)) in I. apply (is_RInt_unique (V := R_CompleteNormedModule)) in J. rewrite <- I, <- J. apply RInt_ext. intros x _. assert (Q := A x). rewrite G1 in Q. apply Fin_inj in Q. auto.
Qed.
Lemma halo_generic_eta Integrate s v0 vel ve x : ideal_quadrature Integrate -> halo_history s v0 vel ve -> 0 < v0 -> 0 < ve -> vnorm vel <= ve ->
  (vnorm vel = 0 \/ eps8 * v0 <= vnorm vel) -> 0 < x <= ve + vnorm vel - eps8 * v0 ->
  Eta_Function_Base Integrate (fun x => Ok (PDF_Speed_SHM s x)) (h_dmin s) (h_dmax s) (Fin x) = Ok (Eta_Function_SHM s (Fin x)).
Proof.
  intros HI H H0 He Ho Hc Hx. assert (Vo := vnorm_nonneg vel). assert (e8 := eps8_pos). assert (0 < eps8 * v0) by (apply Rmult_lt_0_compat; auto).
  destruct (halo_density s v0 vel ve H H0 He Ho) as (f & A & SD).
  destruct (generic_eta Integrate _ f 0 (ve + vnorm vel) HI SD) as (E & E1 & _ & _ & E4 & _).
  destruct (history_eta s v0 vel ve H H0 He Ho) as (g & G & G1 & G2 & _ & _ & G5). destruct (G5 Hc) as [G6 _].
  destruct (history_domain s v0 vel ve H) as (-> & -> & _). rewrite E1 by lra. rewrite G2 by lra. do 2 f_equal.
  assert (I := E4 x ltac:(lra) ltac:(lra)). assert (J := G6 x ltac:(lra)).
  apply (is_RInt_unique (V := R_CompleteNormedModule)) in I. apply (is_RInt_unique (V := R_CompleteNormedModule)) in J. rewrite <- I, <- J. apply RInt_ext. intros y _. f_equal. assert (Q := A y). rewrite G1 in Q. apply Fin_inj in Q. auto.
Qed.

(** * C29 *)
Lemma import_same Integrate Interp rho path rows s1 s2 :
  Imported_of_file Integrate Interp rho path rows = Ok s1 -> Imported_of_table Integrate Interp (Import_Table rows) rho = Ok s2 ->
  (forall v, Imported_PDF_Speed Interp s1 v = Imported_PDF_Speed Interp s2 v) /\
  (forall v, Imported_Eta_Function Interp s1 v = Imported_Eta_Function Interp s2 v) /\
  im_rho s1 = im_rho s2 /\ im_dmin s1 = im_dmin s2 /\ im_dmax s1 = im_dmax s2 /\
  im_use_eta s1 = true /\ im_use_eta s2 = false.
Proof.
  unfold Imported_of_file, Imported_of_table, import_table. destruct (table_domain _) as [d| | |]; cbn [bind]; try discriminate.
  unfold Interpolate_Eta. cbn [im_dmin im_dmax].
  change (Imported_PDF_Speed Interp {| im_name := "Imported DM distribution"; im_file := path; im_rho := rho; im_dmin := fst d; im_dmax := snd d;
      im_use_eta := true; im_pdf_table := Import_Table rows; im_eta_table := [] |})
    with (Imported_PDF_Speed Interp {| im_name := "Tabulated DM distribution"; im_file := "-"; im_rho := rho; im_dmin := fst d; im_dmax := snd d;
      im_use_eta := false; im_pdf_table := Import_Table rows; im_eta_table := [] |}).
  destruct (map_res _ _) as [e| | |]; cbn [bind]; try discriminate. intros H1 H2. apply Ok_inj in H1, H2. subst s1 s2.
  repeat split; reflexivity.
Qed.
Lemma import_both Integrate Interp rho path rows :
  (exists s1, Imported_of_file Integrate Interp rho path rows = Ok s1) <-> exists s2, Imported_of_table Integrate Interp (Import_Table rows) rho = Ok s2.
Proof.
  unfold Imported_of_file, Imported_of_table, import_table. destruct (table_domain _) as [d| | |]; cbn [bind];
    try (split; intros [s H]; discriminate H).
  unfold Interpolate_Eta. cbn [im_dmin im_dmax].
  change (Imported_PDF_Speed Interp {| im_name := "Imported DM distribution"; im_file := path; im_rho := rho; im_dmin := fst d; im_dmax := snd d;
      im_use_eta := true; im_pdf_table := Import_Table rows; im_eta_table := [] |})
    with (Imported_PDF_Speed Interp {| im_name := "Tabulated DM distribution"; im_file := "-"; im_rho := rho; im_dmin := fst d; im_dmax := snd d;
      im_use_eta := false; im_pdf_table := Import_Table rows; im_eta_table := [] |}).
  destruct (map_res _ _) as [e| | |]; cbn [bind]; split; intros [s H]; try discriminate; eauto.
Qed.

(** * C65: export, then import *)
Lemma units_back x y : xmul (xdiv (Fin x) (xdiv (Fin km) (Fin sec))) (xdiv (Fin km) (Fin sec)) = Fin x /\
  xmul (xdiv (Fin y) (xdiv (Fin sec) (Fin km))) (xdiv (Fin sec) (Fin km)) = Fin y.
Proof.
  assert (a := km_pos). assert (b := sec_pos).
  assert (0 < km / sec) by (apply Rdiv_lt_0_compat; auto). assert (0 < sec / km) by (apply Rdiv_lt_0_compat; auto).
  split; repeat (rewrite xdiv_fin by lra); rewrite xmul_fin; f_equal; field; lra.
Qed.
Lemma export_rows pdf f (l : list R) rows : (forall v, In v l -> pdf (Fin v) = Ok (Fin (f v))) ->
  map_res (fun v => let* g := pdf v in Ok (xdiv v (xdiv (Fin km) (Fin sec)), xdiv g (xdiv (Fin sec) (Fin km)))) (map Fin l) = Ok rows ->
  Import_Table rows = map node (map (fun v => (v, Fin (f v))) l).
Proof.
  revert rows; induction l as [|v l IH]; intros rows H E; cbn [map map_res] in E.
  - apply Ok_inj in E. subst rows. reflexivity.
  - rewrite H in E by (left; auto). cbn [bind] in E. destruct (map_res _ _) as [t| | |] eqn:T; cbn [bind] in E; try discriminate.
    apply Ok_inj in E. subst rows. unfold Import_Table. cbn [map fst snd].
    destruct (units_back v (f v)) as [-> ->]. unfold node at 1; cbn [fst snd]. f_equal.
    apply IH; auto. intros; apply H; right; auto.
Qed.

Lemma export_import Integrate Interp pdf f a b n rows rho path s : ideal_interpolation Interp -> a < b ->
  (forall v, a <= v <= b -> pdf (Fin v) = Ok (Fin (f v))) ->
  Export_PDF_Speed pdf (Fin a) (Fin b) (S (S n)) = Ok rows ->
  Imported_of_file Integrate Interp rho path rows = Ok s ->
  im_dmin s = Fin a /\ im_dmax s = Fin b /\
  (forall i, (i <= S n)%nat -> let v := a + INR i * ((b - a) / INR (S n)) in Imported_PDF_Speed Interp s (Fin v) = Ok (Fin (f v))) /\
  (forall lo hi v, (forall x, a <= x <= b -> lo <= f x <= hi) -> a <= v <= b ->
     exists y, Imported_PDF_Speed Interp s (Fin v) = Ok (Fin y) /\ lo <= y <= hi).
Proof.
  intros HJ AB HP HE HS. unfold Export_PDF_Speed in HE. rewrite Linear_Space_fin in HE by lia.
  set (g := fun i => a + INR i * ((b - a) / INR (S (S n) - 1))) in HE. set (l := map g (seq 0 (S (S n)))) in HE.
  assert (DN : 0 < INR (S n)) by (apply lt_0_INR; lia).
  assert (G : forall i, (i <= S n)%nat -> a <= g i <= b).
  { intros i Hi. unfold g. replace (S (S n) - 1)%nat with (S n) by lia. apply le_INR in Hi. assert (0 <= INR i) by apply pos_INR.
    assert (Q : INR i * ((b - a) / INR (S n)) = INR i / INR (S n) * (b - a)) by (field; lra).
    assert (0 <= INR i / INR (S n) <= 1).
    { split; [apply Rmult_le_pos; [auto|left; apply Rinv_0_lt_compat; auto]|]. apply Rmult_le_reg_r with (INR (S n)); auto.
      replace (INR i / INR (S n) * INR (S n)) with (INR i) by (field; lra). lra. }
    rewrite Q. nra. }
  assert (L : forall v, In v l -> a <= v <= b).
  { intros v V. unfold l in V. apply in_map_iff in V. destruct V as (i & <- & Hi). apply in_seq in Hi. apply G. lia. }
  assert (ET := export_rows pdf f l rows ltac:(intros v V; apply HP, L, V) HE).
  unfold Imported_of_file, import_table in HS. rewrite ET in HS.
  assert (EL : l = a :: map g (seq 1 (S n))).
  { unfold l. change (seq 0 (S (S n))) with (0%nat :: seq 1 (S n)). cbn [map]. f_equal. unfold g. cbn [INR]. lra. }
  set (h := fun v => (v, Fin (f v))) in *.
  assert (SI : increasing (map h l)).
  { apply increasing_fst. rewrite map_map. cbn [h fst]. rewrite map_id. unfold l. apply sorted_seq. intros i j Hij. unfold g. apply lt_INR in Hij.
    replace (S (S n) - 1)%nat with (S n) by lia. assert (0 < (b - a) / INR (S n)) by (apply Rdiv_lt_0_compat; lra). nra. }
  assert (LB : last (map g (seq 1 (S n))) a = b).
  { rewrite last_seq. unfold g. replace (1 + n)%nat with (S n) by lia. replace (S (S n) - 1)%nat with (S n) by lia. field. lra. }
  rewrite EL in HS, SI. cbn [map] in HS, SI. set (p := h a) in *. set (r := map h (map g (seq 1 (S n)))) in *.
  cbn [table_domain] in HS. rewrite (last_map node) in HS. cbn [bind fst snd] in HS.
  assert (LR : last r p = h b) by (unfold r, p; rewrite last_map, LB; reflexivity).
  rewrite LR in HS. destruct (Interpolate_Eta _ _ _) as [e| | |]; cbn [bind] in HS; try discriminate. apply Ok_inj in HS. subst s.
  cbn [im_dmin im_dmax]. destruct (HJ p r SI) as (_ & _ & J3 & J4). change (fst (node p)) with (Fin a). change (fst (node (h b))) with (Fin b).
  change (node p :: map node r) with (map node (p :: r)).
  split; [reflexivity|]. split; [reflexivity|].
  assert (INL : forall v, In v l -> In (h v) (p :: r)).
  { intros v V. rewrite EL in V. destruct V as [<- | V]; [left; reflexivity|right; unfold r; apply in_map; auto]. }
  split.
  - intros i Hi. set (v := a + INR i * ((b - a) / INR (S n))). unfold Imported_PDF_Speed. cbn [im_dmin im_dmax im_pdf_table].
    assert (V : v = g i) by (unfold v, g; replace (S (S n) - 1)%nat with (S n) by lia; reflexivity).
    assert (B := G i Hi). rewrite V. rewrite !xlt_false by lra. cbn [orb].
    assert (I : In (h (g i)) (p :: r)) by (apply INL; unfold l; apply in_map, in_seq; lia).
    exact (J3 (h (g i)) I).
  - intros lo hi v B V. unfold Imported_PDF_Speed. cbn [im_dmin im_dmax im_pdf_table]. rewrite !xlt_false by lra. cbn [orb].
    apply J4; [|rewrite LR; exact V]. intros q Q. exists (f (fst q)).
    assert (X : exists x, In x l /\ h x = q).
    { destruct Q as [<- | Q]; [exists a; split; [rewrite EL; left; auto|auto]|].
      unfold r in Q. apply in_map_iff in Q. destruct Q as (x & <- & X). exists x. split; [rewrite EL; right; auto|auto]. }
    destruct X as (x & X & <-). cbn [h fst snd]. split; [reflexivity|]. apply B, L, X.
Qed.

Lemma import_same_queries Integrate Interp rho path rows s1 s2 :
  Imported_of_file Integrate Interp rho path rows = Ok s1 -> Imported_of_table Integrate Interp (Import_Table rows) rho = Ok s2 ->
  (forall v, Imported_PDF_Speed Interp s1 v = Imported_PDF_Speed Interp s2 v) /\
  (forall v, Imported_Eta_Function Interp s1 v = Imported_Eta_Function Interp s2 v) /\
  im_rho s1 = im_rho s2 /\ im_dmin s1 = im_dmin s2 /\ im_dmax s1 = im_dmax s2.
Proof. intros H1 H2. destruct (import_same _ _ _ _ _ _ _ H1 H2) as (A & B & C & D & E & _). auto. Qed.
Lemma import_flag Integrate Interp rho path rows s1 s2 :
  Imported_of_file Integrate Interp rho path rows = Ok s1 -> Imported_of_table Integrate Interp (Import_Table rows) rho = Ok s2 ->
  im_use_eta s1 = true /\ im_use_eta s2 = false.
Proof. intros H1 H2. destruct (import_same _ _ _ _ _ _ _ H1 H2) as (A & B & C & D & E & F). auto. Qed.

(** * Instances *)
Lemma density_instance : (exists s f, speed_density (fun v => Ok (PDF_Speed_SHM s v)) f 0 11) /\ ideal_quadrature reference_Integrate.
Proof.
  split; [|exact ideal_quadrature_exists]. destruct example_history as (s & H & H0 & He & E & L & _).
  destruct (halo_density s 2 (V3 0 3 4) 6 H H0 He L) as (f & _ & D). exists s, f. rewrite E in D. replace 11 with (6 + 5) by ring. exact D.
Qed.
Lemma uniform_instance : speed_density (fun _ => Ok (Fin (1/2))) (fun _ => 1/2) 1 3.
Proof.
  constructor; try lra; auto.
  - intros; lra. - intros; apply continuous_const.
  - assert (C := is_RInt_const (V := R_NormedModule) 1 3 (1/2)). change (scal (3 - 1) (1/2)) with ((3 - 1) * (1/2)) in C.
    replace ((3 - 1) * (1 / 2)) with 1 in C by field. exact C.
Qed.
Lemma cut_instance : CDF_Speed_Base reference_Integrate (fun _ => Ok (Fin (1/2))) (Fin 1) (Fin 3) (Fin 2) = Ok (Fin (1/2)) /\ 1/2 < 1.
Proof.
  split; [|lra]. destruct (generic_cdf reference_Integrate _ _ _ _ ideal_quadrature_exists uniform_instance) as (F & A & _ & _ & B & _).
  rewrite A. do 2 f_equal. assert (I := B 2 ltac:(lra)). apply (is_RInt_unique (V := R_CompleteNormedModule)) in I. rewrite <- I.
  rewrite (RInt_const (V := R_CompleteNormedModule)). change ((2 - 1) * (1/2) = 1/2). field.
Qed.
Lemma ref_eta_ok pdf a b v : (exists y, Eta_Function_Base reference_Integrate pdf a b v = Ok y) \/ xlt v a = true.
Proof. unfold Eta_Function_Base. destruct (xlt v a); auto. destruct (xle b v); left; unfold reference_Integrate; eauto. Qed.
Lemma map_res_ok {A B} (g : A -> res B) l : (forall x, In x l -> exists y, g x = Ok y) -> exists t, map_res g l = Ok t.
Proof.
  induction l as [|x l IH]; intros H; cbn; [eauto|]. destruct (H x (or_introl eq_refl)) as [y ->].
  destruct IH as [t E]; [intros; apply H; right; auto|]. cbn [bind]. rewrite E. cbn. eauto.
Qed.
Lemma reference_import nm file rho flag a b y r : a < b -> fst (last r (Fin a, y)) = Fin b ->
  exists s, import_table reference_Integrate reference_Interpolation nm file rho flag ((Fin a, y) :: r) = Ok s.
Proof.
  intros AB E. unfold import_table. cbn [table_domain bind fst snd]. rewrite E.
  unfold Interpolate_Eta. cbn [im_dmin im_dmax].
  match goal with |- context [map_res ?g ?l] => destruct (map_res_ok g l) as [t T] end; [|rewrite T; cbn [bind]; eexists; reflexivity].
  intros v V. rewrite Linear_Space_fin in V by lia. rewrite map_map in V. apply in_map_iff in V. destruct V as (i & <- & Hi). apply in_seq in Hi.
  match goal with |- context [Eta_Function_Base _ ?p ?a ?b ?v] => destruct (ref_eta_ok p a b v) as [[e E1] | E1] end.
  - rewrite E1. cbn [bind]. eauto.
  - exfalso. rewrite xlt_false in E1; [discriminate|]. assert (0 <= INR i) by apply pos_INR.
    assert (0 < (b - a) / INR (500 - 1)) by (apply Rdiv_lt_0_compat; [lra|apply lt_0_INR; lia]). nra.
Qed.
Lemma import_instance : exists s1 s2, Imported_of_file reference_Integrate reference_Interpolation (Fin 1) "f.txt" [(Fin 100, Fin 1); (Fin 200, Fin 3)] = Ok s1 /\
  Imported_of_table reference_Integrate reference_Interpolation (Import_Table [(Fin 100, Fin 1); (Fin 200, Fin 3)]) (Fin 1) = Ok s2.
Proof.
  assert (X : exists s1, Imported_of_file reference_Integrate reference_Interpolation (Fin 1) "f.txt" [(Fin 100, Fin 1); (Fin 200, Fin 3)] = Ok s1).
  { assert (a := km_pos). assert (b := sec_pos). assert (0 < km / sec) by (apply Rdiv_lt_0_compat; auto).
    unfold Imported_of_file, Import_Table. cbn [map fst snd]. rewrite !xdiv_fin by lra. rewrite !xmul_fin.
    apply (reference_import _ _ _ _ _ (200 * (km / sec))); [nra|reflexivity]. }
  assert (Y := X). apply import_both in Y. destruct X as [s1 X]. destruct Y as [s2 Y]. eauto.
Qed.
Lemma export_instance : exists rows s, Export_PDF_Speed (fun v => Ok (xmul (Fin 2) v)) (Fin 1) (Fin 3) (S (S 3)) = Ok rows /\
  Imported_of_file reference_Integrate reference_Interpolation (Fin 1) "f.txt" rows = Ok s.
Proof.
  unfold Export_PDF_Speed. rewrite Linear_Space_fin by lia.
  match goal with |- context [map_res ?g ?l] => destruct (map_res_ok g l) as [t T] end.
  - intros v V. cbn [bind]. eauto.
  - exists t. assert (E := export_rows (fun v => Ok (xmul (Fin 2) v)) (fun v => 2 * v) _ t ltac:(intros; reflexivity) T).
    unfold Imported_of_file. rewrite E, T.
    change (seq 0 5) with [0;1;2;3;4]%nat. cbn [map]. unfold node at 1. cbn [fst snd].
    match goal with |- context [import_table _ _ ?nm ?f ?rho ?fl ((Fin ?a, ?y) :: ?r)] => destruct (reference_import nm f rho fl a 3 y r) as [s S] end.
    + cbn [INR]. lra. + cbn [last node fst snd]. f_equal. change (5 - 1)%nat with 4%nat. cbn [INR]. field.
    + exists s. auto.
Qed.

Lemma import_refuted : exists Integrate Interp rho path rows s1 s2, Imported_of_file Integrate Interp rho path rows = Ok s1 /\ Imported_of_table Integrate Interp (Import_Table rows) rho = Ok s2 /\
  im_use_eta s1 = true /\ im_use_eta s2 = false.
Proof. destruct import_instance as (s1 & s2 & A & B). do 5 eexists. exists s1, s2. split; [exact A|]. split; [exact B|]. exact (import_flag _ _ _ _ _ _ _ A B). Qed.
