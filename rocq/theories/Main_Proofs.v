(** Lemmas about the program. *)
From Coq Require Import Reals ZArith String Ascii Lia Lra Bool DecimalString Decimal DecimalZ.
From Coquelicot Require Import Coquelicot.
From Coq Require Import List.
From Verif Require Import Base XrFacts Quadrature Nucleus_Model Nuclear_Model Nuclear_Proofs Particle_Model Particle_Proofs Distribution_Model Distribution_Proofs Astronomy_Model Halo_Model
  Atom_Model Atom_Proofs Crystal_Model Crystal_Proofs Rates_Model Detector_Model DetectorTypes_Model Detector_Proofs DetectorSafety_Proofs Experiments_Model Configuration_Model Experiments_Proofs
  Configuration_Proofs ConfigurationRun_Proofs ConfigurationValues_Proofs ConfigurationFiles_Proofs ConfigurationWitness_Proofs Limits_Proofs Fiducial_Proofs LimitsWitness_Proofs Summary_Model Summary_Proofs SummaryValues_Proofs Main_Model.
Import ListNotations.
Local Open Scope R_scope.

(** * The detector of a configuration has no values of an earlier limit *)
Ltac idles := repeat match goal with
  | C : Nuclear_ctor _ _ _ _ = Ok ?n |- _ => lazymatch goal with _ : idle "Nuclei" (n_base n) |- _ => fail | _ => pose proof (nuclear_ctor_idle _ _ _ _ _ C) end
  | I0 : idle ?t (n_base ?n), C : nuclear_run ?n _ = Ok ?n' |- _ => lazymatch goal with _ : idle t (n_base n') |- _ => fail | _ => pose proof (nuclear_run_idle t _ n n' I0 C) end
  | I0 : idle ?t (i_base ?n), C : ionization_run ?n _ = Ok ?n' |- _ => lazymatch goal with _ : idle t (i_base n') |- _ => fail | _ => pose proof (proj1 (ionization_run_idle t _ n n' I0 C)) end
  | C : Semiconductor_ctor _ _ _ _ = Ok ?n |- _ => lazymatch goal with _ : idle "Electrons" (c_base n) |- _ => fail | _ => pose proof (semiconductor_ctor_idle _ _ _ _ _ C) end
  | I0 : idle ?t (c_base ?n), C : semiconductor_run ?n _ = Ok ?n' |- _ => lazymatch goal with _ : idle t (c_base n') |- _ => fail | _ => pose proof (semiconductor_run_idle t _ n n' I0 C) end
  end.

Lemma ctor1_idle IT w ch label expo atom s w' : Ionization_ctor1 IT w ch label expo atom = Ok (s, w') -> idle (channel_targets ch) (i_base s).
Proof.
  intros C. unfold Ionization_ctor1 in C. destruct (Atom_by_name IT w atom) as [[a w3]| | |]; cbn [bind] in C; try discriminate. apply Ok_inj in C. injection C as <- <-.
  unfold Ionization_start. cbn [i_base]. apply idle_ctor.
Qed.
Ltac idles1 := repeat match goal with C : Ionization_ctor1 _ _ ?ch _ _ _ = Ok (?s, _) |- _ => apply ctor1_idle in C; cbn [channel_targets] in C end.
Ltac rest_now := idles1; idles; cbn [instrument_base];
  match goal with H : idle _ (n_base ?n) |- rested (n_base ?n) => exact (proj2 H) | H : idle _ (i_base ?n) |- rested (i_base ?n) => exact (proj2 H) | H : idle _ (c_base ?n) |- rested (c_base ?n) => exact (proj2 H) end.

Lemma supported_rested F w name i w' : supported_experiment F w name = Ok (i, w') -> rested (instrument_base i).
Proof.
  unfold supported_experiment, supported. intros H. cbn [find fst] in H.
  repeat match type of H with (match (if (?a =? name)%string then _ else _) with _ => _ end) = _ =>
    let E := fresh "E" in destruct (a =? name)%string eqn:E; [clear E; cbn [snd] in H|clear E] end; [..|discriminate H];
  try unfold as_nuclear in H; try unfold as_ionization in H; try unfold as_semiconductor in H;
  match type of H with (let* _ := ?m in _) = _ => destruct m as [r| | |] eqn:R; cbn [bind] in H; try discriminate H end;
  try destruct r as [r w1]; apply Ok_inj in H; injection H as <- <-;
  match type of R with ?f _ _ = _ => unfold f in R | ?f _ = _ => unfold f in R end; cbv zeta in R; open_res R; try (discriminate R);
  try (apply Ok_inj in R; injection R as <- _); rest_now.
Qed.

Lemma configured_rested E cfg w i w' : Construct_DM_Detector E cfg w = Ok (i, w') -> rested (instrument_base i).
Proof.
  unfold Construct_DM_Detector. intros H. apply bind_ok in H. destruct H as (x & X & H).
  destruct (_ =? _)%string.
  { unfold Construct_DM_Detector_Nuclear in H. cbv zeta in H. open_res H. apply Ok_inj in H. injection H as <- <-.
    match goal with E2 : (if ?c then _ else _) = Ok ?n2 |- _ => destruct c; [|apply Ok_inj in E2; subst] end; rest_now. }
  destruct (_ || _)%bool.
  { unfold Construct_DM_Detector_Ionization in H. cbv zeta in H. open_res H. apply Ok_inj in H. injection H as <- <-.
    match goal with E2 : (if ?c then _ else _) = Ok _ |- _ => destruct c; [|destruct (_ =? _)%string in E2]; open_res E2; apply Ok_inj in E2; injection E2 as <- <- end;
    match goal with E3 : deref _ = Ok _ |- _ => cbn [deref] in E3; try discriminate E3; apply Ok_inj in E3; subst end; rest_now. }
  destruct (_ =? _)%string.
  { unfold Construct_DM_Detector_Crystal in H. open_res H. apply Ok_inj in H. injection H as <- <-. rest_now. }
  eapply supported_rested; eauto.
Qed.

(** * The particle of a configuration *)
(** The settings of the particle are within their ranges: positive mass, cross sections that are not negative, couplings that do not cancel. *)
Definition proper_particle (cfg : settings) : Prop :=
  exists m sn se p n, value_of cfg "DM_mass" = Some (SFloat m) /\ 0 < m /\ value_of cfg "DM_cross_section_nucleon" = Some (SFloat sn) /\ 0 <= sn /\
    value_of cfg "DM_cross_section_electron" = Some (SFloat se) /\ 0 <= se /\ ratio_asked cfg p n /\ p + n <> 0.

Lemma configured_finite cfg q spin : proper_particle cfg -> Construct_DM_Particle cfg = Ok (q, spin) -> finite_particle q.
Proof.
  intros (m & sn & se & p & n & VM & PM & VS & PS & VE & PE & RA & NZ) H. apply particle_inv in H. destruct H as (m' & sp & f & b & i & p3 & V1 & V2 & V3 & V4 & V5 & II & ST & -> & ->).
  rewrite V1 in VM. injection VM as ->. apply standard_inv in ST; [|exact II]. destruct ST as (k & p0 & x & y & p1 & sn' & p2 & se' & -> & K1 & K2 & RC & FX & V6 & S2 & V7 & ->).
  rewrite V6 in VS. injection VS as ->. rewrite V7 in VE. injection VE as ->.
  assert (XY : x = Fin p /\ y = Fin n).
  { apply relative_inv in RC. destruct RC as [(B & -> & ->) | (B & p' & n' & t & C & -> & ->)]; destruct RA as [(B' & -> & ->) | (B' & t' & C')]; try congruence; auto.
    rewrite C in C'. injection C' as -> -> ->. auto. }
  destruct XY as (-> & ->). destruct (bare_particle cfg k p0 K1 K2) as (SO & RE & SI0 & KP & FFV).
  assert (C2 : 0 < cm * cm) by (apply Rmult_lt_0_compat; apply cm_pos). assert (SN : 0 <= sn * (cm * cm)) by (apply Rmult_le_pos; lra). assert (SE : 0 <= se * (cm * cm)) by (apply Rmult_le_pos; lra).
  assert (MP : 0 < m * GeV) by (unfold GeV; lra).
  destruct (fix_ratio_eq p0 p n SO NZ (fun _ _ => SI0)) as (p1' & x & y & E1 & C1 & R1 & F1 & A1 & B1). rewrite FX in E1. apply Ok_inj in E1. subst p1'.
  assert (T1 : tied (p / (p + n)) (n / (p + n)) p1).
  { split; [|auto]. eapply (sound_step p0 (PFix_Ratio (Fin p) (Fin n))); [exact SO| |exact FX]. split; [split; eexists; reflexivity|]. split; [rewrite xadd_fin; intros Q; apply Fin_inj in Q; auto|auto]. }
  assert (RE1 : reachable p1) by (eapply (reachable_step p0 (PFix_Ratio (Fin p) (Fin n))); [exact RE|split; eexists; reflexivity|exact FX]).
  assert (T2 : tied (p / (p + n)) (n / (p + n)) p2) by (eapply (tied_step _ _ p1 (PSet_Interaction (Fin (sn * (cm * cm))) "Nuclei")); [exact T1|eexists; split; [reflexivity|exact SN]|exact Logic.I|exact S2]).
  assert (RE2 : reachable p2) by (eapply (reachable_step p1 (PSet_Interaction (Fin (sn * (cm * cm))) "Nuclei")); [exact RE1|eexists; split; [reflexivity|exact SN]|exact S2]).
  set (p3 := Set_Sigma_Electron (Fin (se * (cm * cm))) p2).
  assert (T3 : tied (p / (p + n)) (n / (p + n)) p3) by (eapply (tied_step _ _ p2 (PSet_Sigma_Electron (Fin (se * (cm * cm))))); [exact T2|eexists; split; [reflexivity|exact SE]|exact Logic.I|reflexivity]).
  assert (RE3 : reachable p3) by (eapply (reachable_step p2 (PSet_Sigma_Electron (Fin (se * (cm * cm))))); [exact RE2|eexists; split; [reflexivity|exact SE]|reflexivity]).
  set (p4 := Set_Mass (Fin (m * GeV)) p3).
  assert (T4 : tied (p / (p + n)) (n / (p + n)) p4) by (eapply (tied_step _ _ p3 (PSet_Mass (Fin (m * GeV)))); [exact T3|eexists; split; [reflexivity|exact MP]|exact Logic.I|reflexivity]).
  assert (RE4 : reachable p4) by (eapply (reachable_step p3 (PSet_Mass (Fin (m * GeV)))); [exact RE3|eexists; split; [reflexivity|exact MP]|reflexivity]).
  set (p5 := with_density (Fin f) p4). set (p6 := with_low_mass b p5).
  assert (RE6 : reachable p6). { eapply (reachable_step p5 (PLow_Mass b)); [eapply (reachable_step p4 (PDensity (Fin f))); [exact RE4|exact Logic.I|reflexivity]|exact Logic.I|reflexivity]. }
  split; [exact RE6|]. destruct T4 as ((G & HC & Rr) & TF & TA & TB). split; [exact Rr|]. exact HC.
Qed.

(** * The masses *)
(** The settings of the limits: two or more masses between two positive ones. *)
Definition proper_limits (cfg : settings) (lo hi : R) (k : nat) (ce : R) : Prop :=
  value_of cfg "constraints_mass_min" = Some (SFloat lo) /\ 0 < lo /\ value_of cfg "constraints_mass_max" = Some (SFloat hi) /\ 0 < hi /\
  value_of cfg "constraints_masses" = Some (SInt (Z.of_nat k)) /\ (2 <= k)%nat /\ (Z.of_nat k < 2 ^ 31)%Z /\ value_of cfg "constraints_certainty" = Some (SFloat ce).
(** The i-th of k masses, evenly spaced on a logarithmic scale. *)
Definition mass_at (lo hi : R) (k i : nat) : R := lo * Rpower (hi / lo) (INR i / INR (k - 1)).
Definition mass_grid (lo hi : R) (k : nat) : list xr := map (fun i => Fin (mass_at lo hi k i)) (seq 0 k).

Lemma Log_Space_grid lo hi k : 0 < lo -> 0 < hi -> (2 <= k)%nat -> Log_Space (Fin lo) (Fin hi) k = mass_grid lo hi k.
Proof.
  intros A B N. unfold Log_Space, mass_grid, mass_at. apply map_ext. intros i. rewrite !xlog_fin by auto. assert (M : INR (k - 1) <> 0) by (apply not_0_INR; lia).
  rewrite xsub_fin, xdiv_fin, xmul_fin, xadd_fin, xexp_fin by auto. f_equal. unfold Rpower. rewrite ln_div by auto. rewrite exp_plus, exp_ln by auto. f_equal. f_equal. field. auto.
Qed.
Lemma mass_at_pos lo hi k i : 0 < lo -> 0 < mass_at lo hi k i.
Proof. intros H. unfold mass_at. apply Rmult_lt_0_compat; [exact H|apply exp_pos]. Qed.
Lemma mass_grid_positive lo hi k : 0 < lo -> positive_masses (mass_grid lo hi k).
Proof.
  intros H. unfold positive_masses, mass_grid. apply Forall_forall. intros m I. apply in_map_iff in I. destruct I as (i & <- & _). eexists. split; [reflexivity|]. apply mass_at_pos; auto.
Qed.
Lemma exp_le_mono a b : a <= b -> exp a <= exp b.
Proof. intros [H|H]; [left; apply exp_increasing; exact H|right; subst; reflexivity]. Qed.
(** The grid starts at the lowest mass, ends at the highest one and lies in between. *)
Lemma mass_grid_ends lo hi k : 0 < lo -> 0 < hi -> (2 <= k)%nat -> mass_at lo hi k 0 = lo /\ mass_at lo hi k (k - 1) = hi /\
  (forall i, (S i < k)%nat -> mass_at lo hi k (S i) = mass_at lo hi k i * Rpower (hi / lo) (1 / INR (k - 1))) /\
  (lo <= hi -> forall i, (i < k)%nat -> lo <= mass_at lo hi k i <= hi).
Proof.
  intros A B N. assert (M : 0 < INR (k - 1)) by (apply lt_0_INR; lia). assert (Q : 0 < hi / lo) by (apply Rdiv_lt_0_compat; auto). unfold mass_at. split.
  { cbn [INR]. unfold Rdiv at 2. rewrite Rmult_0_l, Rpower_O by auto. lra. }
  split; [replace (INR (k - 1) / INR (k - 1)) with 1 by (field; lra); rewrite Rpower_1 by auto; field; lra|].
  split; [intros i _; rewrite Rmult_assoc, <- Rpower_plus, S_INR; f_equal; f_equal; field; lra|].
  intros LE i I. assert (I0 : 0 <= INR i / INR (k - 1)) by (apply Rmult_le_pos; [apply pos_INR|left; apply Rinv_0_lt_compat; auto]).
  assert (I1 : INR i / INR (k - 1) <= 1). { apply (Rmult_le_reg_r (INR (k - 1))); auto. unfold Rdiv. rewrite Rmult_assoc, Rinv_l by lra. rewrite Rmult_1_r, Rmult_1_l. apply le_INR. lia. }
  assert (L0 : 0 <= ln (hi / lo)). { rewrite <- ln_1. destruct (Req_dec 1 (hi / lo)) as [E|E]; [rewrite <- E; lra|]. left. apply ln_increasing; [lra|]. apply (Rmult_le_compat_r (/ lo)) in LE; [|left; apply Rinv_0_lt_compat; auto]. rewrite Rinv_r in LE by lra. unfold Rdiv in *. lra. }
  assert (X1 : 1 <= Rpower (hi / lo) (INR i / INR (k - 1))). { rewrite <- (Rpower_O (hi / lo)) by auto. apply exp_le_mono. nra. }
  assert (X2 : Rpower (hi / lo) (INR i / INR (k - 1)) <= hi / lo). { rewrite <- (Rpower_1 (hi / lo)) at 2 by auto. apply exp_le_mono. nra. }
  split; [nra|]. apply (Rmult_le_compat_l lo) in X2; [|lra]. replace (lo * (hi / lo)) with hi in X2 by (field; lra). exact X2.
Qed.

(** * The table *)
(** The points of the curve: masses that can be seen, with their limit if there is one. *)
Definition limit_points (FR : root_finder) (X : statistics) (V : virtuals) (d : detector) (p : particle) (cert lowest : xr) (masses : list xr) : list (xr * xr) :=
  flat_map (fun m => if xlt m lowest then [] else match limit_at FR X V d p cert m with Some u => if xlt (Fin 0) u then [(m, u)] else [] | None => [] end) masses.

Lemma points_rows FR X V d p cert lowest masses :
  flat_map (fun m => match limit_at FR X V d p cert m with Some u => if xlt (Fin 0) u then [[m; u]] else [] | None => [] end) (filter (fun m => negb (xlt m lowest)) masses) =
  map (fun mu => [fst mu; snd mu]) (limit_points FR X V d p cert lowest masses).
Proof.
  unfold limit_points. induction masses as [|m t IH]; [reflexivity|]. cbn [filter flat_map]. destruct (xlt m lowest); cbn [negb]; [exact IH|]. cbn [flat_map].
  rewrite IH, map_app. f_equal. destruct (limit_at _ _ _ _ _ _ m) as [u|]; [|reflexivity]. destruct (xlt (Fin 0) u); reflexivity.
Qed.

(** The lines about the progress, and the numbers in the file. *)
Definition progress_lines (Round : rounding) (points : list (xr * xr)) : list line :=
  map (fun '(j, (m, u)) => ("mDM"%string, [Int (Z.of_nat j + 1); Int (Z.of_nat (List.length points)); Num (Round (m / Fin (if xlt m (Fin 1) then MeV else GeV))%xr);
    Txt (if xlt m (Fin 1) then " MeV"%string else " GeV"%string); Num (Round (u / Fin (cm * cm))%xr)])) (combine (seq 0 (List.length points)) points).
Definition file_rows (points : list (xr * xr)) : list (list xr) := map (fun mu => [(fst mu / Fin GeV)%xr; (snd mu / Fin (cm * cm))%xr]) points.

Lemma exported_rows points : exported (map (fun mu => [fst mu; snd mu]) points) = Ok (file_rows points).
Proof. unfold exported, file_rows. induction points as [|[m u] t IH]; [reflexivity|]. cbn [map map_res]. cbn [at_ub nth_error bind fst snd]. rewrite IH. reflexivity. Qed.

Lemma progress_from (Round : rounding) n points : forall j, (Z.of_nat (j + List.length points) < 2 ^ 32)%Z ->
  map_res (fun '(i, row) => progress_line Round n i row) (combine (seq j (List.length points)) (map (fun mu => [fst mu; snd mu]) points)) =
  Ok (map (fun '(j, (m, u)) => ("mDM"%string, [Int (Z.of_nat j + 1); Int (Z.of_nat n); Num (Round (m / Fin (if xlt m (Fin 1) then MeV else GeV))%xr);
    Txt (if xlt m (Fin 1) then " MeV"%string else " GeV"%string); Num (Round (u / Fin (cm * cm))%xr)])) (combine (seq j (List.length points)) points)).
Proof.
  induction points as [|[m u] t IH]; intros j B; [reflexivity|]. cbn [List.length] in *. cbn [seq map combine map_res]. rewrite IH by lia.
  unfold progress_line. cbn [at_ub nth_error bind fst snd]. unfold u32, In_Units. rewrite Z.mod_small by lia.
  replace (xlt m (Fin GeV)) with (xlt m (Fin 1)) by (unfold GeV; f_equal; f_equal; lra). reflexivity.
Qed.
Lemma progress_rows (Round : rounding) points : (Z.of_nat (List.length points) < 2 ^ 32)%Z -> progress Round (map (fun mu => [fst mu; snd mu]) points) = Ok (progress_lines Round points).
Proof. intros B. unfold progress, progress_lines. rewrite map_length. apply progress_from. exact B. Qed.

Lemma limit_points_length FR X V d p cert lowest masses : (List.length (limit_points FR X V d p cert lowest masses) <= List.length masses)%nat.
Proof.
  unfold limit_points. induction masses as [|m t IH]; [cbn; lia|]. cbn [flat_map]. rewrite app_length. cbn [List.length].
  enough (List.length (if xlt m lowest then [] else match limit_at FR X V d p cert m with Some u => if xlt (Fin 0) u then [(m, u)] else [] | None => [] end) <= 1)%nat by lia.
  destruct (xlt m lowest); [cbn; lia|]. destruct (limit_at _ _ _ _ _ _ m) as [u|]; [|cbn; lia]. destruct (xlt (Fin 0) u); cbn; lia.
Qed.

(** * Percentages and names *)
Lemma round_away_near x : Rabs (IZR (round_away x) - x) <= 1 / 2.
Proof.
  unfold round_away. destruct (Rlt_dec x 0).
  - rewrite opp_IZR. destruct (base_Int_part (- x + 1 / 2)). apply Rabs_le. lra.
  - destruct (base_Int_part (x + 1 / 2)). apply Rabs_le. lra.
Qed.
Lemma confidence_ok ce : 0 <= ce <= 1 -> exists CL, confidence_level ce = Ok CL /\ (0 <= CL <= 100)%Z /\ Rabs (IZR CL - 100 * ce) <= 1 / 2.
Proof.
  intros H. pose proof (round_away_near (100.0 * ce)) as A. exists (round_away (100.0 * ce)). apply Rabs_le_between in A.
  assert (L : (-1 < round_away (100.0 * ce))%Z) by (apply lt_IZR; lra). assert (U : (round_away (100.0 * ce) < 101)%Z) by (apply lt_IZR; lra).
  unfold confidence_level. cbv zeta. destruct (Z.leb_spec (- 2147483648) (round_away (100.0 * ce))); [|lia]. destruct (Z.leb_spec (round_away (100.0 * ce)) 2147483647); [|lia].
  cbn [andb]. split; [reflexivity|]. split; [lia|]. apply Rabs_le_between. lra.
Qed.
Lemma confidence_near ce CL : confidence_level ce = Ok CL -> Rabs (IZR CL - 100 * ce) <= 1 / 2.
Proof.
  unfold confidence_level. cbv zeta. destruct (_ && _)%bool; [|discriminate]. intros H. apply Ok_inj in H. subst CL. pose proof (round_away_near (100.0 * ce)) as A.
  apply Rabs_le_between in A. apply Rabs_le_between. lra.
Qed.

Lemma to_string_inj a b : to_string a = to_string b -> a = b.
Proof.
  unfold to_string. intros H. apply (f_equal NilZero.int_of_string) in H.
  assert (N : forall z, Z.to_int z <> Pos Nil /\ Z.to_int z <> Neg Nil).
  { intros z. split; intros Q; assert (Q' := f_equal Z.of_int Q); rewrite DecimalZ.of_to in Q'; cbn in Q'; subst z; discriminate Q. }
  rewrite !NilZero.isi in H by apply N. injection H as H. apply DecimalZ.to_int_inj. exact H.
Qed.

Fixpoint no_slash (s : string) : Prop := match s with EmptyString => True | String c t => c <> "/"%char /\ no_slash t end.
Lemma no_slash_uint d : no_slash (NilEmpty.string_of_uint d).
Proof. induction d; cbn; try exact Logic.I; (split; [discriminate|assumption]). Qed.
Lemma no_slash_number z : no_slash (to_string z).
Proof.
  unfold to_string, NilZero.string_of_int. assert (U : forall d, no_slash (NilZero.string_of_uint d)) by (intros d; unfold NilZero.string_of_uint; destruct d; try apply no_slash_uint; cbn; split; [discriminate|exact Logic.I]).
  destruct (Z.to_int z); [apply U|]. cbn. split; [discriminate|apply U].
Qed.
Lemma no_slash_app a b : no_slash a -> no_slash b -> no_slash (a ++ b)%string.
Proof. induction a as [|c t IH]; cbn; [auto|]. intros [H K] B. split; auto. Qed.
Lemma slash_inside a b : ~ no_slash (a ++ String "/" b)%string.
Proof. induction a as [|c t IH]; cbn; [intros [H _]; congruence|intros [_ H]; auto]. Qed.
Lemma last_slash a : forall a' b b', no_slash b -> no_slash b' -> (a ++ String "/" b = a' ++ String "/" b')%string -> a = a' /\ b = b'.
Proof.
  induction a as [|c t IH]; intros a' b b' B B' H; destruct a' as [|c' t']; cbn in H.
  - injection H as H. auto.
  - injection H as H1 H2. subst b. exfalso. apply (slash_inside t' b' B).
  - injection H as H1 H2. subst b'. exfalso. apply (slash_inside t b B').
  - injection H as H1 H2. destruct (IH t' b b' B B' H2) as [-> ->]. subst. auto.
Qed.
Lemma append_assoc' (a b c : string) : ((a ++ b) ++ c = a ++ (b ++ c))%string.
Proof. induction a as [|x t IH]; cbn; [reflexivity|]. rewrite IH. reflexivity. Qed.
Lemma append_cancel (a b c : string) : (a ++ b = a ++ c -> b = c)%string.
Proof. induction a as [|x t IH]; cbn; [auto|]. intros H. injection H as H. auto. Qed.
Lemma append_last (a : string) : forall b x y, (a ++ String x EmptyString = b ++ String y EmptyString)%string -> a = b /\ x = y.
Proof.
  induction a as [|c t IH]; intros b x y H; destruct b as [|c' t']; cbn in H.
  - injection H as H. auto.
  - injection H as H1 H2. destruct t'; discriminate H2.
  - injection H as H1 H2. destruct t; discriminate H2.
  - injection H as H1 H2. destruct (IH t' x y H2) as [-> ->]. subst. auto.
Qed.

Lemma constraints_names E ID CL ID' CL' : constraints_path E ID CL = constraints_path E ID' CL' -> ID = ID' /\ CL = CL'.
Proof.
  unfold constraints_path. intros H. apply append_cancel in H. apply append_cancel in H.
  change (ID ++ "/DD_Constraints_" ++ to_string CL ++ ".txt")%string with (ID ++ String "/" ("DD_Constraints_" ++ to_string CL ++ ".txt"))%string in H.
  change (ID' ++ "/DD_Constraints_" ++ to_string CL' ++ ".txt")%string with (ID' ++ String "/" ("DD_Constraints_" ++ to_string CL' ++ ".txt"))%string in H.
  assert (N : forall z, no_slash ("DD_Constraints_" ++ to_string z ++ ".txt")%string).
  { intros z. apply no_slash_app; [cbn; repeat (split; [discriminate|]); exact Logic.I|]. apply no_slash_app; [apply no_slash_number|cbn; repeat (split; [discriminate|]); exact Logic.I]. }
  apply last_slash in H; [|apply N|apply N]. destruct H as [-> H]. split; [reflexivity|]. apply append_cancel in H. apply to_string_inj.
  change ".txt"%string with (".tx" ++ "t")%string in H. rewrite <- !append_assoc' in H. apply append_last in H. destruct H as [H _].
  change ".tx"%string with (".t" ++ "x")%string in H. rewrite <- !append_assoc' in H. apply append_last in H. destruct H as [H _].
  change ".t"%string with ("." ++ "t")%string in H. rewrite <- !append_assoc' in H. apply append_last in H. destruct H as [H _]. apply append_last in H. tauto.
Qed.
Lemma constraints_not_copy E ID CL ID' : constraints_path E ID CL <> copy_path E ID'.
Proof.
  unfold constraints_path, copy_path. change ".txt"%string with (".tx" ++ "t")%string. change ".cfg"%string with (".cf" ++ "g")%string. intros H. rewrite <- !append_assoc' in H.
  apply append_last in H. destruct H as [_ H]. discriminate H.
Qed.

(** * The whole run *)
Lemma main_inv L fs w prog path rest fs' lines : main L fs w (prog :: path :: rest) = (fs', Ok lines) ->
  exists fs1 c w' target table, Configuration_ctor (l_env L) fs w path 0 = (fs1, Ok (c, w')) /\ main_body L c = Ok (lines, target, table) /\
    fs' = (if e_open (l_env L) fs1 target then put_file target (l_text L table) fs1 else fs1).
Proof.
  unfold main. destruct (Configuration_ctor (l_env L) fs w path 0) as [fs1 r] eqn:C. destruct r as [[c w']| | |]; try (intros H; discriminate H).
  destruct (main_body L c) as [[[ln target] table]| | |] eqn:B; intros H; try discriminate H. injection H as <- <-. exists fs1, c, w', target, table. auto.
Qed.
Lemma body_inv L c lines target table : main_body L c = Ok (lines, target, table) ->
  exists summary p spin h i rows d' p' ln CL, print_configuration (l_Round L) (l_integrals L) 0 c = Ok summary /\ cf_DM c = Some (p, spin) /\ cf_distr c = Some h /\ cf_detector c = Some i /\
    Upper_Limit_Curve (l_Find_Root L) (l_statistics L) (instrument_virtuals (l_externals L) (distribution_interface (l_env L) h) i) (instrument_base i) p (requested_masses L c) (Fin (cf_certainty c)) = Ok (rows, d', p') /\
    progress (l_Round L) rows = Ok ln /\ confidence_level (cf_certainty c) = Ok CL /\ exported rows = Ok table /\
    lines = (summary ++ ln)%list /\ target = constraints_path (l_env L) (cf_ID c) CL.
Proof.
  unfold main_body. intros H. apply bind_ok in H. destruct H as (summary & S & H). destruct (cf_DM c) as [[p spin]|]; [|discriminate]. destruct (cf_distr c) as [h|]; [|discriminate]. destruct (cf_detector c) as [i|]; [|discriminate].
  cbv zeta in H. apply bind_ok in H. destruct H as ([[rows d'] p'] & U & H). apply bind_ok in H. destruct H as (ln & P & H). apply bind_ok in H. destruct H as (CL & C & H). apply bind_ok in H. destruct H as (tb & X & H).
  apply Ok_inj in H. injection H as <- <- <-. exists summary, p, spin, h, i, rows, d', p', ln, CL. repeat (split; [first [assumption | reflexivity]|]). reflexivity.
Qed.

(** The particle, distribution and detector a configuration file asks for. *)
Definition asked_for (E : environment) (w : nuclear_world) (cfg : settings) (p : particle) (h : halo) (i : instrument) : Prop :=
  (exists spin, Construct_DM_Particle cfg = Ok (p, spin)) /\ Construct_DM_Distribution E cfg = Ok (Some h) /\ exists w', Construct_DM_Detector E cfg w = Ok (i, w').

Lemma program_table L fs w prog path rest cfg lo hi k ce fs' lines : only_evaluates (l_Find_Root L) -> loaded (l_env L) fs path cfg -> proper_particle cfg -> proper_limits cfg lo hi k ce ->
  main L fs w (prog :: path :: rest) = (fs', Ok lines) ->
  exists ID p h i lowest summary CL, value_of cfg "ID" = Some (SString ID) /\ asked_for (l_env L) w cfg p h i /\
    let V := instrument_virtuals (l_externals L) (distribution_interface (l_env L) h) i in
    let points := limit_points (l_Find_Root L) (l_statistics L) V (instrument_base i) p (Fin ce) lowest (mass_grid lo hi k) in
    v_minimum_mass V (instrument_base i) p = Ok lowest /\
    (forall m, In m (mass_grid lo hi k) -> xlt m lowest = false -> exists u, limit_at (l_Find_Root L) (l_statistics L) V (instrument_base i) p (Fin ce) m = Some u) /\
    Rabs (IZR CL - 100 * ce) <= 1 / 2 /\
    lines = (summary ++ progress_lines (l_Round L) points)%list /\
    ((forall g q, e_open (l_env L) g q = true) ->
       fs_file fs' (e_top (l_env L) ++ "results/" ++ ID ++ "/DD_Constraints_" ++ to_string CL ++ ".txt")%string = Some (l_text L (file_rows points))).
Proof.
  intros FR LD PP (V1 & P1 & V2 & P2 & V3 & K2 & K3 & V4) H. apply main_inv in H. destruct H as (fs1 & c & w' & target & table & C & B & ->).
  assert (C' : snd (Configuration_ctor (l_env L) fs w path 0) = Ok (c, w')) by (rewrite C; reflexivity).
  rewrite (ctor_loaded _ _ _ _ _ _ LD) in C'. apply bind_ok in C'. destruct C' as (ID & I & M). apply read_string_ok in I. apply members_inv in M.
  destruct M as ([p spin] & o & i & ce' & lo' & hi' & k' & M1 & M2 & M3 & M4 & EC). apply parameters_inv in M4. destruct M4 as (W4 & W1 & W2 & z & W3 & W3').
  rewrite V1 in W1. injection W1 as <-. rewrite V2 in W2. injection W2 as <-. rewrite V4 in W4. injection W4 as <-. rewrite V3 in W3. injection W3 as <-. assert (k' = Z.of_nat k) by (apply W3'; lia). subst k' c. clear W3'.
  apply body_inv in B. cbn [cf_DM cf_distr cf_detector cf_certainty cf_ID] in B. destruct B as (summary & p' & spin' & h & i' & rows & d' & p1 & ln & CL & B1 & B2 & B3 & B4 & B5 & B6 & B7 & B8 & -> & ->).
  injection B2 as <- <-. injection B4 as <-. subst o.
  assert (MG : requested_masses L {| cf_file := path; cf_ID := ID; cf_results := results_path (l_env L) ID; cf_DM := Some (p, spin); cf_distr := Some h; cf_detector := Some i; cf_certainty := ce; cf_mass_min := lo; cf_mass_max := hi; cf_masses := Z.of_nat k |} = mass_grid lo hi k).
  { unfold requested_masses. cbn [cf_masses cf_mass_min cf_mass_max]. destruct (Z.ltb_spec (Z.of_nat k) 2); [lia|]. rewrite Nat2Z.id. apply Log_Space_grid; auto. }
  rewrite MG in B5. apply curve_list_user in B5; [|exact FR|eapply configured_rested; exact M3|eapply configured_finite; eauto|apply mass_grid_positive; auto].
  destruct B5 as (lowest & LW & LI & RW). rewrite points_rows in RW. exists ID, p, h, i, lowest, summary, CL. split; [exact I|]. split; [split; [exists spin; exact M1|split; [exact M2|exists w'; exact M3]]|].
  cbv zeta. split; [exact LW|]. split; [exact LI|]. split; [apply confidence_near; exact B7|]. subst rows. rewrite exported_rows in B8. apply Ok_inj in B8. subst table.
  rewrite progress_rows in B6. 2: { match goal with |- (Z.of_nat (List.length (limit_points ?a ?b ?c ?d ?e ?f ?g ?h)) < _)%Z => pose proof (limit_points_length a b c d e f g h) as LL end. unfold mass_grid in LL at 2. rewrite map_length, seq_length in LL. lia. }
  apply Ok_inj in B6. split; [rewrite B6; reflexivity|]. intros OP. rewrite OP. unfold constraints_path. cbn [put_file fs_file]. rewrite String.eqb_refl. reflexivity.
Qed.
