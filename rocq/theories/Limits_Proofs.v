(** Upper limits, limit curves and likelihood scans: what they report and what they leave behind. *)
From Coq Require Import Reals ZArith String Lia Lra Bool.
From Coquelicot Require Import Coquelicot.
From Coq Require Import List.
From Verif Require Import Base XrFacts Analysis Quadrature Nucleus_Model Nuclear_Model Particle_Model CrossSection_Model Distribution_Model Atom_Model
  Crystal_Model Rates_Model Detector_Model DetectorTypes_Model Particle_Proofs Poisson_Proofs Scaling_Proofs Couplings_Proofs.
Import ListNotations.
Local Open Scope R_scope.

Ltac step H := match type of H with context [bind ?m _] =>
  let E := fresh "E" in destruct m eqn:E; cbn [bind] in H; try discriminate end.

(** * Specification vocabulary *)

(** Couplings that a limit or scan gives back: a fixed ratio that is respected, or free couplings that are not negative. *)
Definition tame (p : particle) : Prop :=
  respects_ratio p /\ (fixed p = false -> exists a b, couplings p a b /\ 0 <= a /\ 0 <= b).
Lemma settled_intro p : reachable p -> tame p -> settled p.
Proof. intros R [T1 T2]. destruct (reachable_good p R). split; auto. Qed.

(** A search routine that changes the state only by evaluating its function. *)
Definition only_evaluates (FR : root_finder) : Prop :=
  forall (S : Type) (f : S -> xr -> res (xr * S)) a b eps s r s' (inv : S -> Prop),
    inv s -> (forall s x y s1, inv s -> f s x = Ok (y, s1) -> inv s1) -> FR S f a b eps s = Ok (r, s') -> inv s'.

(** A search routine of the requested accuracy: for a function that is finite and continuous whatever was evaluated before, and changes
    sign, it returns a number within eps of a zero. *)
Definition accurate_search (FR : root_finder) : Prop :=
  forall (S : Type) (f : S -> xr -> res (xr * S)) (g : R -> R) (inv : S -> Prop) a b eps s, a < b -> 0 < eps -> inv s ->
    (forall s x, inv s -> a <= x <= b -> exists s1, f s (Fin x) = Ok (Fin (g x), s1) /\ inv s1) ->
    (forall x, a <= x <= b -> continuous g x) -> g a * g b <= 0 ->
    exists r r0 s', FR S f (Fin a) (Fin b) (Fin eps) s = Ok (Fin r, s') /\ a <= r0 <= b /\ g r0 = 0 /\ Rabs (r - r0) <= eps.

(** Both kinds of routine exist. *)
Definition reference_search : root_finder := fun S f a b eps s =>
  match Glb_Rbar (fun x => val a <= x <= val b /\ exists s1, f s (Fin x) = Ok (Fin 0, s1)) with
  | Finite r => let* (_, s1) := f s (Fin r) in Ok (Fin r, s1)
  | _ => Exit
  end.
Lemma reference_only_evaluates : only_evaluates reference_search.
Proof.
  intros S f a b eps s r s' inv H0 Hs H. unfold reference_search in H. destruct (Glb_Rbar _) as [z| |]; try discriminate.
  step H. destruct a0 as [y s1]. apply Ok_inj in H. injection H as _ <-. eapply Hs; eauto.
Qed.
Lemma reference_accurate : accurate_search reference_search.
Proof.
  intros S f g inv a b eps s Hab He Hi Hf Hc Hs. unfold reference_search; cbn [val].
  destruct (first_zero (fun x => a <= x <= b /\ exists s1, f s (Fin x) = Ok (Fin 0, s1)) g a b Hab Hc Hs) as [r [E [Hr Hz]]].
  - intros x; split; intros [H1 H2]; split; auto.
    + destruct H2 as [s1 H2]. destruct (Hf s x Hi H1) as (s2 & H3 & _). rewrite H2 in H3. injection H3; auto.
    + destruct (Hf s x Hi H1) as (s2 & H3 & _). exists s2. rewrite H3, H2. auto.
  - rewrite E. destruct (Hf s r Hi Hr) as (s1 & H1 & _). rewrite H1. cbn [bind]. exists r, r, s1. split; auto. split; auto. split; auto.
    rewrite Rminus_diag_eq, Rabs_R0 by auto. lra.
Qed.

(** A detector outside a limit calculation. *)
Definition rested (d : detector) : Prop :=
  b_using_fiducial d = false /\ b_fiducial_coupling d = Fin 0 /\ b_fiducial_signals d = Fin 0 /\ b_fiducial_spectrum d = [].
Definition idle (t : string) (d : detector) : Prop := b_targets d = t /\ rested d.

Lemma zero_zero : 0.0 = 0. Proof. lra. Qed.
Lemma idle_ctor label expo t : idle t (Detector_ctor label expo t).
Proof. unfold idle, rested, Detector_ctor. cbn. rewrite zero_zero. auto. Qed.
Lemma idle_eq t d d' : b_targets d' = b_targets d -> b_using_fiducial d' = b_using_fiducial d -> b_fiducial_coupling d' = b_fiducial_coupling d ->
  b_fiducial_signals d' = b_fiducial_signals d -> b_fiducial_spectrum d' = b_fiducial_spectrum d -> idle t d -> idle t d'.
Proof. unfold idle, rested. intros -> -> -> -> ->. auto. Qed.
Ltac idle_from H := eapply idle_eq; [..|exact H]; reflexivity.
Ltac idle := eapply idle_eq; [..|eassumption]; reflexivity.
Lemma initialize_idle t n d d' : idle t d -> Initialize_Binned_Poisson n d = Ok d' -> idle t d'.
Proof. intros I H. unfold Initialize_Binned_Poisson in H. destruct (b_analysis d); try discriminate; apply Ok_inj in H; subst; idle. Qed.
Lemma base_step_idle t d o d' : idle t d -> base_step d o = Ok d' -> idle t d'.
Proof.
  intros M H. destruct o; cbn [base_step] in H.
  - apply Ok_inj in H; subst. idle.
  - unfold Set_Observed_Events in H. destruct (b_analysis d); try discriminate; apply Ok_inj in H; subst; idle.
  - unfold Set_Expected_Background in H. destruct (b_analysis d); try discriminate; apply Ok_inj in H; subst; idle.
  - unfold Set_Observed_Events_Binned in H. destruct (b_analysis d); try discriminate. destruct (_ =? _)%Z; try discriminate. apply Ok_inj in H; subst; idle.
  - unfold Set_Bin_Efficiencies in H. destruct (b_analysis d); try discriminate. destruct (_ =? _)%Z; try discriminate. apply Ok_inj in H; subst; idle.
  - unfold Set_Expected_Background_Binned in H. destruct (b_analysis d); try discriminate. destruct (_ =? _)%Z; try discriminate. apply Ok_inj in H; subst; idle.
  - unfold Use_Maximum_Gap in H. destruct (_ && _)%bool; try discriminate. destruct (sort_doubles l); try discriminate. apply Ok_inj in H; subst. idle.
  - unfold Use_Energy_Threshold in H. destruct (xlt hi lo); try discriminate. apply Ok_inj in H; subst. idle.
  - unfold Use_Energy_Bins in H. step H. destruct (xlt hi lo); try discriminate. apply Ok_inj in H. subst d'.
    apply (initialize_idle t) in E; [|auto]. idle_from E.
Qed.
Lemma nuclear_step_idle t n o n' : idle t (n_base n) -> nuclear_step n o = Ok n' -> idle t (n_base n').
Proof.
  intros M H. destruct o as [o|r|rows dim|files dim]; cbn [nuclear_step] in H.
  - step H. apply Ok_inj in H; subst. cbn. eapply base_step_idle; eauto.
  - apply Ok_inj in H; subst; exact M.
  - apply Ok_inj in H; subst; exact M.
  - apply Ok_inj in H; subst. unfold Import_Efficiency_Files.
    assert (G : forall l n, n_base (fold_left (fun n rows => Import_Efficiency_File rows dim n) l n) = n_base n).
    { clear. induction l; intros n; cbn; [reflexivity|]. rewrite IHl; reflexivity. }
    rewrite G; exact M.
Qed.
Lemma nuclear_run_idle t ops : forall n n', idle t (n_base n) -> nuclear_run n ops = Ok n' -> idle t (n_base n').
Proof.
  induction ops as [|o ops IH]; intros n n' M H; cbn [nuclear_run] in H.
  - apply Ok_inj in H; subst; exact M.
  - step H. eapply IH; [|exact H]. eapply nuclear_step_idle; eauto.
Qed.
Lemma ionization_step_idle t s o s' : idle t (i_base s) -> ionization_step s o = Ok s' -> idle t (i_base s') /\ i_channel s' = i_channel s.
Proof.
  intros M H. destruct o as [o|lo hi|lo n|mu sigma lo hi|l|l|mu sigma l]; cbn [ionization_step] in H.
  - step H. apply Ok_inj in H; subst. split; [eapply base_step_idle; eauto|reflexivity].
  - unfold Use_Electron_Threshold in H. destruct (_ <? _)%Z; try discriminate. apply Ok_inj in H; subst. split; [idle|reflexivity].
  - unfold Use_Electron_Bins in H. step H. apply (initialize_idle t) in E; [|auto]. destruct (_ <? _)%Z; try discriminate. apply Ok_inj in H. subst s'. split; [idle_from E|reflexivity].
  - unfold Use_PE_Threshold in H. cbv zeta in H. repeat match type of H with context [if ?b then _ else _] => destruct b; try discriminate end; apply Ok_inj in H; subst; split; try idle; reflexivity.
  - unfold Import_Trigger_Efficiency_PE in H. repeat match type of H with context [if ?b then _ else _] => destruct b; try discriminate end; apply Ok_inj in H; subst; split; try idle; reflexivity.
  - unfold Import_Acceptance_Efficiency_PE in H. repeat match type of H with context [if ?b then _ else _] => destruct b; try discriminate end; apply Ok_inj in H; subst; split; try idle; reflexivity.
  - unfold Use_PE_Bins in H. step H. apply (initialize_idle t) in E; [|auto]. repeat match type of H with context [if ?b then _ else _] => destruct b; try discriminate end; apply Ok_inj in H; subst s'; split; try (idle_from E); reflexivity.
Qed.
Lemma ionization_run_idle t ops : forall n n', idle t (i_base n) -> ionization_run n ops = Ok n' -> idle t (i_base n') /\ i_channel n' = i_channel n.
Proof.
  induction ops as [|o ops IH]; intros n n' M H; cbn [ionization_run] in H.
  - apply Ok_inj in H; subst; auto.
  - step H. destruct (ionization_step_idle t _ _ _ M E) as [M1 <-]. apply (IH a); auto.
Qed.
Lemma semiconductor_step_idle t n o n' : idle t (c_base n) -> semiconductor_step n o = Ok n' -> idle t (c_base n').
Proof.
  intros M H. destruct o as [o|Q|Q k]; cbn [semiconductor_step] in H.
  - step H. apply Ok_inj in H; subst. cbn. eapply base_step_idle; eauto.
  - apply Ok_inj in H; subst. idle.
  - unfold Use_Q_Bins in H. cbv zeta in H. step H. apply (initialize_idle t) in E; [|auto]. apply Ok_inj in H; subst. idle_from E.
Qed.
Lemma semiconductor_run_idle t ops : forall n n', idle t (c_base n) -> semiconductor_run n ops = Ok n' -> idle t (c_base n').
Proof.
  induction ops as [|o ops IH]; intros n n' M H; cbn [semiconductor_run] in H.
  - apply Ok_inj in H; subst; exact M.
  - step H. eapply IH; [|exact H]. eapply semiconductor_step_idle; eauto.
Qed.

(** * C47: the particle and the detector after a limit *)
Lemma fiducial_reset d f c n l : with_fiducial false (Fin 0.0) (Fin 0.0) [] (with_fiducial f c n l d) = with_fiducial false (Fin 0.0) (Fin 0.0) [] d.
Proof. reflexivity. Qed.
Lemma set_fiducial_frame V x d p d1 : set_fiducial V x d p = Ok d1 ->
  b_targets d1 = b_targets d /\ b_analysis d1 = b_analysis d /\
  with_fiducial false (Fin 0.0) (Fin 0.0) [] d1 = with_fiducial false (Fin 0.0) (Fin 0.0) [] d /\ (b_analysis d = Maximum_Gap -> d1 = d).
Proof.
  unfold set_fiducial. destruct (b_analysis d) eqn:A; intros H.
  - step H. apply Ok_inj in H. subst d1. cbn. rewrite A. split; auto. split; auto. split; [reflexivity|discriminate].
  - step H. apply Ok_inj in H. subst d1. cbn. rewrite A. split; auto. split; auto. split; [reflexivity|discriminate].
  - apply Ok_inj in H. subst. auto.
Qed.
Lemma rest d : rested d -> with_fiducial false (Fin 0.0) (Fin 0.0) [] d = d.
Proof. intros (A & B & C & D). rewrite zero_zero. destruct d. cbn in *. subst. reflexivity. Qed.

Lemma limit_func_state X V d cert p x y q : limit_func X V d cert p x = Ok (y, q) -> Set_Interaction_Parameter (xpow10 x) (b_targets d) p = Ok q.
Proof. unfold limit_func. intros H. step H. step H. apply Ok_inj in H. injection H as _ <-. auto. Qed.

Lemma Upper_Limit_frame FR X V d p cert u d' p' : only_evaluates FR -> rested d -> Upper_Limit FR X V d p cert = Ok (u, d', p') ->
  d' = d /\ exists x, Get_Interaction_Parameter (b_targets d) p = Ok x /\ Set_Interaction_Parameter x (b_targets d) p = Ok p'.
Proof.
  intros FRok Rd H. unfold Upper_Limit in H. step H. rename a into orig. step H. rename a into d1.
  destruct (set_fiducial_frame _ _ _ _ _ E0) as (T & A & W & G).
  step H. destruct a as [f1 p1]. step H. destruct a as [f2 p2].
  set (inv := fun q => forall x, Set_Interaction_Parameter x (b_targets d) q = Set_Interaction_Parameter x (b_targets d) p).
  assert (IS : forall q x y q1, inv q -> limit_func X V d1 cert q x = Ok (y, q1) -> inv q1).
  { intros q x y q1 I L z. apply limit_func_state in L. rewrite T in L. rewrite (set_twice z _ _ _ _ L). apply I. }
  assert (I2 : inv p2). { eapply IS; [|exact E2]. eapply IS; [|exact E1]. intros x. auto. }
  step H. destruct a as [root p3].
  assert (I3 : inv p3).
  { destruct (xlt _ _); [apply Ok_inj in E3; injection E3 as _ <-; auto|]. step E3. destruct a as [r q]. apply Ok_inj in E3. injection E3 as _ <-.
    eapply FRok; [exact I2| |exact E4]. intros s x y s1 I L. eapply IS; eauto. }
  step H. rewrite T in E4. apply Ok_inj in H. assert (HD : d' = match b_analysis d1 with Maximum_Gap => d1 | _ => with_fiducial false (Fin 0.0) (Fin 0.0) [] d1 end /\ p' = a) by (injection H; auto).
  destruct HD as [HD ->]. split.
  - rewrite HD, A. destruct (b_analysis d) eqn:B; [rewrite W; apply rest; auto|rewrite W; apply rest; auto|apply G; auto].
  - exists orig. split; auto. rewrite <- E4. symmetry. apply I3.
Qed.

Lemma limit_restores FR X V d p cert u d' p' : only_evaluates FR -> rested d -> settled p -> Upper_Limit FR X V d p cert = Ok (u, d', p') ->
  d' = d /\ same_physics p p' /\ drift p p'.
Proof.
  intros F Rd S H. destruct (Upper_Limit_frame FR X V d p cert u d' p' F Rd H) as (-> & x & Gt & St). split; auto.
  destruct (restore p _ x p' S Gt St) as (k & K & K1 & C). assert (G : good p) by apply S. split; [eapply coupled_physics; eauto|]. eapply drift_coupled; eauto.
Qed.

Definition positive_masses (l : list xr) : Prop := Forall (fun m => exists r, m = Fin r /\ 0 < r) l.

(** Particles after [Set_Mass] back to the first mass. *)
Lemma back_to_mass p m : settled p -> mass p = Fin m -> same_physics p (Set_Mass (Fin m) p) /\ exists k, (k = 1 \/ k = -1) /\ (fixed p = false -> k = 1) /\ coupled k p (Set_Mass (Fin m) p).
Proof.
  intros S M. assert (G : good p) by apply S. assert (M0 : 0 < m). { destruct G as [(r & Hr & R0) _]. rewrite M in Hr. apply Fin_inj in Hr. subst. auto. }
  assert (K : exists k, (k = 1 \/ k = -1) /\ (fixed p = false -> k = 1) /\ coupled k p (Set_Mass (Fin m) p)).
  { destruct (drift_mass p m S M0) as (L & E & m0 & m1 & a & b & k & Hm & M0' & Hm1 & M1 & C & C' & K & F).
    destruct (set_mass_like (Fin m) p) as (_ & _ & Hm2). rewrite M in Hm. apply Fin_inj in Hm. subst m0. rewrite Hm2 in Hm1. apply Fin_inj in Hm1. subst m1.
    assert (h := mu_pos m M0). unfold Rdiv in K. rewrite Rinv_r in K by lra.
    assert (k = 1 \/ k = -1) by (unfold Rabs in K; destruct (Rcase_abs k); lra).
    exists k. split; auto. split; [intros U; specialize (F U); lra|]. split; auto. split; [congruence|]. split; auto. exists a, b. auto. }
  split; auto. destruct K as (k & K & F & C). eapply coupled_physics; eauto.
Qed.

Lemma drift_refl p : settled p -> drift p p.
Proof.
  intros S. destruct (settled_couplings p S) as (a & b & C). destruct S as (G & _). apply (drift_coupled 1 p p); auto.
  split; [unfold like; tauto|]. split; auto. split; auto. exists a, b. split; auto. replace (1 * a) with a by ring. replace (1 * b) with b by ring. auto.
Qed.

(** The points of the curve: masses above the lowest one, each with the limit of the particle brought to that mass. *)
Fixpoint curve_points (limit : xr -> res xr) (lowest : xr) (masses : list xr) : res (list (list xr)) :=
  match masses with
  | [] => Ok []
  | m :: t => if xlt m lowest then curve_points limit lowest t
              else let* u := limit m in let* rest := curve_points limit lowest t in Ok (if xlt (Fin 0) u then [m; u] :: rest else rest)
  end.

(** Two particles that no mass change tells apart. *)
Definition same_at_masses (p q : particle) : Prop := forall m, 0 < m -> Set_Mass (Fin m) q = Set_Mass (Fin m) p.

Lemma curve_loop FR X V cert lowest d p : only_evaluates FR -> rested d -> sound p -> share_ok p -> forall masses q l d' q', positive_masses masses -> same_at_masses p q ->
  limit_curve_loop FR X V cert lowest d q masses = Ok (l, d', q') ->
  d' = d /\ same_at_masses p q' /\
  curve_points (fun m => let* r := Upper_Limit FR X V d (Set_Mass m p) cert in Ok (fst (fst r))) lowest masses = Ok l.
Proof.
  intros F Rd S Sh. induction masses as [|m t IH]; intros q l d' q' M D H; cbn [limit_curve_loop curve_points] in *.
  - apply Ok_inj in H. injection H as <- <- <-. auto.
  - inversion M as [|? ? [r [Hr R0]] M']; subst. destruct (xlt (Fin r) lowest); [apply (IH q); auto|].
    rewrite D in H by auto. step H. destruct a as [[u d1] p2]. cbn [fst bind].
    assert (S1 : settled (Set_Mass (Fin r) p)) by (apply set_mass_settled; auto).
    destruct (limit_restores FR X V d _ cert _ _ _ F Rd S1 E) as (-> & _ & D1).
    step H. destruct a as [[rest0 d2] p3]. apply Ok_inj in H. injection H as <- <- <-.
    destruct (IH p2 rest0 d2 p3) as (-> & D2 & C); auto. { intros m Hm. rewrite (set_mass_drift (Set_Mass (Fin r) p)) by auto. apply set_mass_last; auto. }
    split; auto. split; auto. rewrite C. cbn [bind]. rewrite zero_zero. auto.
Qed.

Lemma curve FR X V cert d p masses l d' p' : only_evaluates FR -> rested d -> sound p -> share_ok p -> positive_masses masses ->
  Upper_Limit_Curve FR X V d p masses cert = Ok (l, d', p') ->
  d' = d /\ p' = Set_Mass (mass p) p /\
  exists lowest, v_minimum_mass V d p = Ok lowest /\
  curve_points (fun m => let* r := Upper_Limit FR X V d (Set_Mass m p) cert in Ok (fst (fst r))) lowest masses = Ok l.
Proof.
  intros F Rd S Sh M H. unfold Upper_Limit_Curve in H. cbv zeta in H. step H. step H. destruct a0 as [[l0 d1] p1]. apply Ok_inj in H. injection H as <- <- <-.
  destruct (curve_loop FR X V cert a d p F Rd S Sh masses p l0 d1 p1) as (-> & D & C); auto. { intros m _. auto. }
  split; auto. pose proof S as ([(m & Hm & M0) _] & _). split; [|exists a; auto]. rewrite Hm. apply D; auto.
Qed.

Lemma settled_sound p : settled p -> sound p /\ share_ok p.
Proof. intros S. destruct (settled_couplings p S) as (a & b & C). destruct S as (G & Sh & R & _). split; auto. split; auto. split; auto. exists a, b. auto. Qed.

Lemma curve_restores FR X V cert d p masses l d' p' : only_evaluates FR -> rested d -> settled p -> positive_masses masses ->
  Upper_Limit_Curve FR X V d p masses cert = Ok (l, d', p') -> d' = d /\ same_physics p p'.
Proof.
  intros F Rd S M H. destruct (settled_sound p S) as [S1 S2]. destruct (curve FR X V cert d p masses l d' p' F Rd S1 S2 M H) as (-> & -> & _).
  split; auto. pose proof S as ([(m & Hm & M0) _] & _). rewrite Hm. apply back_to_mass; auto.
Qed.

(** The points as a list comprehension. *)
Definition limit_at (FR : root_finder) (X : statistics) (V : virtuals) (d : detector) (p : particle) (cert m : xr) : option xr :=
  match Upper_Limit FR X V d (Set_Mass m p) cert with Ok (u, _, _) => Some u | _ => None end.
Lemma curve_list FR X V cert d p masses l d' p' : only_evaluates FR -> rested d -> sound p -> share_ok p -> positive_masses masses ->
  Upper_Limit_Curve FR X V d p masses cert = Ok (l, d', p') ->
  exists lowest, v_minimum_mass V d p = Ok lowest /\
    (forall m, In m masses -> xlt m lowest = false -> exists u, limit_at FR X V d p cert m = Some u) /\
    l = flat_map (fun m => match limit_at FR X V d p cert m with Some u => if xlt (Fin 0) u then [[m; u]] else [] | None => [] end)
          (filter (fun m => negb (xlt m lowest)) masses).
Proof.
  intros F Rd S Sh M H. destruct (curve FR X V cert d p masses l d' p' F Rd S Sh M H) as (_ & _ & lowest & Lm & C). exists lowest. split; auto.
  clear - C. revert l C. induction masses as [|m t IH]; intros l C; cbn [curve_points] in C; cbn [filter flat_map].
  - apply Ok_inj in C. split; auto. intros m [].
  - destruct (xlt m lowest) eqn:E; cbn [negb].
    + destruct (IH l C) as [A B]. split; auto. intros m0 [-> | H] H1; [congruence|auto].
    + step C. destruct (Upper_Limit FR X V d (Set_Mass m p) cert) as [[[u d1] q]| | |] eqn:U; try discriminate. cbn [bind fst] in E0. apply Ok_inj in E0. subst a.
      step C. apply Ok_inj in C. destruct (IH a eq_refl) as [A B]. split.
      * intros m0 [-> | H] H1; [exists u; unfold limit_at; rewrite U; auto|apply A; auto].
      * cbn [flat_map]. replace (limit_at FR X V d p cert m) with (Some u) by (unfold limit_at; rewrite U; auto). rewrite <- B, <- C. destruct (xlt (Fin 0) u); auto.
Qed.

(** * C50: the scan *)

(** Particles met during a scan look, once mass and parameter are set, like the first one. *)
Definition forgets (t : string) (p q : particle) : Prop :=
  forall m x, 0 < m -> Set_Interaction_Parameter x t (Set_Mass (Fin m) q) = Set_Interaction_Parameter x t (Set_Mass (Fin m) p).
Lemma forgets_refl t p : forgets t p p. Proof. intros m x _; auto. Qed.

Lemma scan_row X V d m p : forall couplings q l q1,
  (forall x, Set_Interaction_Parameter x (b_targets d) q = Set_Interaction_Parameter x (b_targets d) (Set_Mass (Fin m) p)) ->
  (q = Set_Mass (Fin m) p \/ exists x, Set_Interaction_Parameter x (b_targets d) (Set_Mass (Fin m) p) = Ok q) ->
  scan_couplings X V d (Fin m) q couplings = Ok (l, q1) ->
  (q1 = Set_Mass (Fin m) p \/ exists x, Set_Interaction_Parameter x (b_targets d) (Set_Mass (Fin m) p) = Ok q1) /\
  map_res (fun c => let* r := Set_Interaction_Parameter c (b_targets d) (Set_Mass (Fin m) p) in let* l := Log_Likelihood X V d r in Ok [Fin m; c; l]) couplings = Ok l.
Proof.
  induction couplings as [|c t IH]; intros q l q1 Q J H; cbn [scan_couplings map_res] in *.
  - apply Ok_inj in H. injection H as <- <-. auto.
  - step H. rewrite Q in E. step H. step H. destruct a1 as [rest0 p2]. apply Ok_inj in H. injection H as <- <-.
    destruct (IH a rest0 p2) as [J2 C]; eauto.
    { intros x. apply (set_twice x c). auto. }
    split; auto. rewrite E. cbn [bind]. rewrite E0. cbn [bind]. rewrite C. auto.
Qed.

Lemma scan_rows X V d p couplings : sound p -> share_ok p -> forall masses q rows q', positive_masses masses -> forgets (b_targets d) p q ->
  (couplings = [] -> same_at_masses p q) ->
  scan_masses X V d couplings q masses = Ok (rows, q') ->
  forgets (b_targets d) p q' /\ (couplings = [] -> same_at_masses p q') /\
  exists parts, rows = concat parts /\
  map_res (fun m => map_res (fun c => let* r := Set_Interaction_Parameter c (b_targets d) (Set_Mass m p) in let* l := Log_Likelihood X V d r in Ok [m; c; l]) couplings) masses = Ok parts.
Proof.
  intros S Sh. induction masses as [|m t IH]; intros q rows q' M F D H; cbn [scan_masses map_res] in *.
  - apply Ok_inj in H. injection H as <- <-. split; auto. split; auto. exists []. auto.
  - inversion M as [|? ? [r [Hr R0]] M']; subst. step H. destruct a as [row p1]. step H. destruct a as [rest0 p2]. apply Ok_inj in H. injection H as <- <-.
    assert (K : forgets (b_targets d) p p1 /\ (couplings = [] -> same_at_masses p p1) /\
      map_res (fun c => let* r0 := Set_Interaction_Parameter c (b_targets d) (Set_Mass (Fin r) p) in let* l := Log_Likelihood X V d r0 in Ok [Fin r; c; l]) couplings = Ok row).
    { destruct couplings as [|c cs].
      - cbn [scan_couplings map_res] in *. apply Ok_inj in E. injection E as <- <-. rewrite (D eq_refl) by auto.
        split; [|split; auto; intros _ m Hm; apply set_mass_last; auto]. intros m x Hm. rewrite set_mass_last; auto.
      - cbn [scan_couplings] in E. step E. rewrite F in E1 by auto. step E. step E. destruct a1 as [rest1 p3]. apply Ok_inj in E. injection E as <- <-.
        destruct (scan_row X V d r p cs a rest1 p3) as [J C]; eauto.
        { intros x. apply (set_twice x c). auto. }
        split; [|split; [discriminate|]].
        + intros m x Hm. assert (S1 : settled (Set_Mass (Fin r) p)) by (apply set_mass_settled; auto).
          destruct J as [-> | [y J]]; [rewrite set_mass_last; auto|]. rewrite (set_mass_set x y _ (Fin m) _ _ (proj1 (proj2 S1)) J). rewrite set_mass_last; auto.
        + cbn [map_res]. rewrite E1. cbn [bind]. rewrite E2. cbn [bind]. rewrite C. auto. }
    destruct K as (F1 & D1 & C). destruct (IH p1 rest0 p2) as (F2 & D2 & parts & -> & P); auto. split; auto. split; auto.
    exists (row :: parts). split; auto. rewrite C. cbn [bind]. rewrite P. auto.
Qed.

Definition scan_entry (X : statistics) (V : virtuals) (d : detector) (p : particle) (m c : xr) : res (list xr) :=
  let* r := Set_Interaction_Parameter c (b_targets d) (Set_Mass m p) in let* l := Log_Likelihood X V d r in Ok [m; c; l].
Lemma scan_grid X V d p masses couplings rows p' : sound p -> share_ok p -> positive_masses masses ->
  Log_Likelihood_Scan X V d p masses couplings = Ok (rows, p') ->
  (exists parts, rows = concat parts /\ map_res (fun m => map_res (scan_entry X V d p m) couplings) masses = Ok parts) /\
  exists orig, Get_Interaction_Parameter (b_targets d) p = Ok orig /\ Set_Interaction_Parameter orig (b_targets d) (Set_Mass (mass p) p) = Ok p'.
Proof.
  intros S Sh M H. unfold Log_Likelihood_Scan in H. cbv zeta in H. step H. rename a into orig. step H. destruct a as [rows0 p1]. step H. apply Ok_inj in H. injection H as <- <-.
  destruct (scan_rows X V d p couplings S Sh masses p rows0 p1 M) as (F & _ & P); auto. { apply forgets_refl. } { intros _ m _. auto. }
  split; auto. pose proof S as ([(m & Hm & M0) _] & _). rewrite Hm in E1. rewrite F in E1 by auto. exists orig. rewrite Hm. auto.
Qed.

Lemma scan_restores X V d p masses couplings rows p' : settled p -> positive_masses masses ->
  Log_Likelihood_Scan X V d p masses couplings = Ok (rows, p') -> same_physics p p'.
Proof.
  intros S M H. destruct (settled_sound p S) as [S0 S2]. destruct (scan_grid X V d p masses couplings rows p' S0 S2 M H) as (_ & orig & E & E1).
  pose proof S as ([(m & Hm & M0) _] & _). rewrite Hm in E1.
  destruct (back_to_mass p m S Hm) as [_ (k & K & KF & C)]. assert (G : good p) by apply S.
  assert (D1 : drift p (Set_Mass (Fin m) p)) by (eapply drift_coupled; eauto).
  assert (S1 : settled (Set_Mass (Fin m) p)) by (eapply settled_drift; eauto).
  assert (P1 := coupled_physics k p _ G K C). destruct P1 as (_ & _ & _ & _ & _ & GI & _). rewrite <- GI in E.
  destruct (restore _ _ orig p' S1 E E1) as (k2 & K2 & KF2 & C2).
  apply (coupled_physics (k2 * k)); auto. { destruct K, K2; subst; lra. }
  destruct C as (L & M1 & E2 & a1 & b1 & Ca & Cb), C2 as (L' & M1' & E2' & a2 & b2 & [Ca1 Ca2] & Cb'). destruct Cb as [Cb1 Cb2].
  rewrite Ca1 in Cb1. rewrite Ca2 in Cb2. apply Fin_inj in Cb1, Cb2. subst a2 b2.
  split; [eapply like_trans; eauto|]. split; [congruence|]. split; [congruence|]. exists a1, b1. split; auto. rewrite !Rmult_assoc. auto.
Qed.

(** The rows by position. *)
Lemma map_res_nth {A B : Type} (f : A -> res B) l l' : map_res f l = Ok l' -> List.length l' = List.length l /\
  forall i a, nth_error l i = Some a -> exists b, nth_error l' i = Some b /\ f a = Ok b.
Proof.
  revert l'. induction l as [|x l IH]; intros l' H; cbn [map_res] in H.
  - apply Ok_inj in H. subst. split; auto. intros [|i] a K; discriminate.
  - step H. step H. apply Ok_inj in H. subst l'. destruct (IH a0 eq_refl) as [A1 A2]. split; [cbn; auto|]. intros [|i] y K; cbn [nth_error] in *.
    + injection K as ->. eauto.
    + apply A2; auto.
Qed.
Lemma concat_nth {A : Type} (k : nat) (l : list (list A)) : Forall (fun r => List.length r = k) l ->
  List.length (concat l) = (List.length l * k)%nat /\ forall i j r a, nth_error l i = Some r -> nth_error r j = Some a -> nth_error (concat l) (i * k + j) = Some a.
Proof.
  induction 1 as [|r l H F [IH1 IH2]]; [split; auto; intros [|i] j r a K; discriminate|]. cbn [concat List.length]. rewrite app_length, H, IH1. split; [reflexivity|].
  intros [|i] j r0 a K L; cbn [nth_error] in K.
  - injection K as ->. cbn. rewrite nth_error_app1; auto. apply nth_error_Some. congruence.
  - rewrite nth_error_app2 by (rewrite H; lia). rewrite H. replace (S i * k + j - k)%nat with (i * k + j)%nat by lia. eapply IH2; eauto.
Qed.
Lemma scan_positions X V d p masses couplings rows p' : sound p -> share_ok p -> positive_masses masses ->
  Log_Likelihood_Scan X V d p masses couplings = Ok (rows, p') ->
  List.length rows = (List.length masses * List.length couplings)%nat /\
  forall i j m c, nth_error masses i = Some m -> nth_error couplings j = Some c ->
    exists q l, Set_Interaction_Parameter c (b_targets d) (Set_Mass m p) = Ok q /\ Log_Likelihood X V d q = Ok l /\
      nth_error rows (i * List.length couplings + j) = Some [m; c; l].
Proof.
  intros S Sh M H. destruct (scan_grid X V d p masses couplings rows p' S Sh M H) as [(parts & -> & P) _].
  destruct (map_res_nth _ _ _ P) as [P1 P2].
  assert (FL : Forall (fun r => List.length r = List.length couplings) parts).
  { apply Forall_forall. intros r Hr. apply In_nth_error in Hr as [i Hi]. assert (L : (i < List.length masses)%nat) by (rewrite <- P1; apply nth_error_Some; congruence).
    destruct (nth_error masses i) as [m|] eqn:E; [|apply nth_error_None in E; lia]. destruct (P2 i m E) as (r' & R1 & R2). rewrite Hi in R1. injection R1 as <-.
    apply map_res_nth in R2. apply R2. }
  destruct (concat_nth _ _ FL) as [C1 C2]. rewrite C1, P1. split; auto. intros i j m c Hi Hj.
  destruct (P2 i m Hi) as (r & R1 & R2). apply map_res_nth in R2. destruct R2 as [_ R2]. destruct (R2 j c Hj) as (row & R3 & R4).
  unfold scan_entry in R4. step R4. step R4. apply Ok_inj in R4. subst row. exists a, a0. split; auto. split; auto. eapply C2; eauto.
Qed.
