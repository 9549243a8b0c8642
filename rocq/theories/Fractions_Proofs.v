(** Mass fractions of nuclear and atomic targets (C53). *)
From Coq Require Import Reals ZArith String Lia Lra Bool.
From Coquelicot Require Import Coquelicot.
From Coq Require Import List.
From Verif Require Import Base XrFacts Nucleus_Model Nuclear_Model Particle_Model CrossSection_Model Distribution_Model Atom_Model Crystal_Model Rates_Model
  Detector_Model DetectorTypes_Model.
Import ListNotations.
Local Open Scope R_scope.

(** * Specification: the weight of each target is its amount times its mass *)
Definition weights (amounts masses : list R) : list R := map (fun p => fst p * snd p) (combine amounts masses).
Definition nuclei_masses (nuclei : list Nucleus) (masses : list R) : Prop := Forall2 (fun n M => Average_Nuclear_Mass n = Fin M /\ 0 < M) nuclei masses.
(** The mass fractions: shares of the total weight that add up to 1, positive where there is something. *)
Definition shares (ws fs : list R) : Prop :=
  List.length fs = List.length ws /\ Rsum fs = 1 /\
  forall i w f, nth_error ws i = Some w -> nth_error fs i = Some f -> f * Rsum ws = w /\ 0 <= f /\ (0 < w -> 0 < f).

Lemma Rsum_map_div l s : Rsum (map (fun w => w / s) l) = Rsum l / s.
Proof. induction l as [|a l IH]; unfold Rsum in *; cbn [map fold_right]; [unfold Rdiv; ring|]. rewrite IH. unfold Rdiv; ring. Qed.
Lemma Rsum_nonneg l : Forall (fun w => 0 <= w) l -> 0 <= Rsum l.
Proof. induction 1; unfold Rsum in *; cbn [fold_right]; lra. Qed.
Lemma Rsum_pos l : Forall (fun w => 0 <= w) l -> (exists w, In w l /\ 0 < w) -> 0 < Rsum l.
Proof.
  induction 1 as [|a l H F IH]; intros (w & I & W); unfold Rsum in *; cbn [fold_right]; [destruct I|destruct I as [<- | I]].
  - apply Rsum_nonneg in F. unfold Rsum in F. lra.
  - assert (0 < fold_right Rplus 0 l) by (apply IH; eauto). lra.
Qed.
Lemma shares_divide ws : Forall (fun w => 0 <= w) ws -> (exists w, In w ws /\ 0 < w) ->
  map (fun m => xdiv m (xsum (map Fin ws))) (map Fin ws) = map Fin (map (fun w => w / Rsum ws) ws) /\ shares ws (map (fun w => w / Rsum ws) ws).
Proof.
  intros N P. assert (S := Rsum_pos ws N P). split.
  - rewrite !map_map, xsum_fin. apply map_ext. intros w. apply xdiv_fin. lra.
  - split; [apply map_length|]. split; [rewrite Rsum_map_div; field; lra|]. intros i w f Hw Hf. rewrite nth_error_map, Hw in Hf. injection Hf as <-.
    assert (0 <= w). { rewrite Forall_forall in N. apply N. eapply nth_error_In; eauto. } split; [field; lra|].
    assert (I : 0 < / Rsum ws) by (apply Rinv_0_lt_compat; auto). unfold Rdiv. split; [apply Rmult_le_pos; lra|]. intros W. apply Rmult_lt_0_compat; auto.
Qed.

Lemma map_res_zip {A B C : Type} (g : A -> B -> res C) : forall (l : list A) (m : list B), List.length l = List.length m ->
  map_res (fun i => let* a := at_ub l i in let* b := at_ub m i in g a b) (seq 0 (List.length l)) = map_res (fun p => g (fst p) (snd p)) (combine l m).
Proof.
  assert (SH : forall {A B : Type} (f : nat -> res B) (k : A -> nat) (s : list A), map_res f (map k s) = map_res (fun i => f (k i)) s).
  { intros A0 B0 f k s. induction s as [|a s IH]; cbn [map map_res]; auto. rewrite IH. auto. }
  induction l as [|a l IH]; intros [|b m] H; try discriminate; [reflexivity|]. cbn [List.length seq combine map_res fst snd].
  change (at_ub (a :: l) 0) with (Ok a). change (at_ub (b :: m) 0) with (Ok b). cbn [bind]. rewrite <- seq_shift, SH. injection H as H. rewrite <- IH by auto. reflexivity.
Qed.
Lemma map_res_pure {A B : Type} (g : A -> B) l : map_res (fun a => Ok (g a)) l = Ok (map g l).
Proof. induction l as [|a l IH]; cbn [map_res map]; auto. rewrite IH. reflexivity. Qed.

Lemma weights_nonneg amounts masses : List.length amounts = List.length masses -> Forall (fun a => 0 <= a) amounts -> Forall (fun m => 0 < m) masses -> 
  Forall (fun w => 0 <= w) (weights amounts masses) /\ ((exists a, In a amounts /\ 0 < a) -> exists w, In w (weights amounts masses) /\ 0 < w).
Proof.
  revert masses. induction amounts as [|a l IH]; intros [|m ms] H A M; try discriminate; unfold weights in *; cbn [combine map fst snd].
  - split; [constructor|]. intros (b & [] & _).
  - inversion A; inversion M; subst. destruct (IH ms) as [I1 I2]; auto. split; [constructor; auto; apply Rmult_le_pos; lra|].
    intros (b & [<- | B] & P); [exists (a * m); split; [left; auto|apply Rmult_lt_0_compat; auto]|]. destruct I2 as (w & W & W0); eauto. exists w. split; [right; auto|auto].
Qed.
Lemma masses_positive nuclei masses : nuclei_masses nuclei masses -> List.length nuclei = List.length masses /\ Forall (fun m => 0 < m) masses /\ map Average_Nuclear_Mass nuclei = map Fin masses.
Proof.
  induction 1 as [|n m l ms [E P] F (I1 & I2 & I3)]; [auto|]. cbn [List.length map]. rewrite I1, I3, E. auto.
Qed.

(** Nuclear detectors: amounts that add up to more than 1. *)
Lemma nuclear_fractions nuclei masses amounts : nuclei_masses nuclei masses -> List.length amounts = List.length nuclei -> Forall (fun a => 0 <= a) amounts -> 1 < Rsum amounts ->
  exists fs, relative_fractions nuclei (map Fin amounts) = Ok (map Fin fs) /\ shares (weights amounts masses) fs.
Proof.
  intros N L A T. destruct (masses_positive _ _ N) as (LM & PM & EM). unfold relative_fractions.
  destruct amounts as [|a0 amounts]; [unfold Rsum in T; cbn in T; lra|]. cbn [map]. change (Fin a0 :: map Fin amounts) with (map Fin (a0 :: amounts)). set (am := a0 :: amounts) in *. clearbody am. clear a0 amounts.
  rewrite xsum_fin, xlt_true by lra. rewrite (map_res_zip (fun n p => Ok (xmul p (Average_Nuclear_Mass n)))) by (rewrite map_length; auto). rewrite map_res_pure. cbn [bind].
  assert (W : map (fun p : Nucleus * xr => xmul (snd p) (Average_Nuclear_Mass (fst p))) (combine nuclei (map Fin am)) = map Fin (weights am masses)).
  { clear T A. revert am L masses LM PM EM N. induction nuclei as [|n l IH]; intros [|a am] L [|m ms] LM PM EM N; try discriminate; [reflexivity|]. cbn [map combine fst snd]. unfold weights. cbn [map combine fst snd].
    inversion N as [|? ? ? ? [E _] N']; subst. rewrite E, xmul_fin. f_equal. inversion PM; subst. cbn [List.length map] in *. injection L as L. injection LM as LM. injection EM as _ EM. apply IH; auto. }
  rewrite W. destruct (weights_nonneg am masses) as [W1 W2]; auto; [congruence|].
  assert (P : exists a, In a am /\ 0 < a). { apply Classical_Prop.NNPP. intros H. assert (Rsum am <= 0); [|lra]. clear - H. induction am as [|a l IH]; unfold Rsum in *; cbn [fold_right]; [lra|].
    assert (a <= 0) by (apply Rnot_lt_le; intros K; apply H; exists a; split; [left; auto|auto]). assert (fold_right Rplus 0 l <= 0) by (apply IH; intros (b & B & B0); apply H; exists b; split; [right; auto|auto]). lra. }
  destruct (shares_divide (weights am masses) W1 (W2 P)) as [E S]. rewrite E. eexists. split; [reflexivity|exact S].
Qed.
(** Without amounts every nucleus counts once. *)
Lemma nuclear_fractions_default nuclei masses : nuclei_masses nuclei masses -> nuclei <> [] ->
  exists fs, relative_fractions nuclei [] = Ok (map Fin fs) /\ shares (weights (repeat 1 (List.length nuclei)) masses) fs.
Proof.
  intros N NE. destruct (masses_positive _ _ N) as (LM & PM & EM). unfold relative_fractions.
  assert (W : map (fun n => xmul (Fin 1.0) (Average_Nuclear_Mass n)) nuclei = map Fin (weights (repeat 1 (List.length nuclei)) masses)).
  { clear NE. revert masses LM PM EM N. induction nuclei as [|n l IH]; intros [|m ms] LM PM EM N; try discriminate; [reflexivity|]. cbn [map combine fst snd List.length repeat]. unfold weights. cbn [map combine fst snd].
    inversion N as [|? ? ? ? [E _] N']; subst. rewrite E, xmul_fin. f_equal; [f_equal; lra|]. inversion PM; subst. cbn [List.length map] in *. injection LM as LM. injection EM as _ EM. apply IH; auto. }
  cbv zeta. rewrite W. destruct (weights_nonneg (repeat 1 (List.length nuclei)) masses) as [W1 W2]; auto.
  { rewrite repeat_length. auto. } { apply Forall_forall. intros x Hx. apply repeat_spec in Hx. lra. }
  assert (P : exists a, In a (repeat 1 (List.length nuclei)) /\ 0 < a) by (destruct nuclei; [congruence|exists 1; split; [left; auto|lra]]).
  destruct (shares_divide _ W1 (W2 P)) as [E S]. rewrite E. eexists. split; [reflexivity|exact S].
Qed.
(** Amounts that add up to at most 1 are taken for mass fractions and left as they are. *)
Lemma nuclear_fractions_small nuclei amounts : amounts <> [] -> Rsum amounts <= 1 -> relative_fractions nuclei (map Fin amounts) = Ok (map Fin amounts).
Proof.
  intros N H. unfold relative_fractions. destruct amounts as [|a l]; [congruence|]. cbn [map]. change (Fin a :: map Fin l) with (map Fin (a :: l)). rewrite xsum_fin, xlt_false by lra. reflexivity.
Qed.

(** Ionization detectors take mass fractions. *)
Lemma ionization_fractions_default n : (0 < n)%nat -> exists fs, ionization_fractions n [] = Ok (map Fin fs) /\ shares (repeat 1 n) fs.
Proof.
  intros N. assert (I : 0 < INR n) by (apply lt_0_INR; auto). cbn [ionization_fractions]. rewrite xdiv_fin by lra.
  assert (S : Rsum (repeat 1 n) = INR n). { clear. induction n as [|n IH]; [reflexivity|]. rewrite S_INR, <- IH. unfold Rsum. cbn [repeat fold_right]. lra. }
  exists (map (fun w => w / Rsum (repeat 1 n)) (repeat 1 n)). split.
  - f_equal. rewrite S. generalize (INR n). intros q. clear. induction n as [|n IH]; cbn [repeat map]; auto. f_equal; [f_equal; lra|exact IH].
  - apply shares_divide; [apply Forall_forall; intros x Hx; apply repeat_spec in Hx; lra|]. exists 1. split; [destruct n; [lia|left; auto]|lra].
Qed.
Lemma ionization_fractions_given n fr : fr <> [] -> ionization_fractions n fr =
  if (List.length fr =? n)%nat then let total := xsum fr in Ok (if xlt (Fin 1.0) total then map (fun e => xdiv e total) fr else fr) else Exit.
Proof. intros H. destruct fr; [congruence|reflexivity]. Qed.
Lemma ionization_fractions_large n fr : List.length fr = n -> Forall (fun a => 0 <= a) fr -> 1 < Rsum fr ->
  exists fs, ionization_fractions n (map Fin fr) = Ok (map Fin fs) /\ shares fr fs.
Proof.
  intros L A T. destruct fr as [|f0 l]; [unfold Rsum in T; cbn in T; lra|]. rewrite ionization_fractions_given by discriminate. set (fr := f0 :: l) in *. clearbody fr. clear f0 l.
  rewrite map_length, L, Nat.eqb_refl. cbv zeta. rewrite xsum_fin, xlt_true by lra.
  assert (P : exists a, In a fr /\ 0 < a). { apply Classical_Prop.NNPP. intros H. assert (Rsum fr <= 0); [|lra]. clear - H. induction fr as [|a l IH]; unfold Rsum in *; cbn [fold_right]; [lra|].
    assert (a <= 0) by (apply Rnot_lt_le; intros K; apply H; exists a; split; [left; auto|auto]). assert (fold_right Rplus 0 l <= 0) by (apply IH; intros (b & B & B0); apply H; exists b; split; [right; auto|auto]). lra. }
  destruct (shares_divide fr A P) as [E S]. rewrite xsum_fin in E. rewrite E. eexists. split; [reflexivity|exact S].
Qed.
Lemma ionization_fractions_small n fr : fr <> [] -> List.length fr = n -> Rsum fr <= 1 -> ionization_fractions n (map Fin fr) = Ok (map Fin fr).
Proof.
  intros N L H. unfold ionization_fractions. destruct fr as [|a l]; [congruence|]. cbn [map]. change (Fin a :: map Fin l) with (map Fin (a :: l)). rewrite map_length, L, Nat.eqb_refl. cbv zeta. rewrite xsum_fin, xlt_false by lra. reflexivity.
Qed.
Lemma ionization_fractions_length n fr : fr <> [] -> List.length fr <> n -> ionization_fractions n fr = Exit.
Proof. intros N L. unfold ionization_fractions. destruct fr; [congruence|]. apply Nat.eqb_neq in L. rewrite L. auto. Qed.

(** One composition (twice as much hydrogen as oxygen of mass 16), given as (2, 1) and as (2/3, 1/3): different fractions. *)
Definition proton1 : Isotope := mkIsotope 1 1 (Fin 1) (Fin 0) (Fin 0) (Fin 0) "H1" (Fin 1).
Definition oxygen16 : Isotope := mkIsotope 8 16 (Fin 1) (Fin 0) (Fin 0) (Fin 0) "O16" (Fin 16).
Definition water : list Nucleus := [mkNucleus (Some 1%Z) [proton1] "H"; mkNucleus (Some 8%Z) [oxygen16] "O"].
Lemma water_masses : nuclei_masses water [1; 16].
Proof.
  repeat apply Forall2_cons; try apply Forall2_nil; (split; [|lra]); unfold Average_Nuclear_Mass; cbn [nisotopes fold_left imass iabundance proton1 oxygen16]; rewrite xmul_fin, xadd_fin; f_equal; lra.
Qed.
Lemma water_refuted : exists nuclei a b, nuclei_masses nuclei [1; 16] /\ relative_fractions nuclei (map Fin [2; 1]) = Ok (map Fin a) /\ shares (weights [2; 1] [1; 16]) a /\
  relative_fractions nuclei (map Fin [2 / 3; 1 / 3]) = Ok (map Fin b) /\ ~ shares (weights [2 / 3; 1 / 3] [1; 16]) b /\ a <> b.
Proof.
  exists water. destruct (nuclear_fractions water [1; 16] [2; 1] water_masses eq_refl) as (a & E & S); [repeat (apply Forall_cons || apply Forall_nil); lra|unfold Rsum; cbn; lra|].
  exists a, [2 / 3; 1 / 3]. split; [apply water_masses|]. split; auto. split; auto. split; [apply nuclear_fractions_small; [discriminate|unfold Rsum; cbn; lra]|].
  split.
  - intros (_ & _ & H). destruct (H 0%nat (2 / 3 * 1) (2 / 3) eq_refl eq_refl) as [K _]. unfold weights, Rsum in K. cbn in K. lra.
  - intros ->. destruct S as (_ & _ & H). destruct (H 0%nat (2 * 1) (2 / 3) eq_refl eq_refl) as [K _]. unfold weights, Rsum in K. cbn in K. lra.
Qed.
(** Amounts (1/4, 1/4): the fractions add up to 1/2; half of the detector is missing. The same for atoms. *)
Lemma half_refuted : exists nuclei a, nuclei_masses nuclei [1; 16] /\ relative_fractions nuclei (map Fin a) = Ok (map Fin a) /\ Forall (fun x => 0 < x) a /\ Rsum a = 1 / 2 /\
  ionization_fractions 2 (map Fin a) = Ok (map Fin a).
Proof.
  exists water, [1 / 4; 1 / 4]. assert (S : Rsum [1 / 4; 1 / 4] = 1 / 2) by (unfold Rsum; cbn; lra). split; [apply water_masses|]. split; [apply nuclear_fractions_small; [discriminate|lra]|].
  split; [repeat (apply Forall_cons || apply Forall_nil); lra|]. split; auto. apply ionization_fractions_small; [discriminate|reflexivity|lra].
Qed.
