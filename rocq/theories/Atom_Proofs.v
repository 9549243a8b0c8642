(** Lemmas about atoms and atomic response functions. *)
From Coq Require Import Reals ZArith String Lia Lra Bool.
From Coquelicot Require Import Coquelicot.
From Coq Require Import List.
From Verif Require Import Base XrFacts Nucleus_Model Nuclear_Model Nuclear_Proofs Atom_Model.
Import ListNotations.
Local Open Scope R_scope.

(** A file system in which every response table can be read and has at least one row. *)
Definition tables_readable (Import_Table : string -> res (list (list xr))) : Prop :=
  forall path, exists r t, Import_Table path = Ok (r :: t).

Lemma import_response_ok IT name a b c d r : tables_readable IT -> exists x, import_response IT name a b c d r = Ok x.
Proof.
  intros H. unfold import_response. destruct (H ("data/Atomic_Response_Functions/" ++ name ++ "_" ++ to_string r ++ ".txt")%string) as [r0 [t E]].
  rewrite E. cbn [bind at_ub nth_error]. eexists; reflexivity.
Qed.

Lemma shell_ctor_ok IT el n l Eb kmin kmax qmin qmax ns : tables_readable IT -> (0 <= l <= 4)%Z ->
  exists s, Atomic_Electron_ctor IT el n l Eb kmin kmax qmin qmax ns = Ok s /\ k_min s = kmin /\ k_max s = kmax /\ q_min s = qmin /\
    q_max s = qmax /\ sh_n s = n /\ sh_l s = l /\ binding_energy s = Eb /\ number_of_secondary_electrons s = ns /\ have_warned s = false /\
    Datatypes.length (atomic_response_interpolations s) = 4%nat.
Proof.
  intros H Hl. unfold Atomic_Electron_ctor. destruct (at_ubZ_in s_names l) as [sn [E _]]; [cbn; lia|]. rewrite E. cbn [bind].
  set (nm := (el ++ "_" ++ to_string n ++ sn)%string).
  destruct (import_response_ok IT nm kmin kmax qmin qmax 1 H) as [x1 E1]. destruct (import_response_ok IT nm kmin kmax qmin qmax 2 H) as [x2 E2].
  destruct (import_response_ok IT nm kmin kmax qmin qmax 3 H) as [x3 E3]. destruct (import_response_ok IT nm kmin kmax qmin qmax 4 H) as [[[a b] c] E4].
  cbn [map_res]. rewrite E1, E2, E3, E4. cbn [bind at_ub nth_error]. eexists; split; [reflexivity|].
  cbn. repeat split.
Qed.

(** Specification of the shells an element should have: quantum numbers, binding energy and secondary electrons. *)
Definition shell_is (p : Z * Z * R * Z) (s : Atomic_Electron) : Prop :=
  let '(n, l, E, ns) := p in sh_n s = n /\ sh_l s = l /\ binding_energy s = Fin (E * eV) /\ number_of_secondary_electrons s = ns /\ have_warned s = false.

Lemma make_shells_ok IT el km l : tables_readable IT -> Forall (fun p => let '(n, l, E, ns) := p in (0 <= l <= 4)%Z) l ->
  exists ss, make_shells IT el km l = Ok ss /\ Forall2 shell_is (rev l) ss.
Proof.
  intros H HF. unfold make_shells.
  match goal with |- context [map_res ?f l] => set (F := f) end.
  assert (K : exists ss, map_res F l = Ok ss /\ Forall2 shell_is l ss).
  { induction HF as [|p t Hp Ht IH]; [exists []; split; [reflexivity|constructor]|].
    destruct IH as [ss [E1 E2]]. destruct p as [[[n l0] E] ns].
    destruct (shell_ctor_ok IT el n l0 (xmul (Fin E) (Fin eV)) (xmul (Fin 0.1) (Fin keV)) (xmul (Fin km) (Fin keV)) (xmul (Fin 1.0) (Fin keV)) (xmul (Fin 1000.0) (Fin keV)) ns H Hp)
      as [s [S1 [_ [_ [_ [_ [S6 [S7 [S8 [S9 [S10 _]]]]]]]]]]].
    exists (s :: ss). cbn [map_res]. unfold F at 1. rewrite S1. cbn [bind]. rewrite E1. cbn [bind]. split; [reflexivity|].
    constructor; [|exact E2]. cbn. rewrite S8. auto. }
  destruct K as [ss [E1 E2]]. rewrite E1. cbn [bind]. exists (rev ss). split; [reflexivity|].
  clear -E2. induction E2; cbn [rev]; [constructor|]. apply Forall2_app; [exact IHE2|]. constructor; [assumption|constructor].
Qed.

Lemma atom_Xe IT rows w : tables_readable IT -> well_formed rows -> full_table rows -> world_history rows w ->
  exists a w', Atom_by_name IT w "Xe" = Ok (a, w') /\ element_of_table rows 54 (at_nucleus a) /\ Forall2 shell_is (rev xenon_shells) (electrons a) /\ W a = Fin (13.8 * eV).
Proof.
  intros H WF FT HW. destruct (by_name_is_by_charge rows w 54 "Xe" WF FT HW ltac:(lia) eq_refl) as [n [w1 [w2 [G [_ E]]]]].
  unfold Atom_by_name. rewrite G. cbn [bind]. destruct (make_shells_ok IT "Xe" 500.0 xenon_shells H) as [ss [S1 S2]].
  { unfold xenon_shells. repeat (constructor; [lia|]). constructor. }
  change ((("Xe" =? "Xe") || ("Xe" =? "Xenon"))%string)%bool with true. cbn iota. rewrite S1. cbn [bind].
  do 2 eexists. split; [reflexivity|]. cbn [at_nucleus electrons W fst]. auto.
Qed.

Lemma atom_Ar IT rows w : tables_readable IT -> well_formed rows -> full_table rows -> world_history rows w ->
  exists a w', Atom_by_name IT w "Ar" = Ok (a, w') /\ element_of_table rows 18 (at_nucleus a) /\ Forall2 shell_is (rev argon_shells) (electrons a) /\ W a = Fin (19.6 * eV).
Proof.
  intros H WF FT HW. destruct (by_name_is_by_charge rows w 18 "Ar" WF FT HW ltac:(lia) eq_refl) as [n [w1 [w2 [G [_ E]]]]].
  unfold Atom_by_name. rewrite G. cbn [bind]. destruct (make_shells_ok IT "Ar" 100.0 argon_shells H) as [ss [S1 S2]].
  { unfold argon_shells. repeat (constructor; [lia|]). constructor. }
  change ((("Ar" =? "Xe") || ("Ar" =? "Xenon"))%string)%bool with false. change ((("Ar" =? "Ar") || ("Ar" =? "Argon"))%string)%bool with true. cbn iota.
  rewrite S1. cbn [bind]. do 2 eexists. split; [reflexivity|]. cbn [at_nucleus electrons W fst]. auto.
Qed.

Lemma not_symbol s : existsb (String.eqb s) (firstn 92 Nucleus_Names) = false -> forall k, (k < 92)%nat -> nth_error Nucleus_Names k <> Some s.
Proof.
  intros H k Hk E. assert (existsb (String.eqb s) (firstn 92 Nucleus_Names) = true); [|congruence]. apply existsb_exists. exists s.
  split; [|apply String.eqb_refl]. apply (nth_error_In _ k). rewrite <- E. symmetry.
  rewrite <- (firstn_skipn 92 Nucleus_Names) at 1. apply nth_error_app1. cbn. exact Hk.
Qed.

Lemma atom_full_names IT rows w s : well_formed rows -> full_table rows -> world_history rows w -> s = "Xenon"%string \/ s = "Argon"%string ->
  Atom_by_name IT w s = Exit.
Proof.
  intros WF FT HW [-> | ->]; unfold Atom_by_name; rewrite (by_name_unknown rows); auto; apply not_symbol; reflexivity.
Qed.

Lemma atom_other_names IT rows w s : well_formed rows -> full_table rows -> world_history rows w -> s <> "Xe"%string -> s <> "Ar"%string ->
  Atom_by_name IT w s = Exit.
Proof.
  intros WF FT HW N1 N2.
  destruct (String.eqb_spec s "Xenon") as [-> | N3]; [eapply atom_full_names; eauto|].
  destruct (String.eqb_spec s "Argon") as [-> | N4]; [eapply atom_full_names; eauto|].
  unfold Atom_by_name. destruct (existsb (String.eqb s) (firstn 92 Nucleus_Names)) eqn:B.
  - apply existsb_exists in B. destruct B as [y [Y1 Y2]]. apply String.eqb_eq in Y2. subst y. apply In_nth_error in Y1. destruct Y1 as [k Hk].
    assert (k < 92)%nat. { assert (L : (k < Datatypes.length (firstn 92 Nucleus_Names))%nat) by (apply nth_error_Some; congruence). cbn in L. exact L. }
    assert (Hk' : nth_error Nucleus_Names k = Some s). { rewrite <- (firstn_skipn 92 Nucleus_Names). rewrite nth_error_app1; [exact Hk|]. cbn. lia. }
    destruct (by_name_is_by_charge rows w (Z.of_nat k + 1) s WF FT HW ltac:(lia)) as [n [w1 [w2 [G _]]]].
    { replace (Z.to_nat (Z.of_nat k + 1 - 1)) with k by lia. exact Hk'. }
    rewrite G. cbn [bind]. apply String.eqb_neq in N1, N2, N3, N4. rewrite N1, N2, N3, N4. reflexivity.
  - rewrite (by_name_unknown rows); auto. apply not_symbol. exact B.
Qed.

(** Response functions. *)
Definition real_shell (s : Atomic_Electron) (k1 k2 q1 q2 : R) : Prop :=
  k_min s = Fin k1 /\ k_max s = Fin k2 /\ q_min s = Fin q1 /\ q_max s = Fin q2 /\ 0 < k1 < k2 /\ 0 < q1 < q2 /\
  Datatypes.length (atomic_response_interpolations s) = 4%nat.

(** The electron momentum belonging to energy E. *)
Definition k_of (E : R) : R := sqrt (2 * mElectron * E).

Lemma oob_spec s k1 k2 q1 q2 q E : real_shell s k1 k2 q1 q2 -> 0 <= E ->
  xsqrt (xmul (xmul (Fin 2) (Fin mElectron)) (Fin E)) = Fin (k_of E) /\
  (response_out_of_bounds s (Fin q) (Fin (k_of E)) = true <-> (1.000001 * q2 < q \/ 1.000001 * k2 < k_of E \/ k_of E < 0.999999 * k1)).
Proof.
  intros [A1 [A2 [A3 [A4 _]]]] HE. split.
  - rewrite !xmul_fin. apply xsqrt_fin. apply Rmult_le_pos; [|exact HE]. assert (h := mElectron_pos). lra.
  - unfold response_out_of_bounds. rewrite A1, A2, A4, !xmul_fin. rewrite !orb_true_iff, !xlt_spec. tauto.
Qed.

(** Outside (with the tolerance of one part in a million) the answer is 0 without reading a table. *)
Lemma response_zero I2 s k1 k2 q1 q2 r q E : real_shell s k1 k2 q1 q2 -> 0 <= E ->
  (1.000001 * q2 < q \/ 1.000001 * k2 < k_of E \/ k_of E < 0.999999 * k1) ->
  exists s' p, Atomic_Response_Function I2 s r (Fin q) (Fin E) = Ok (Fin 0, s', p).
Proof.
  intros HS HE HO. destruct (oob_spec s k1 k2 q1 q2 q E HS HE) as [K1 K2]. unfold Atomic_Response_Function. rewrite K1.
  apply K2 in HO. rewrite HO. do 2 eexists; reflexivity.
Qed.

(** The tables are consulted only inside the tolerance window: changing them elsewhere changes nothing. *)
Lemma response_domain I2 J2 s k1 k2 q1 q2 r q E : real_shell s k1 k2 q1 q2 -> 0 <= E ->
  (forall t x y, 0.999999 * k1 <= x <= 1.000001 * k2 -> q1 <= y <= 1.000001 * q2 -> I2 t (Fin x) (Fin y) = J2 t (Fin x) (Fin y)) ->
  Atomic_Response_Function I2 s r (Fin q) (Fin E) = Atomic_Response_Function J2 s r (Fin q) (Fin E).
Proof.
  intros HS HE HA. destruct (oob_spec s k1 k2 q1 q2 q E HS HE) as [K1 K2]. unfold Atomic_Response_Function. rewrite K1.
  destruct (response_out_of_bounds s (Fin q) (Fin (k_of E))) eqn:B; [reflexivity|].
  assert (NB : ~ (1.000001 * q2 < q \/ 1.000001 * k2 < k_of E \/ k_of E < 0.999999 * k1)) by (intros X; apply K2 in X; congruence).
  destruct HS as [A1 [A2 [A3 [A4 [A5 [A6 A7]]]]]]. rewrite A3.
  assert (HK : 0.999999 * k1 <= k_of E <= 1.000001 * k2) by lra.
  destruct (r =? 1)%Z.
  - destruct (at_ub (atomic_response_interpolations s) 0); cbn [bind]; try reflexivity.
    destruct (xlt (Fin q1) (Fin q)) eqn:Q.
    + apply xlt_spec in Q. rewrite (HA a _ _ HK) by lra. reflexivity.
    + rewrite (HA a _ _ HK) by lra. reflexivity.
  - destruct ((r =? 2) || (r =? 3) || (r =? 4))%Z; [|reflexivity].
    destruct (xlt (Fin q1) (Fin q)) eqn:Q; [|reflexivity]. apply xlt_spec in Q.
    destruct (at_ubZ (atomic_response_interpolations s) (r - 1)); cbn [bind]; try reflexivity. rewrite (HA a _ _ HK) by lra. reflexivity.
Qed.

(** Inside, response 1 is the table above q_min and continues with q^2 below. *)
Lemma response_one I2 s k1 k2 q1 q2 q E t f : real_shell s k1 k2 q1 q2 -> 0 <= E -> 0.999999 * k1 <= k_of E <= 1.000001 * k2 ->
  q <= 1.000001 * q2 -> nth_error (atomic_response_interpolations s) 0 = Some t ->
  (forall y, q1 <= y <= 1.000001 * q2 -> I2 t (Fin (k_of E)) (Fin y) = Ok (Fin (f y))) ->
  Atomic_Response_Function I2 s 1 (Fin q) (Fin E) = Ok (Fin (if Rle_dec q1 q then f q else (q / q1) ^ 2 * f q1), s, false).
Proof.
  intros HS HE HK HQ Ht Hf. destruct (oob_spec s k1 k2 q1 q2 q E HS HE) as [K1 K2]. unfold Atomic_Response_Function. rewrite K1.
  destruct (response_out_of_bounds s (Fin q) (Fin (k_of E))) eqn:B; [exfalso; destruct K2 as [K2 _]; specialize (K2 eq_refl); lra|]. change (1 =? 1)%Z with true. cbn iota.
  destruct HS as [A1 [A2 [A3 [A4 [A5 [A6 A7]]]]]]. rewrite (at_ub_ok _ _ _ Ht). cbn [bind]. rewrite A3.
  destruct (Rle_dec q1 q) as [L | L].
  - destruct (Rle_lt_or_eq_dec _ _ L) as [L1 | L1].
    + rewrite xlt_true by exact L1. rewrite Hf by lra. reflexivity.
    + subst q. rewrite xlt_false by lra. rewrite Hf by lra. cbn [bind]. rewrite !xmul_fin, !xdiv_fin, xmul_fin by lra.
      do 4 f_equal. field; lra.
  - rewrite xlt_false by lra. rewrite Hf by lra. cbn [bind]. rewrite !xmul_fin, !xdiv_fin, xmul_fin by lra. do 4 f_equal. field; lra.
Qed.

(** Hence it is continuous at q_min whenever the table is. *)
Lemma response_one_continuous q1 f : 0 < q1 -> filterlim f (at_right q1) (locally (f q1)) ->
  filterlim (fun q => if Rle_dec q1 q then f q else (q / q1) ^ 2 * f q1) (locally q1) (locally (f q1)).
Proof.
  intros Hq Hf P HP. specialize (Hf P HP). destruct Hf as [d1 D1].
  assert (C : continuous (fun q => (q / q1) ^ 2 * f q1) q1).
  { apply (ex_derive_continuous (V := R_NormedModule) (fun q => (q / q1) ^ 2 * f q1)). auto_derive. exact I. }
  assert (E : (q1 / q1) ^ 2 * f q1 = f q1) by (field; lra).
  unfold continuous in C. cbv beta in C. rewrite E in C. destruct (C P HP) as [d2 D2].
  assert (Hd : 0 < Rmin d1 d2) by (apply Rmin_case; apply cond_pos). exists (mkposreal _ Hd). intros y Hy.
  assert (HB : Rabs (y - q1) < Rmin d1 d2) by exact Hy.
  destruct (Rle_dec q1 y) as [L | L].
  - destruct (Rle_lt_or_eq_dec _ _ L) as [L1 | L1].
    + apply (D1 y); [|exact L1]. eapply Rlt_le_trans; [exact HB|apply Rmin_l].
    + subst y. exact (locally_singleton _ _ HP).
  - apply (D2 y). eapply Rlt_le_trans; [exact HB|apply Rmin_r].
Qed.

(** Histories of calls. *)
Definition call := (Z * xr * xr)%type.
Fixpoint responses (I2 : interpolator2) (s : Atomic_Electron) (cs : list call) : res (list (xr * bool)) :=
  match cs with
  | [] => Ok []
  | (r, q, E) :: t =>
      let* x := Atomic_Response_Function I2 s r q E in
      let* rest := responses I2 (snd (fst x)) t in
      Ok ((fst (fst x), snd x) :: rest)
  end.

Lemma response_flag I2 s r q E b :
  match Atomic_Response_Function I2 s r q E, Atomic_Response_Function I2 (with_warned b s) r q E with
  | Ok (x, s1, _), Ok (y, s2, _) => x = y /\ with_warned true s1 = with_warned true s2
  | Exit, Exit => True | UB, UB => True | Throw, Throw => True
  | _, _ => False
  end.
Proof.
  unfold Atomic_Response_Function. change (response_out_of_bounds (with_warned b s)) with (response_out_of_bounds s).
  cbn [atomic_response_interpolations with_warned q_min].
  destruct (response_out_of_bounds s q (xsqrt (xmul (xmul (Fin 2) (Fin mElectron)) E))); [split; reflexivity|].
  destruct (r =? 1)%Z.
  - destruct (at_ub (atomic_response_interpolations s) 0); cbn [bind]; try exact I.
    destruct (xlt (q_min s) q); destruct (I2 _ _ _); cbn [bind]; try exact I; split; reflexivity.
  - destruct ((r =? 2) || (r =? 3) || (r =? 4))%Z; [|exact I]. destruct (xlt (q_min s) q); [|split; reflexivity].
    destruct (at_ubZ (atomic_response_interpolations s) (r - 1)); cbn [bind]; try exact I. destruct (I2 _ _ _); cbn [bind]; try exact I; split; reflexivity.
Qed.

Lemma response_state I2 s r q E x s' p : Atomic_Response_Function I2 s r q E = Ok (x, s', p) ->
  (s' = s /\ p = false) \/ (s' = with_warned true s /\ p = negb (have_warned s)).
Proof.
  unfold Atomic_Response_Function. destruct (response_out_of_bounds _ _ _); [intros H; apply Ok_inj in H; injection H as _ <- <-; auto|].
  destruct (r =? 1)%Z.
  - destruct (at_ub (atomic_response_interpolations s) 0); cbn [bind]; try discriminate.
    destruct (xlt (q_min s) q); destruct (I2 _ _ _); cbn [bind]; try discriminate; intros H; apply Ok_inj in H; injection H as _ <- <-; auto.
  - destruct ((r =? 2) || (r =? 3) || (r =? 4))%Z; [|discriminate].
    destruct (xlt (q_min s) q); [|intros H; apply Ok_inj in H; injection H as _ <- <-; auto].
    destruct (at_ubZ _ _); cbn [bind]; try discriminate. destruct (I2 _ _ _); cbn [bind]; try discriminate; intros H; apply Ok_inj in H; injection H as _ <- <-; auto.
Qed.

Lemma no_more_warnings I2 cs : forall s out, have_warned s = true -> responses I2 s cs = Ok out -> count_occ bool_dec (map snd out) true = 0%nat.
Proof.
  induction cs as [|[[r q] E] t IH]; intros s out Hw H; cbn [responses] in H; [apply Ok_inj in H; subst; reflexivity|].
  destruct (Atomic_Response_Function I2 s r q E) as [[[x s'] p]| | |] eqn:A; cbn [bind fst snd] in H; try discriminate.
  destruct (responses I2 s' t) as [rest| | |] eqn:R; cbn [bind] in H; try discriminate. apply Ok_inj in H. subst out. cbn [map snd].
  destruct (response_state _ _ _ _ _ _ _ _ A) as [[-> ->] | [-> ->]].
  - cbn [count_occ]. destruct (bool_dec false true); [discriminate|]. apply (IH s); auto.
  - rewrite Hw. cbn [negb count_occ]. destruct (bool_dec false true); [discriminate|]. apply (IH (with_warned true s)); auto.
Qed.

Lemma warn_once I2 cs : forall s out, responses I2 s cs = Ok out -> (count_occ bool_dec (map snd out) true <= 1)%nat.
Proof.
  induction cs as [|[[r q] E] t IH]; intros s out H; cbn [responses] in H; [apply Ok_inj in H; subst; cbn; lia|].
  destruct (Atomic_Response_Function I2 s r q E) as [[[x s'] p]| | |] eqn:A; cbn [bind fst snd] in H; try discriminate.
  destruct (responses I2 s' t) as [rest| | |] eqn:R; cbn [bind] in H; try discriminate. apply Ok_inj in H. subst out. cbn [map snd].
  destruct (response_state _ _ _ _ _ _ _ _ A) as [[-> ->] | [-> ->]].
  - cbn [count_occ]. destruct (bool_dec false true); [discriminate|]. apply (IH s); auto.
  - pose proof (no_more_warnings I2 t (with_warned true s) rest eq_refl R) as Z. cbn [count_occ].
    destruct (bool_dec (negb (have_warned s)) true); rewrite Z; lia.
Qed.

Lemma with_warned_same s : with_warned (have_warned s) s = s.
Proof. destruct s; reflexivity. Qed.

(** Every value in a history is what a fresh object would have answered. *)
Lemma history_values I2 cs : forall s out, responses I2 s cs = Ok out ->
  Forall2 (fun c o => let '(r, q, E) := c in exists s' p, Atomic_Response_Function I2 s r q E = Ok (fst o, s', p)) cs out.
Proof.
  assert (G : forall cs s b out, responses I2 (with_warned b s) cs = Ok out ->
    Forall2 (fun c o => let '(r, q, E) := c in exists s' p, Atomic_Response_Function I2 s r q E = Ok (fst o, s', p)) cs out).
  { clear cs. induction cs as [|[[r q] E] t IH]; intros s b out H; cbn [responses] in H; [apply Ok_inj in H; subst; constructor|].
    pose proof (response_flag I2 s r q E b) as F.
    destruct (Atomic_Response_Function I2 (with_warned b s) r q E) as [[[x s'] p]| | |] eqn:A; cbn [bind fst snd] in H; try discriminate.
    destruct (responses I2 s' t) as [rest| | |] eqn:R; cbn [bind] in H; try discriminate. apply Ok_inj in H. subst out.
    destruct (Atomic_Response_Function I2 s r q E) as [[[y s''] p'']| | |] eqn:A2; try contradiction. destruct F as [<- _].
    constructor.
    - cbn [fst]. rewrite A2. do 2 eexists; reflexivity.
    - destruct (response_state _ _ _ _ _ _ _ _ A) as [[-> _] | [-> _]]; [apply (IH s b rest R)|].
      apply (IH s true rest). exact R. }
  intros s out H. apply (G cs s (have_warned s)). rewrite with_warned_same. exact H.
Qed.

(** Witness for reads outside the tabulated interval. *)
Definition IT0 (path : string) : res (list (list xr)) := Ok [[Fin 1; Fin 1]; [Fin 1; Fin 1]].
Lemma IT0_readable : tables_readable IT0.
Proof. intros p. do 2 eexists. reflexivity. Qed.

Lemma xe_shell : exists s, Atomic_Electron_ctor IT0 "Xe" 5 1 (Fin (12.4433 * eV)) (Fin (0.1 * keV)) (Fin (500 * keV)) (Fin (1 * keV)) (Fin (1000 * keV)) 0 = Ok s /\
  real_shell s (0.1 * keV) (500 * keV) (1 * keV) (1000 * keV).
Proof.
  destruct (shell_ctor_ok IT0 "Xe" 5 1 (Fin (12.4433 * eV)) (Fin (0.1 * keV)) (Fin (500 * keV)) (Fin (1 * keV)) (Fin (1000 * keV)) 0 IT0_readable ltac:(lia))
    as [s [S1 [S2 [S3 [S4 [S5 [_ [_ [_ [_ [_ S11]]]]]]]]]]]. exists s. split; [exact S1|]. unfold real_shell. rewrite S2, S3, S4, S5, S11.
  unfold keV. repeat split; try lra.
Qed.

Lemma reads_beyond_kmax : exists I2 s k1 k2 q1 q2 q E, real_shell s k1 k2 q1 q2 /\ 0 <= E /\ q1 <= q <= q2 /\ k2 < k_of E /\
  (forall t x y, k1 <= x <= k2 -> q1 <= y <= q2 -> I2 t (Fin x) (Fin y) = Ok (Fin 1)) /\
  exists s' p, Atomic_Response_Function I2 s 1 (Fin q) (Fin E) = Ok (NaN, s', p).
Proof.
  destruct xe_shell as [s [_ HS]]. set (k2 := 500 * keV). set (k := 1.0000005 * k2).
  set (I2 := fun (t : table2) (x y : xr) => if xle x (Fin k2) then Ok (Fin 1) else Ok NaN).
  assert (Kp : 0 < k2) by (unfold k2, keV; lra).
  assert (HE : 0 <= k * k / (2 * mElectron)).
  { apply Rmult_le_pos; [apply Rle_0_sqr|]. left. apply Rinv_0_lt_compat. assert (h := mElectron_pos). lra. }
  assert (KE : k_of (k * k / (2 * mElectron)) = k).
  { unfold k_of. replace (2 * mElectron * (k * k / (2 * mElectron))) with (k * k) by (field; assert (h := mElectron_pos); lra). apply sqrt_square. unfold k; lra. }
  exists I2, s, (0.1 * keV), k2, (1 * keV), (1000 * keV), (2 * keV), (k * k / (2 * mElectron)).
  split; [exact HS|]. split; [exact HE|]. split; [unfold keV; lra|]. split; [rewrite KE; unfold k; lra|]. split.
  - intros t x y Hx Hy. unfold I2. rewrite xle_true by lra. reflexivity.
  - destruct (oob_spec s _ _ _ _ (2 * keV) _ HS HE) as [K1 K2]. unfold Atomic_Response_Function. rewrite K1, KE. rewrite KE in K2.
    destruct (response_out_of_bounds s (Fin (2 * keV)) (Fin k)) eqn:B; [exfalso; destruct K2 as [K2 _]; specialize (K2 eq_refl); unfold k, k2, keV in K2; lra|].
    change (1 =? 1)%Z with true. cbn iota. destruct HS as [_ [_ [A3 [_ [_ [_ A7]]]]]].
    destruct (atomic_response_interpolations s) as [|t0 tl]; [discriminate|]. cbn [at_ub nth_error bind]. rewrite A3, xlt_true by (unfold keV; lra).
    unfold I2. rewrite xle_false by (unfold k; lra). cbn [bind]. do 2 eexists; reflexivity.
Qed.

Lemma reads_negative_energy I2 s k1 k2 q1 q2 q E t : real_shell s k1 k2 q1 q2 -> E < 0 -> q1 < q <= q2 ->
  nth_error (atomic_response_interpolations s) 0 = Some t ->
  Atomic_Response_Function I2 s 1 (Fin q) (Fin E) = let* f := I2 t NaN (Fin q) in Ok (f, s, false).
Proof.
  intros [A1 [A2 [A3 [A4 [A5 [A6 A7]]]]]] HE Hq Ht. unfold Atomic_Response_Function.
  assert (N : xsqrt (xmul (xmul (Fin 2) (Fin mElectron)) (Fin E)) = NaN).
  { rewrite !xmul_fin. cbn [xsqrt]. rewrite rneg_true; [reflexivity|]. assert (h := mElectron_pos). nra. }
  rewrite N. unfold response_out_of_bounds. rewrite A1, A2, A4, !xmul_fin. rewrite (xlt_false _ q) by lra.
  cbn [xlt orb]. change (1 =? 1)%Z with true. cbn iota. rewrite (at_ub_ok _ _ _ Ht). cbn [bind]. rewrite A3, xlt_true by lra. reflexivity.
Qed.

(** Shell queries. *)
Lemma lowest_binding_spec a : Forall (fun s => is_fin (binding_energy s)) (electrons a) ->
  exists m, Lowest_Binding_Energy a = Fin m /\ m <= 1 /\
    (forall s e, In s (electrons a) -> binding_energy s = Fin e -> m <= Rabs e) /\
    (m = 1 \/ exists s e, In s (electrons a) /\ binding_energy s = Fin e /\ m = Rabs e).
Proof.
  unfold Lowest_Binding_Energy. generalize (electrons a). intros l HF.
  assert (G : forall l c, Forall (fun s => is_fin (binding_energy s)) l -> exists m,
    fold_left (fun m s => if xlt (xabs (binding_energy s)) m then xabs (binding_energy s) else m) l (Fin c) = Fin m /\ m <= c /\
    (forall s e, In s l -> binding_energy s = Fin e -> m <= Rabs e) /\ (m = c \/ exists s e, In s l /\ binding_energy s = Fin e /\ m = Rabs e)).
  { clear. induction l as [|s t IH]; intros c HF; cbn [fold_left].
    - exists c. split; [reflexivity|]. split; [lra|]. split; [intros ? ? []|auto].
    - inversion HF as [|? ? [e He] Ht]; subst. rewrite He. cbn [xabs].
      destruct (xlt (Fin (Rabs e)) (Fin c)) eqn:X.
      + apply xlt_spec in X. destruct (IH (Rabs e) Ht) as [m [M1 [M2 [M3 M4]]]]. exists m. split; [exact M1|]. split; [lra|]. split.
        * intros s0 e0 [<- | Hin] E0; [rewrite He in E0; apply Fin_inj in E0; subst; exact M2|eapply M3; eauto].
        * right. destruct M4 as [-> | [s0 [e0 [I1 [I2 I3]]]]]; [exists s, e; split; [left; reflexivity|auto]|exists s0, e0; split; [right; exact I1|auto]].
      + assert (c <= Rabs e). { destruct (Rle_dec c (Rabs e)) as [L|L]; [exact L|]. assert (X2 : xlt (Fin (Rabs e)) (Fin c) = true) by (apply xlt_spec; lra). congruence. }
        destruct (IH c Ht) as [m [M1 [M2 [M3 M4]]]]. exists m. split; [exact M1|]. split; [lra|]. split.
        * intros s0 e0 [<- | Hin] E0; [rewrite He in E0; apply Fin_inj in E0; subst; lra|eapply M3; eauto].
        * destruct M4 as [-> | [s0 [e0 [I1 [I2 I3]]]]]; [auto|right; exists s0, e0; split; [right; exact I1|auto]]. }
  destruct (G l 1.0 HF) as [m [M1 [M2 [M3 M4]]]]. exists m. split; [exact M1|]. split; [lra|]. split; [exact M3|]. destruct M4 as [-> | M4]; [left; lra|auto].
Qed.

Lemma electron_spec a n l :
  match find (fun s => (sh_n s =? n) && (sh_l s =? l))%Z (electrons a) with
  | Some s => Atom_Electron a n l = Ok s /\ sh_n s = n /\ sh_l s = l
  | None => Atom_Electron a n l = Exit
  end.
Proof.
  unfold Atom_Electron. induction (electrons a) as [|s t IH]; cbn [find Electron_loop]; [reflexivity|].
  destruct ((sh_n s =? n) && (sh_l s =? l))%Z eqn:E; [|exact IH]. apply andb_prop in E as [E1 E2]. apply Z.eqb_eq in E1, E2. auto.
Qed.

(** The binding energies and lookups of the two built-in atoms. *)
Lemma xenon_lowest a : Forall2 shell_is (rev xenon_shells) (electrons a) -> Lowest_Binding_Energy a = Fin (12.4433 * eV).
Proof.
  intros H. assert (F : Forall (fun s => is_fin (binding_energy s)) (electrons a)).
  { clear -H. induction H as [|[[[n l] E] ns] s t u Hs Ht IH]; constructor; [|exact IH]. destruct Hs as [_ [_ [-> _]]]. apply is_fin_Fin. }
  destruct (lowest_binding_spec a F) as [m [M1 [M2 [M3 M4]]]]. rewrite M1. f_equal.
  assert (P : forall s, In s (electrons a) -> exists E, binding_energy s = Fin (E * eV) /\ In E (map (fun p => let '(n, l, E, ns) := p in E) xenon_shells)).
  { intros s Hs. apply In_nth_error in Hs. destruct Hs as [k Hk]. clear -H Hk. 
    assert (G : forall l u, Forall2 shell_is l u -> forall k, nth_error u k = Some s -> exists p, In p l /\ shell_is p s).
    { clear. induction 1 as [|p s0 t u Hs Ht IH]; intros k Hk; destruct k; try discriminate.
      - injection Hk as <-. exists p. split; [left; reflexivity|exact Hs].
      - destruct (IH k Hk) as [p' [P1 P2]]. exists p'. split; [right; exact P1|exact P2]. }
    destruct (G _ _ H k Hk) as [p [P1 P2]]. destruct p as [[[n l] E] ns]. exists E. destruct P2 as [_ [_ [P2 _]]]. split; [exact P2|].
    apply in_rev in P1. change E with ((fun p : Z * Z * R * Z => let '(n, l, E, ns) := p in E) (n, l, E, ns)). apply in_map. exact P1. }
  assert (B : forall s E, In s (electrons a) -> binding_energy s = Fin (E * eV) -> m <= Rabs (E * eV)) by (intros; eapply M3; eauto).
  destruct (electrons a) as [|s0 t0] eqn:EQ; [inversion H|].
  assert (S0 : binding_energy s0 = Fin (12.4433 * eV)).
  { change (rev xenon_shells) with ((5%Z, 1%Z, 12.4433, 0%Z) :: rev (removelast xenon_shells)) in H. inversion H as [|? ? ? ? Hs Ht]; subst. destruct Hs as [_ [_ [Hs _]]]. exact Hs. }
  apply Rle_antisym.
  - rewrite <- (Rabs_right (12.4433 * eV)) by (unfold eV; lra). apply (B s0); [left; reflexivity|exact S0].
  - destruct M4 as [-> | [s [e [I1 [I2 ->]]]]]; [unfold eV; lra|]. destruct (P s I1) as [E [E1 E2]]. rewrite E1 in I2. apply Fin_inj in I2. subst e.
    cbn in E2. rewrite Rabs_right; unfold eV; repeat (destruct E2 as [<- | E2]; [lra|]); contradiction.
Qed.

Lemma atom_full_name_witness : exists Import_Table rows w s, tables_readable Import_Table /\ well_formed rows /\ full_table rows /\ world_history rows w /\
  In s ["Xe"; "Xenon"; "Ar"; "Argon"]%string /\ Atom_by_name Import_Table w s = Exit.
Proof.
  exists IT0, shipped_rows, (fresh_world shipped_rows), "Xenon"%string. split; [exact IT0_readable|]. split; [exact shipped_well_formed|].
  split; [exact shipped_full|]. split; [constructor|]. split; [right; left; reflexivity|].
  apply (atom_full_names IT0 shipped_rows); [exact shipped_well_formed|exact shipped_full|constructor|left; reflexivity].
Qed.
