(** Lemmas about crystals and rates in pair bins. *)
From Coq Require Import Reals ZArith String Lia Lra Psatz Bool.
From Coquelicot Require Import Coquelicot.
From Coq Require Import List.
From Verif Require Import Base XrFacts Nucleus_Model Distribution_Model Atom_Model Crystal_Model Rates_Model Nuclear_Proofs Interpolation.
Import ListNotations.
Local Open Scope R_scope.

(** Floor. *)
Lemma Rfloor_spec r z : Rfloor r = z <-> IZR z <= r < IZR z + 1.
Proof.
  unfold Rfloor. destruct (archimed r) as [A B]. split.
  - intros <-. rewrite minus_IZR. lra.
  - intros [H1 H2]. assert (IZR (up r) = IZR (z + 1)); [|apply eq_IZR in H; lia].
    assert (z < up r)%Z by (apply lt_IZR; lra). assert (up r < z + 2)%Z by (apply lt_IZR; rewrite plus_IZR; lra). f_equal. lia.
Qed.
Lemma Rfloor_bounds r : IZR (Rfloor r) <= r < IZR (Rfloor r) + 1.
Proof. apply Rfloor_spec. reflexivity. Qed.
Lemma Rfloor_IZR z : Rfloor (IZR z) = z.
Proof. apply Rfloor_spec. lra. Qed.
Lemma Rfloor_mono x y : x <= y -> (Rfloor x <= Rfloor y)%Z.
Proof. intros H. destruct (Rfloor_bounds x), (Rfloor_bounds y). assert (Rfloor x < Rfloor y + 1)%Z by (apply lt_IZR; rewrite plus_IZR; lra). lia. Qed.
Lemma Rtrunc_nonneg r : 0 <= r -> Rtrunc r = Rfloor r.
Proof. intros. unfold Rtrunc. destruct (Rlt_dec r 0); [lra|reflexivity]. Qed.
Lemma Rtrunc_IZR z : Rtrunc (IZR z) = z.
Proof. unfold Rtrunc. destruct (Rlt_dec (IZR z) 0); [rewrite <- opp_IZR, Rfloor_IZR; lia|apply Rfloor_IZR]. Qed.
Lemma Rtrunc_le_floor_pos x y : x <= y -> 0 <= y -> (Rtrunc x <= Rfloor y)%Z.
Proof.
  intros H Hy. unfold Rtrunc. destruct (Rlt_dec x 0) as [L | L]; [|apply Rfloor_mono; auto].
  assert (0 <= Rfloor (- x))%Z. { rewrite <- (Rfloor_IZR 0). apply Rfloor_mono. lra. }
  assert (0 <= Rfloor y)%Z. { rewrite <- (Rfloor_IZR 0). apply Rfloor_mono. lra. } lia.
Qed.
Lemma Rfloor_nonneg r : 0 <= r -> (0 <= Rfloor r)%Z.
Proof. intros. rewrite <- (Rfloor_IZR 0). apply Rfloor_mono. lra. Qed.

Lemma double_to_int_IZR lo hi z : double_to_int lo hi (Fin (IZR z)) = if ((lo <=? z) && (z <=? hi))%Z then Ok z else UB.
Proof. unfold double_to_int. rewrite Rtrunc_IZR. reflexivity. Qed.

(** A crystal with finite positive parameters. *)
Definition real_crystal (c : Crystal) (gap eps de emax a b : R) : Prop :=
  energy_gap c = Fin gap /\ epsilon c = Fin eps /\ dE c = Fin de /\ E_max c = Fin emax /\ dq c = Fin a /\ cr_q_max c = Fin b /\
  0 < gap /\ 0 < eps /\ 0 < de /\ 0 < a /\ de <= emax /\ a <= b.

(** The energy at which Q pairs become possible. *)
Definition Emin_R (gap eps : R) (Q : Z) : R := gap + eps * (IZR Q - 1).
Lemma Emin_fin c gap eps de emax a b Q : real_crystal c gap eps de emax a b -> Minimum_Electron_Energy Q c = Fin (Emin_R gap eps Q).
Proof. intros (H1 & H2 & _). unfold Minimum_Electron_Energy, Emin_R. rewrite H1, H2, xmul_fin, xadd_fin, minus_IZR. f_equal. lra. Qed.

(** Pair counting. *)
Lemma pairs_value c gap eps de emax a b E : real_crystal c gap eps de emax a b -> gap - eps <= E ->
  Electron_Hole_Pairs (Fin E) c = (if (Rfloor ((E - gap) / eps + 1) <=? 2 ^ 32 - 1)%Z then Ok (Rfloor ((E - gap) / eps + 1)) else UB).
Proof.
  intros (H1 & H2 & _ & _ & _ & _ & _ & He & _) HE. unfold Electron_Hole_Pairs. rewrite H1, H2, xsub_fin, xdiv_fin, xadd_fin by lra.
  cbn [xfloor]. unfold to_unsigned. rewrite double_to_int_IZR.
  assert (0 <= (E - gap) / eps + 1). { apply (Rmult_le_reg_r eps); [auto|]. replace (((E - gap) / eps + 1) * eps) with (E - gap + eps) by (field; lra). lra. }
  assert (F := Rfloor_nonneg _ H). destruct (0 <=? Rfloor ((E - gap) / eps + 1))%Z eqn:B; [reflexivity|apply Z.leb_gt in B; lia].
Qed.

Lemma pairs_iff gap eps E Q : 0 < eps -> Rfloor ((E - gap) / eps + 1) = Q <-> Emin_R gap eps Q <= E < Emin_R gap eps (Q + 1).
Proof.
  intros He. rewrite Rfloor_spec. unfold Emin_R. rewrite plus_IZR.
  assert (T : forall z, IZR z <= (E - gap) / eps + 1 <-> gap + eps * (IZR z - 1) <= E).
  { intros z. split; intros H.
    - apply (Rmult_le_compat_r eps) in H; [|lra]. replace (((E - gap) / eps + 1) * eps) with (E - gap + eps) in H by (field; lra). lra.
    - apply (Rmult_le_reg_r eps); [auto|]. replace (((E - gap) / eps + 1) * eps) with (E - gap + eps) by (field; lra). lra. }
  assert (T2 : (E - gap) / eps + 1 < IZR Q + 1 <-> E < gap + eps * (IZR Q + 1 - 1)).
  { split; intros H.
    - apply (Rmult_lt_compat_r eps) in H; [|lra]. replace (((E - gap) / eps + 1) * eps) with (E - gap + eps) in H by (field; lra). lra.
    - apply (Rmult_lt_reg_r eps); [auto|]. replace (((E - gap) / eps + 1) * eps) with (E - gap + eps) by (field; lra). lra. }
  rewrite T, T2. tauto.
Qed.

Lemma pairs_unique c gap eps de emax a b E Q : real_crystal c gap eps de emax a b -> gap - eps <= E -> (Q <= 2 ^ 32 - 1)%Z ->
  (Electron_Hole_Pairs (Fin E) c = Ok Q <-> xle (Minimum_Electron_Energy Q c) (Fin E) = true /\ xlt (Fin E) (Minimum_Electron_Energy (Q + 1) c) = true).
Proof.
  intros HR HE HQ. rewrite (pairs_value c gap eps de emax a b) by auto. rewrite !(Emin_fin c gap eps de emax a b) by auto. rewrite xle_spec, xlt_spec.
  destruct HR as (_ & _ & _ & _ & _ & _ & _ & He & _). rewrite <- (pairs_iff gap eps E Q He). split.
  - destruct (_ <=? _)%Z; intros H; [apply Ok_inj in H; exact H|discriminate].
  - intros ->. apply Z.leb_le in HQ. rewrite HQ. reflexivity.
Qed.

Lemma pairs_total c gap eps de emax a b E : real_crystal c gap eps de emax a b -> gap - eps <= E -> E < gap + eps * (2 ^ 32 - 1) ->
  exists Q, (0 <= Q)%Z /\ Electron_Hole_Pairs (Fin E) c = Ok Q.
Proof.
  intros HR HE HE2. exists (Rfloor ((E - gap) / eps + 1)). rewrite (pairs_value c gap eps de emax a b) by auto.
  destruct HR as (_ & _ & _ & _ & _ & _ & _ & He & _). split.
  - apply Rfloor_nonneg. apply (Rmult_le_reg_r eps); [auto|]. replace (((E - gap) / eps + 1) * eps) with (E - gap + eps) by (field; lra). lra.
  - assert (Rfloor ((E - gap) / eps + 1) <= 2 ^ 32 - 1)%Z; [|apply Z.leb_le in H; rewrite H; reflexivity].
    assert (Rfloor ((E - gap) / eps + 1) < 2 ^ 32)%Z; [|lia]. apply lt_IZR. destruct (Rfloor_bounds ((E - gap) / eps + 1)) as [F _].
    eapply Rle_lt_trans; [exact F|]. apply (Rmult_lt_reg_r eps); [auto|]. replace (((E - gap) / eps + 1) * eps) with (E - gap + eps) by (field; lra).
    change (2 ^ 32)%Z with 4294967296%Z. lra.
Qed.

Lemma pairs_below c gap eps de emax a b E : real_crystal c gap eps de emax a b -> E < gap - eps -> Electron_Hole_Pairs (Fin E) c = UB.
Proof.
  intros (H1 & H2 & _ & _ & _ & _ & _ & He & _) HE. unfold Electron_Hole_Pairs. rewrite H1, H2, xsub_fin, xdiv_fin, xadd_fin by lra.
  cbn [xfloor]. unfold to_unsigned. rewrite double_to_int_IZR.
  assert (Rfloor ((E - gap) / eps + 1) < 0)%Z.
  { apply lt_IZR. destruct (Rfloor_bounds ((E - gap) / eps + 1)) as [F _]. eapply Rle_lt_trans; [exact F|].
    apply (Rmult_lt_reg_r eps); [auto|]. replace (((E - gap) / eps + 1) * eps) with (E - gap + eps) by (field; lra). lra. }
  destruct (0 <=? Rfloor ((E - gap) / eps + 1))%Z eqn:B; [apply Z.leb_le in B; lia|reflexivity].
Qed.

(** The constructor. *)
Lemma map_res_bounds {A B} (f : A -> res B) l : (forall x, In x l -> exists y, f x = Ok y) -> exists ys, map_res f l = Ok ys /\ Forall2 (fun x y => f x = Ok y) l ys.
Proof.
  induction l as [|x t IH]; intros H; [exists []; split; [reflexivity|constructor]|].
  destruct (H x) as [y Ey]; [left; reflexivity|]. destruct IH as [ys [E1 E2]]; [intros; apply H; right; auto|].
  exists (y :: ys). cbn [map_res]. rewrite Ey. cbn [bind]. rewrite E1. split; [reflexivity|]. constructor; auto.
Qed.

Lemma map_res_UB {A B} (f : A -> res B) l : (forall x, In x l -> f x = UB \/ exists y, f x = Ok y) -> (exists x, In x l /\ f x = UB) -> map_res f l = UB.
Proof.
  induction l as [|x t IH]; intros H [z [Hz Ez]]; [destruct Hz|]. cbn [map_res].
  destruct (H x) as [E | [y E]]; [left; reflexivity| |]; rewrite E; [reflexivity|]. cbn [bind].
  destruct Hz as [-> | Hz]; [congruence|]. rewrite IH; [reflexivity| |eauto]. intros; apply H; right; auto.
Qed.

Lemma entry_read aux p de qi Ei : match nth_error aux (Z.to_nat (900 * Z.of_nat Ei + Z.of_nat qi)) with
  | Some x => crystal_entry aux p de qi Ei = Ok (xmul (xdiv (xmul (xdiv (xmul p (Fin (INR qi + 1))) de) (xdiv (Fin 2.0) (Fin 137.0))) (Fin 4.0)) x)
  | None => crystal_entry aux p de qi Ei = UB end.
Proof.
  unfold crystal_entry, at_ubZ. destruct (900 * Z.of_nat Ei + Z.of_nat qi <? 0)%Z eqn:B; [apply Z.ltb_lt in B; lia|].
  destruct (nth_error aux _) as [x|] eqn:E.
  - assert (L : (Z.to_nat (900 * Z.of_nat Ei + Z.of_nat qi) < List.length aux)%nat) by (apply nth_error_Some; congruence).
    destruct (900 * Z.of_nat Ei + Z.of_nat qi <? Z.of_nat (List.length aux))%Z eqn:C; [|apply Z.ltb_ge in C; lia].
    unfold at_ub. rewrite E. reflexivity.
  - apply nth_error_None in E. destruct (900 * Z.of_nat Ei + Z.of_nat qi <? Z.of_nat (List.length aux))%Z eqn:C; [apply Z.ltb_lt in C; lia|reflexivity].
Qed.

(** Specification of the table: row qi, column Ei holds the scaled number 900 Ei + qi of the file. *)
Definition table_spec (aux : list xr) (p de : xr) (t : list (list xr)) : Prop :=
  Forall2 (fun qi row => Forall2 (fun Ei v => exists x, nth_error aux (Z.to_nat (900 * Z.of_nat Ei + Z.of_nat qi)) = Some x /\
    v = xmul (xdiv (xmul (xdiv (xmul p (Fin (INR qi + 1))) de) (xdiv (Fin 2.0) (Fin 137.0))) (Fin 4.0)) x) (seq 0 500) row) (seq 0 900) t.

Lemma Forall2_in_impl {A B} (R S : A -> B -> Prop) l m : (forall x y, In x l -> R x y -> S x y) -> Forall2 R l m -> Forall2 S l m.
Proof. intros H F. induction F; constructor; [apply H; [left; reflexivity|auto]|apply IHF; intros; apply H; [right|]; auto]. Qed.

Lemma table_ok aux p de : (900 * 500 <= Z.of_nat (List.length aux))%Z -> exists t, crystal_table aux p de = Ok t /\ table_spec aux p de t.
Proof.
  intros H. unfold crystal_table, table_spec.
  assert (HR : forall x, In x (seq 0 900) -> (x < 900)%nat) by (intros x X; apply in_seq in X; lia).
  assert (HC : forall x, In x (seq 0 500) -> (x < 500)%nat) by (intros x X; apply in_seq in X; lia).
  revert HR HC. generalize (seq 0 900). intros rows. generalize (seq 0 500). intros cols HR HC.
  assert (K : forall qi, In qi rows -> exists row, map_res (fun Ei => crystal_entry aux p de qi Ei) cols = Ok row /\
    Forall2 (fun Ei v => crystal_entry aux p de qi Ei = Ok v) cols row).
  { intros qi Hq. apply HR in Hq. apply map_res_bounds.
    intros Ei HE. apply HC in HE. pose proof (entry_read aux p de qi Ei) as X. destruct (nth_error aux _) as [x|] eqn:E; [eauto|].
    apply nth_error_None in E. lia. }
  destruct (map_res_bounds (fun qi => map_res (fun Ei => crystal_entry aux p de qi Ei) cols) rows) as [t [E1 E2]].
  - intros qi Hq. destruct (K qi Hq) as [row [R1 _]]. eauto.
  - exists t. split; [exact E1|]. apply (Forall2_in_impl (fun qi row => map_res (fun Ei => crystal_entry aux p de qi Ei) cols = Ok row)); [|exact E2].
    intros qi row Hq Er. destruct (K qi Hq) as [row' [R1 R2]]. assert (row' = row) by congruence. subst row'.
    eapply Forall2_in_impl; [|exact R2]. cbv beta. intros Ei v _ HE.
    pose proof (entry_read aux p de qi Ei) as X. destruct (nth_error aux _) as [x|] eqn:E; [|congruence]. exists x. split; [reflexivity|].
    rewrite X in HE. apply Ok_inj in HE. auto.
Qed.

Lemma table_short aux p de : (Z.of_nat (List.length aux) < 900 * 500)%Z -> crystal_table aux p de = UB.
Proof.
  intros H. unfold crystal_table.
  assert (HR : In 899%nat (seq 0 900)) by (apply in_seq; lia). assert (HC : In 499%nat (seq 0 500)) by (apply in_seq; lia).
  revert HR HC. generalize (seq 0 900). intros rows. generalize (seq 0 500). intros cols HR HC.
  assert (U : forall qi Ei, crystal_entry aux p de qi Ei = UB \/ exists y, crystal_entry aux p de qi Ei = Ok y).
  { intros qi Ei. pose proof (entry_read aux p de qi Ei) as X. destruct (nth_error aux _); eauto. }
  apply map_res_UB.
  - intros qi _. clear HR HC rows. induction cols as [|Ei t IH]; [right; eexists; reflexivity|]. cbn [map_res].
    destruct (U qi Ei) as [E | [y E]]; rewrite E; [left; reflexivity|]. cbn [bind]. destruct IH as [IH | [ys IH]]; rewrite IH; cbn [bind]; eauto.
  - exists 899%nat. split; [exact HR|]. apply map_res_UB; [auto|]. exists 499%nat. split; [exact HC|].
    pose proof (entry_read aux p de 899 499) as X. destruct (nth_error aux _) as [x|] eqn:E; [|exact X].
    assert (L : (Z.to_nat (900 * Z.of_nat 499 + Z.of_nat 899) < List.length aux)%nat) by (apply nth_error_Some; congruence). lia.
Qed.

Definition built_in (target : string) (gap eps : R) (Q : Z) : Prop :=
  (target = "Si"%string /\ gap = 1.11 * eV /\ eps = 3.6 * eV /\ Q = 14%Z) \/ (target = "Ge"%string /\ gap = 0.67 * eV /\ eps = 2.9 * eV /\ Q = 18%Z).

(** The nodes d, 2 d, ..., n d. *)
Definition grid (d : R) (n : nat) : list xr := map (fun i => Fin (INR (i + 1) * d)) (seq 0 n).
Lemma grid_Linear_Space d n : (2 <= n)%nat -> Linear_Space (Fin d) (Fin (INR n * d)) n = grid d n.
Proof.
  intros H. rewrite Linear_Space_fin by auto. rewrite map_map. apply map_ext. intros i. f_equal. rewrite minus_INR by lia. rewrite plus_INR. cbn [INR].
  assert (2 <= INR n). { change 2 with (INR 2). apply le_INR. auto. } field. lra.
Qed.

Lemma crystal_ctor_ok Import_List target gap eps Q aux :
  built_in target gap eps Q -> Import_List ("data/Semiconductors/C." ++ target ++ "137.dat")%string = Ok aux ->
  ((900 * 500 <= Z.of_nat (List.length aux))%Z ->
    exists c, Crystal_ctor Import_List target = Ok c /\ real_crystal c gap eps (0.1 * eV) (500 * (0.1 * eV)) (0.02 * aEM * mElectron) (900 * (0.02 * aEM * mElectron)) /\
      N_E c = 500%Z /\ N_q c = 900%Z /\ Q_max c = Q /\ Electron_Hole_Pairs (E_max c) c = Ok Q /\
      M_cell c = Fin (2 * (if String.eqb target "Si" then 28.08 else 72.6) * mNucleon) /\
      t2_x (form_factor_table c) = grid (0.02 * aEM * mElectron) 900 /\ t2_y (form_factor_table c) = grid (0.1 * eV) 500 /\
      table_spec aux (Fin ((if String.eqb target "Si" then 2 else 1.8) * eV)) (dE c) (t2_f (form_factor_table c))) /\
  ((Z.of_nat (List.length aux) < 900 * 500)%Z -> Crystal_ctor Import_List target = UB).
Proof.
  intros HB HA.
  assert (ha := aEM_pos). assert (hm := mElectron_pos). assert (hp : 0 < aEM * mElectron) by (apply Rmult_lt_0_compat; auto).
  set (M := Fin (2 * (if String.eqb target "Si" then 28.08 else 72.6) * mNucleon)). set (p := Fin ((if String.eqb target "Si" then 2 else 1.8) * eV)).
  assert (KC : crystal_constants target = Ok (Fin gap, Fin eps, M, p)).
  { unfold M, p. destruct HB as [(-> & -> & -> & _) | (-> & -> & -> & _)]; unfold crystal_constants; cbn [String.eqb Ascii.eqb eqb]; rewrite ?xmul_fin;
      replace 2.0 with 2 by lra; reflexivity. }
  assert (PE : 0 < gap /\ 0 < eps /\ gap - eps <= 500 * (0.1 * eV)).
  { assert (h := eV_pos). destruct HB as [(_ & -> & -> & _) | (_ & -> & -> & _)]; lra. }
  assert (FL : Rfloor ((500 * (0.1 * eV) - gap) / eps + 1) = Q /\ (0 <= Q <= 2 ^ 32 - 1)%Z).
  { split; [|destruct HB as [(_ & _ & _ & ->) | (_ & _ & _ & ->)]; lia]. apply pairs_iff; [apply PE|]. unfold Emin_R. rewrite plus_IZR.
    assert (h := eV_pos). destruct HB as [(_ & -> & -> & ->) | (_ & -> & -> & ->)]; lra. }
  assert (KQ : to_unsigned (xfloor (xdiv (xadd (xsub (xmul (Fin 500) (xmul (Fin 0.1) (Fin eV))) (Fin gap)) (Fin eps)) (Fin eps))) = Ok Q).
  { rewrite !xmul_fin, xsub_fin, xadd_fin, xdiv_fin by lra. cbn [xfloor]. unfold to_unsigned. rewrite double_to_int_IZR.
    replace ((500 * (0.1 * eV) - gap + eps) / eps) with ((500 * (0.1 * eV) - gap) / eps + 1) by (field; lra). destruct FL as [-> B].
    destruct (0 <=? Q)%Z eqn:B1; [|apply Z.leb_gt in B1; lia]. destruct (Q <=? 2 ^ 32 - 1)%Z eqn:B2; [reflexivity|apply Z.leb_gt in B2; lia]. }
  split; intros HL.
  - destruct (table_ok aux p (xmul (Fin 0.1) (Fin eV)) HL) as [t [T1 T2]].
    assert (X : Crystal_ctor Import_List target = Ok (mkCrystal
        (mkTable2 (Linear_Space (Fin (0.02 * aEM * mElectron)) (Fin (900 * (0.02 * aEM * mElectron))) 900)
                  (Linear_Space (Fin (0.1 * eV)) (Fin (500 * (0.1 * eV))) 500) t) 500 900 target (Fin (0.1 * eV))
        (Fin (0.02 * aEM * mElectron)) (Fin (500 * (0.1 * eV))) (Fin (900 * (0.02 * aEM * mElectron))) M (Fin gap) (Fin eps) Q)).
    { unfold Crystal_ctor. rewrite KC. cbn [bind]. rewrite KQ. cbn [bind]. rewrite HA. cbn [bind]. rewrite T1. cbn [bind]. reflexivity. }
    rewrite X. eexists. split; [reflexivity|]. cbn [N_E N_q Q_max form_factor_table E_max dE t2_x t2_y t2_f M_cell].
    match goal with |- real_crystal ?c _ _ _ _ _ _ /\ _ => set (cr := c) end.
    assert (RC : real_crystal cr gap eps (0.1 * eV) (500 * (0.1 * eV)) (0.02 * aEM * mElectron) (900 * (0.02 * aEM * mElectron))).
    { unfold real_crystal, cr. cbn [energy_gap epsilon dE E_max dq cr_q_max]. assert (h := eV_pos). repeat split; lra. }
    split; [exact RC|]. split; [reflexivity|]. split; [reflexivity|]. split; [reflexivity|]. split.
    { rewrite (pairs_value cr gap eps _ _ _ _ (500 * (0.1 * eV)) RC) by apply PE. destruct FL as [-> B]. destruct (Q <=? 2 ^ 32 - 1)%Z eqn:B2; [reflexivity|apply Z.leb_gt in B2; lia]. }
    split; [reflexivity|]. split; [|split; [|exact T2]].
    - rewrite <- grid_Linear_Space by lia. do 3 f_equal. rewrite (INR_IZR_INZ 900). reflexivity.
    - rewrite <- grid_Linear_Space by lia. do 3 f_equal. rewrite (INR_IZR_INZ 500). reflexivity.
  - unfold Crystal_ctor. rewrite KC. cbn [bind]. rewrite KQ. cbn [bind]. rewrite HA. cbn [bind]. rewrite table_short by exact HL. reflexivity.
Qed.

Lemma crystal_ctor_unknown Import_List target : target <> "Si"%string -> target <> "Ge"%string -> Crystal_ctor Import_List target = Exit.
Proof. intros H1 H2. apply String.eqb_neq in H1, H2. unfold Crystal_ctor, crystal_constants. rewrite H1, H2. reflexivity. Qed.

Lemma largest_pairs Import_List target c : Crystal_ctor Import_List target = Ok c ->
  Electron_Hole_Pairs (E_max c) c = Ok (Q_max c) /\ exists gap eps, built_in target gap eps (Q_max c).
Proof.
  intros H.
  assert (B : exists gap eps Q, built_in target gap eps Q).
  { unfold built_in. destruct (String.eqb target "Si") eqn:S1; [apply String.eqb_eq in S1; subst; do 3 eexists; left; repeat split; reflexivity|].
    destruct (String.eqb target "Ge") eqn:S2; [apply String.eqb_eq in S2; subst; do 3 eexists; right; repeat split; reflexivity|].
    apply String.eqb_neq in S1, S2. rewrite crystal_ctor_unknown in H by auto. discriminate. }
  destruct B as [gap [eps [Q B]]].
  destruct (Import_List ("data/Semiconductors/C." ++ target ++ "137.dat")%string) as [aux| | |] eqn:A.
  - destruct (crystal_ctor_ok Import_List target gap eps Q aux B A) as [K1 K2].
    destruct (Z_lt_le_dec (Z.of_nat (List.length aux)) (900 * 500)) as [L | L]; [rewrite K2 in H by auto; discriminate|].
    destruct (K1 L) as [c' [E1 [_ [_ [_ [E2 [E3 _]]]]]]]. rewrite H in E1. apply Ok_inj in E1. subst c'. rewrite E2. split; [exact E3|eauto].
  - exfalso. clear B. unfold Crystal_ctor in H. rewrite A in H. destruct (crystal_constants target) as [[[[g e] m] p]| | |]; cbn [bind] in H; try discriminate.
    destruct (to_unsigned _); cbn [bind] in H; discriminate.
  - exfalso. clear B. unfold Crystal_ctor in H. rewrite A in H. destruct (crystal_constants target) as [[[[g e] m] p]| | |]; cbn [bind] in H; try discriminate.
    destruct (to_unsigned _); cbn [bind] in H; discriminate.
  - exfalso. clear B. unfold Crystal_ctor in H. rewrite A in H. destruct (crystal_constants target) as [[[[g e] m] p]| | |]; cbn [bind] in H; try discriminate.
    destruct (to_unsigned _); cbn [bind] in H; discriminate.
Qed.

(** Lookups. *)
Definition outside (emin emax a b q E : R) : Prop := q < a \/ b < q \/ E < emin \/ emax < E.

Lemma lookup_spec I2 c gap eps de emax a b w q E : real_crystal c gap eps de emax a b ->
  (outside de emax a b q E -> exists w' p, Crystal_Form_Factor I2 c w (Fin q) (Fin E) = Ok (Fin 0, w', p)) /\
  (~ outside de emax a b q E -> Crystal_Form_Factor I2 c w (Fin q) (Fin E) = let* f := I2 (form_factor_table c) (Fin q) (Fin E) in Ok (f, w, false)).
Proof.
  intros (H1 & H2 & H3 & H4 & H5 & H6 & _). unfold Crystal_Form_Factor, outside. rewrite H3, H4, H5, H6. split; intros H.
  - destruct (xlt (Fin q) (Fin a) || xlt (Fin b) (Fin q) || xlt (Fin E) (Fin de) || xlt (Fin emax) (Fin E))%bool eqn:B; [do 2 eexists; reflexivity|].
    exfalso. apply orb_false_iff in B as [B B4]. apply orb_false_iff in B as [B B3]. apply orb_false_iff in B as [B1 B2].
    destruct H as [H | [H | [H | H]]]; rewrite xlt_true in * by exact H; discriminate.
  - rewrite !xlt_false by (apply Rnot_lt_le; tauto). reflexivity.
Qed.

Lemma lookup_domain I2 J2 c gap eps de emax a b w q E : real_crystal c gap eps de emax a b ->
  (forall t x y, a <= x <= b -> de <= y <= emax -> I2 t (Fin x) (Fin y) = J2 t (Fin x) (Fin y)) ->
  Crystal_Form_Factor I2 c w (Fin q) (Fin E) = Crystal_Form_Factor J2 c w (Fin q) (Fin E).
Proof.
  intros HR HA. destruct HR as (H1 & H2 & H3 & H4 & H5 & H6 & _). unfold Crystal_Form_Factor. rewrite H3, H4, H5, H6.
  destruct (xlt (Fin q) (Fin a) || xlt (Fin b) (Fin q) || xlt (Fin E) (Fin de) || xlt (Fin emax) (Fin E))%bool eqn:B; [reflexivity|].
  apply orb_false_iff in B as [B B4]. apply orb_false_iff in B as [B B3]. apply orb_false_iff in B as [B1 B2].
  rewrite HA; [reflexivity| |]; split; apply Rnot_lt_le; intros X; apply xlt_true in X; congruence.
Qed.

(** Histories of lookups share one flag. *)
Fixpoint lookups (I2 : interpolator2) (w : bool) (cs : list (Crystal * xr * xr)) : res (list (xr * bool)) :=
  match cs with
  | [] => Ok []
  | (c, q, E) :: t =>
      let* x := Crystal_Form_Factor I2 c w q E in
      let* rest := lookups I2 (snd (fst x)) t in
      Ok ((fst (fst x), snd x) :: rest)
  end.

Lemma lookup_flag I2 c w q E x w' p : Crystal_Form_Factor I2 c w q E = Ok (x, w', p) -> w' = (w || p)%bool /\ (w = true -> p = false) /\
  (forall v, exists v' p', Crystal_Form_Factor I2 c v q E = Ok (x, v', p')).
Proof.
  unfold Crystal_Form_Factor. destruct (xlt q (dq c) || _ || _ || _)%bool.
  - intros H. apply Ok_inj in H. injection H as <- <- <-. split; [reflexivity|]. split; [intros ->; reflexivity|]. intros v. do 2 eexists; reflexivity.
  - destruct (I2 _ _ _); cbn [bind]; try discriminate. intros H. apply Ok_inj in H. injection H as <- <- <-. rewrite orb_false_r. split; [reflexivity|]. split; [auto|].
    intros v. do 2 eexists; reflexivity.
Qed.

Lemma lookups_warn_once I2 cs : forall w out, lookups I2 w cs = Ok out -> (count_occ bool_dec (map snd out) true <= if w then 0 else 1)%nat.
Proof.
  induction cs as [|[[c q] E] t IH]; intros w out H; cbn [lookups] in H; [apply Ok_inj in H; subst; cbn; lia|].
  destruct (Crystal_Form_Factor I2 c w q E) as [[[x w'] p]| | |] eqn:A; cbn [bind fst snd] in H; try discriminate.
  destruct (lookups I2 w' t) as [rest| | |] eqn:R; cbn [bind] in H; try discriminate. apply Ok_inj in H. subst out. cbn [map snd].
  destruct (lookup_flag _ _ _ _ _ _ _ _ A) as [-> [P _]]. specialize (IH _ _ R). cbn [count_occ].
  destruct p; destruct w; cbn [orb] in IH; try (specialize (P eq_refl); discriminate); destruct (bool_dec _ true); try discriminate; try congruence; lia.
Qed.

(** Sums with special values: addition of doubles is associative, with neutral element 0. *)
Lemma xadd_assoc a b c : xadd (xadd a b) c = xadd a (xadd b c).
Proof. destruct a, b, c; cbn; try reflexivity. f_equal; lra. Qed.
Lemma xadd_0_l a : xadd (Fin 0) a = a.
Proof. destruct a; cbn; try reflexivity. f_equal; lra. Qed.
Lemma xadd_0_r a : xadd a (Fin 0) = a.
Proof. destruct a; cbn; try reflexivity. f_equal; lra. Qed.

Lemma total_app I DM D c l1 : forall s l2, R_total_loop I DM D c s (l1 ++ l2) = let* r := R_total_loop I DM D c s l1 in R_total_loop I DM D c r l2.
Proof.
  induction l1 as [|i t IH]; intros s l2; cbn [R_total_loop app bind]; [reflexivity|].
  destruct (dRdEe_Crystal _ _ _ _ _); cbn [bind]; try reflexivity. apply IH.
Qed.
Lemma total_acc I DM D c l : forall s, R_total_loop I DM D c s l = let* r := R_total_loop I DM D c (Fin 0) l in Ok (xadd s r).
Proof.
  induction l as [|i t IH]; intros s; cbn [R_total_loop]; [cbn [bind]; rewrite xadd_0_r; reflexivity|].
  destruct (dRdEe_Crystal _ _ _ _ _) as [r| | |]; cbn [bind]; try reflexivity. rewrite (IH (xadd s _)), (IH (xadd (Fin 0) _)).
  destruct (R_total_loop I DM D c (Fin 0) t); cbn [bind]; try reflexivity. rewrite xadd_0_l, xadd_assoc. reflexivity.
Qed.
Lemma Q_loop_prefix I Emax DM D c l1 l2 : (forall i, In i l1 -> xlt Emax (xmul (Fin (IZR (i + 1))) (dE c)) = false) ->
  (match l2 with [] => True | i :: _ => xlt Emax (xmul (Fin (IZR (i + 1))) (dE c)) = true end) ->
  forall s, R_Q_loop I Emax DM D c s (l1 ++ l2) = R_total_loop I DM D c s l1.
Proof.
  induction l1 as [|i t IH]; intros H1 H2 s; cbn [app R_Q_loop R_total_loop].
  - destruct l2 as [|j u]; cbn [R_Q_loop]; [reflexivity|]. rewrite H2. reflexivity.
  - rewrite (H1 i) by (left; reflexivity). destruct (dRdEe_Crystal _ _ _ _ _); cbn [bind]; try reflexivity. apply IH; auto. intros; apply H1; right; auto.
Qed.

Lemma Zrange_In lo hi i : In i (Zrange lo hi) <-> (lo <= i < hi)%Z.
Proof.
  unfold Zrange. rewrite in_map_iff. split.
  - intros [k [<- H]]. apply in_seq in H. lia.
  - intros H. exists (Z.to_nat (i - lo)). split; [lia|]. apply in_seq. lia.
Qed.
Lemma Zrange_split lo mid hi : (lo <= mid <= hi)%Z -> Zrange lo hi = Zrange lo mid ++ Zrange mid hi.
Proof.
  intros H. unfold Zrange. replace (Z.to_nat (hi - lo)) with (Z.to_nat (mid - lo) + Z.to_nat (hi - mid))%nat by lia.
  rewrite seq_app, map_app. f_equal. rewrite <- (Nat.add_0_r (0 + Z.to_nat (mid - lo))).
  generalize (Z.to_nat (hi - mid)). intros n. clear -H. generalize 0%nat at 2 3. induction n; intros k; cbn [seq map]; [reflexivity|].
  f_equal; [lia|]. rewrite <- IHn. do 2 f_equal. lia.
Qed.
Lemma Zrange_empty lo hi : (hi <= lo)%Z -> Zrange lo hi = [].
Proof. intros H. unfold Zrange. replace (Z.to_nat (hi - lo)) with 0%nat by lia. reflexivity. Qed.
Lemma Zrange_head lo hi : (lo < hi)%Z -> exists t, Zrange lo hi = lo :: t.
Proof. intros H. unfold Zrange. destruct (Z.to_nat (hi - lo)) eqn:E; [lia|]. cbn [seq map]. eexists. f_equal. lia. Qed.

Lemma start_index c gap eps de emax a b Q : real_crystal c gap eps de emax a b -> (0 <= Q)%Z -> Emin_R gap eps Q / de < 2 ^ 31 ->
  to_int (xdiv (Minimum_Electron_Energy Q c) (dE c)) = (if (- 2 ^ 31 <=? Rtrunc (Emin_R gap eps Q / de))%Z then Ok (Rtrunc (Emin_R gap eps Q / de)) else UB).
Proof.
  intros HR HQ HB. rewrite (Emin_fin c gap eps de emax a b) by auto. destruct HR as (_ & _ & H3 & _ & _ & _ & Hg & He & Hd & _).
  rewrite H3, xdiv_fin by lra. unfold to_int, double_to_int.
  assert (Rtrunc (Emin_R gap eps Q / de) <= 2 ^ 31 - 1)%Z; [|apply Z.leb_le in H; rewrite H, andb_true_r; reflexivity].
  unfold Rtrunc. destruct (Rlt_dec _ 0) as [L|L].
  - assert (0 <= Rfloor (- (Emin_R gap eps Q / de)))%Z by (apply Rfloor_nonneg; lra). lia.
  - destruct (Rfloor_bounds (Emin_R gap eps Q / de)) as [F _]. assert (Rfloor (Emin_R gap eps Q / de) < 2 ^ 31)%Z; [|lia].
    apply lt_IZR. change (2 ^ 31)%Z with 2147483648%Z. lra.
Qed.

Lemma Emin_mono gap eps Q P : 0 < eps -> (Q <= P)%Z -> Emin_R gap eps Q <= Emin_R gap eps P.
Proof. intros He H. unfold Emin_R. apply IZR_le in H. nra. Qed.
Lemma Emin_pos gap eps Q : 0 < gap -> 0 < eps -> (1 <= Q)%Z -> 0 < Emin_R gap eps Q.
Proof. intros Hg He H. unfold Emin_R. apply IZR_le in H. nra. Qed.

Lemma partition_step I DM D c gap eps de emax a b Q : real_crystal c gap eps de emax a b -> (0 <= Q)%Z -> Emin_R gap eps (Q + 1) / de < 2 ^ 31 ->
  R_total_Crystal I Q DM D c = let* r := R_Q_Crystal I Q DM D c in let* t := R_total_Crystal I (Q + 1) DM D c in Ok (xadd r t).
Proof.
  intros HR HQ HB. assert (HR' := HR). destruct HR' as (_ & _ & H3 & _ & _ & _ & Hg & He & Hd & _).
  assert (M : Emin_R gap eps Q <= Emin_R gap eps (Q + 1)) by (apply Emin_mono; [auto|lia]).
  assert (P : 0 < Emin_R gap eps (Q + 1)) by (apply Emin_pos; auto; lia).
  assert (M' : Emin_R gap eps Q / de <= Emin_R gap eps (Q + 1) / de) by (apply Rmult_le_compat_r; [left; apply Rinv_0_lt_compat; auto|auto]).
  assert (P' : 0 < Emin_R gap eps (Q + 1) / de) by (apply Rdiv_lt_0_compat; auto).
  unfold R_total_Crystal, R_Q_Crystal. rewrite (start_index c gap eps de emax a b Q), (start_index c gap eps de emax a b (Q + 1)) by (auto; try lia; lra).
  rewrite (Emin_fin c gap eps de emax a b (Q + 1)) by auto.
  set (s1 := Rtrunc (Emin_R gap eps Q / de)). assert (E2 : Rtrunc (Emin_R gap eps (Q + 1) / de) = Rfloor (Emin_R gap eps (Q + 1) / de)) by (apply Rtrunc_nonneg; lra).
  rewrite E2. set (s2 := Rfloor (Emin_R gap eps (Q + 1) / de)).
  destruct (- 2 ^ 31 <=? s1)%Z; cbn [bind]; [|reflexivity].
  assert (0 <= s2)%Z by (apply Rfloor_nonneg; lra). destruct (- 2 ^ 31 <=? s2)%Z eqn:B2; [|apply Z.leb_gt in B2; lia]. cbn [bind].
  assert (S12 : (s1 <= s2)%Z) by (apply Rtrunc_le_floor_pos; lra).
  replace 0.0 with 0 by lra.
  assert (BR : forall i, xlt (Fin (Emin_R gap eps (Q + 1))) (xmul (Fin (IZR (i + 1))) (dE c)) = negb (i <? s2)%Z).
  { intros i. rewrite H3, xmul_fin. destruct (Rfloor_bounds (Emin_R gap eps (Q + 1) / de)) as [F1 F2]. fold s2 in F1, F2.
    assert (T : Emin_R gap eps (Q + 1) = Emin_R gap eps (Q + 1) / de * de) by (field; lra).
    destruct (i <? s2)%Z eqn:B; cbn [negb].
    - apply Z.ltb_lt in B. apply xlt_false. rewrite T. apply Rmult_le_compat_r; [lra|]. assert (IZR (i + 1) <= IZR s2) by (apply IZR_le; lia). lra.
    - apply Z.ltb_ge in B. apply xlt_true. rewrite T. apply Rmult_lt_compat_r; [lra|]. assert (IZR s2 + 1 <= IZR (i + 1)) by (rewrite <- plus_IZR; apply IZR_le; lia). lra. }
  destruct (Z_le_gt_dec (N_E c) s2) as [L | L].
  - (* everything is in bin Q *)
    rewrite (Zrange_empty s2) by lia. rewrite <- (app_nil_r (Zrange s1 (N_E c))) at 2. rewrite (Q_loop_prefix I _ DM D c (Zrange s1 (N_E c)) []).
    + destruct (R_total_loop I DM D c (Fin 0) (Zrange s1 (N_E c))); cbn [bind R_total_loop]; try reflexivity. rewrite xadd_0_r. reflexivity.
    + intros i Hi. apply Zrange_In in Hi. rewrite BR. destruct (i <? s2)%Z eqn:X; [reflexivity|apply Z.ltb_ge in X; lia].
    + exact Logic.I.
  - rewrite (Zrange_split s1 s2 (N_E c)) by lia. rewrite Q_loop_prefix.
    + rewrite total_app. destruct (R_total_loop I DM D c (Fin 0) (Zrange s1 s2)); cbn [bind]; try reflexivity. apply total_acc.
    + intros i Hi. apply Zrange_In in Hi. rewrite BR. destruct (i <? s2)%Z eqn:X; [reflexivity|apply Z.ltb_ge in X; lia].
    + destruct (Zrange_head s2 (N_E c)) as [t ->]; [lia|]. rewrite BR, Z.ltb_irrefl. reflexivity.
Qed.

(** The sum over n consecutive bins. *)
Fixpoint bins_total (I : integrator) (Q : Z) (n : nat) (DM : DM_interface) (D : Distr_interface) (c : Crystal) : res xr :=
  match n with
  | O => Ok (Fin 0)
  | S k => let* r := R_Q_Crystal I Q DM D c in let* t := bins_total I (Q + 1) k DM D c in Ok (xadd r t)
  end.

Lemma partition_bins I DM D c gap eps de emax a b n : forall Q, real_crystal c gap eps de emax a b -> (0 <= Q)%Z -> Emin_R gap eps (Q + Z.of_nat n) / de < 2 ^ 31 ->
  R_total_Crystal I Q DM D c = let* r := bins_total I Q n DM D c in let* t := R_total_Crystal I (Q + Z.of_nat n) DM D c in Ok (xadd r t).
Proof.
  induction n as [|n IH]; intros Q HR HQ HB.
  - cbn [bins_total bind]. rewrite Z.add_0_r. destruct (R_total_Crystal I Q DM D c); cbn [bind]; try reflexivity. rewrite xadd_0_l. reflexivity.
  - assert (HR' := HR). destruct HR' as (_ & _ & H3 & _ & _ & _ & Hg & He & Hd & _).
    rewrite (partition_step I DM D c gap eps de emax a b Q HR HQ).
    2: { eapply Rle_lt_trans; [|exact HB]. apply Rmult_le_compat_r; [left; apply Rinv_0_lt_compat; auto|]. apply Emin_mono; [auto|lia]. }
    cbn [bins_total]. destruct (R_Q_Crystal I Q DM D c) as [r| | |]; cbn [bind]; try reflexivity.
    rewrite (IH (Q + 1)%Z) by (auto; try lia; replace (Q + 1 + Z.of_nat n)%Z with (Q + Z.of_nat (S n))%Z by lia; exact HB).
    replace (Q + 1 + Z.of_nat n)%Z with (Q + Z.of_nat (S n))%Z by lia.
    destruct (bins_total I (Q + 1) n DM D c); cbn [bind]; try reflexivity. destruct (R_total_Crystal I (Q + Z.of_nat (S n)) DM D c); cbn [bind]; try reflexivity.
    rewrite xadd_assoc. reflexivity.
Qed.

(** Nothing is left above the largest pair number of a built-in crystal. *)
Lemma nothing_above I DM D c target gap eps a b : built_in target gap eps (Q_max c) -> real_crystal c gap eps (0.1 * eV) (500 * (0.1 * eV)) a b -> N_E c = 500%Z ->
  R_total_Crystal I (Q_max c + 1) DM D c = Ok (Fin 0).
Proof.
  intros HB HR HN. unfold R_total_Crystal. assert (h := eV_pos).
  assert (X : 500 < Emin_R gap eps (Q_max c + 1) / (0.1 * eV) < 600).
  { unfold Emin_R. destruct HB as [(_ & -> & -> & ->) | (_ & -> & -> & ->)]; rewrite plus_IZR.
    - replace ((1.11 * eV + 3.6 * eV * (14 + 1 - 1)) / (0.1 * eV)) with ((1.11 + 3.6 * 14) / 0.1) by (field; lra). lra.
    - replace ((0.67 * eV + 2.9 * eV * (18 + 1 - 1)) / (0.1 * eV)) with ((0.67 + 2.9 * 18) / 0.1) by (field; lra). lra. }
  rewrite (start_index c gap eps (0.1 * eV) (500 * (0.1 * eV)) a b); [|auto|destruct HB as [(_ & _ & _ & ->) | (_ & _ & _ & ->)]; lia|lra].
  rewrite Rtrunc_nonneg by lra. assert (500 <= Rfloor (Emin_R gap eps (Q_max c + 1) / (0.1 * eV)))%Z. { rewrite <- (Rfloor_IZR 500). apply Rfloor_mono. lra. }
  destruct (- 2 ^ 31 <=? _)%Z eqn:B; [|apply Z.leb_gt in B; lia]. cbn [bind]. rewrite Zrange_empty by lia. cbn [R_total_loop]. f_equal. f_equal. lra.
Qed.

(** Specification of the rate in bin Q: the energies of the grid dE, 2 dE, ... N_E dE with lo < E <= hi, in order. *)
Definition grid_energies (de : R) (N : Z) (P : R -> bool) : list R := filter P (map (fun i => IZR (i + 1) * de) (Zrange 0 N)).
Fixpoint rate_sum (I : integrator) (DM : DM_interface) (D : Distr_interface) (c : Crystal) (l : list R) : res xr :=
  match l with
  | [] => Ok (Fin 0)
  | E :: t => let* r := dRdEe_Crystal I (Fin E) DM D c in let* rest := rate_sum I DM D c t in Ok (xadd (xmul (dE c) r) rest)
  end.
Definition between (lo hi E : R) : bool := if Rlt_dec lo E then if Rle_dec E hi then true else false else false.

Lemma total_rate_sum I DM D c de l : dE c = Fin de -> R_total_loop I DM D c (Fin 0) l = rate_sum I DM D c (map (fun i => IZR (i + 1) * de) l).
Proof.
  intros H. induction l as [|i t IH]; cbn [R_total_loop map rate_sum]; [reflexivity|]. rewrite H, xmul_fin.
  destruct (dRdEe_Crystal _ _ _ _ _); cbn [bind]; try reflexivity. rewrite total_acc, IH. destruct (rate_sum _ _ _ _ _); cbn [bind]; try reflexivity.
  rewrite xadd_0_l. reflexivity.
Qed.

Lemma filter_all {A} (P : A -> bool) l : (forall x, In x l -> P x = true) -> filter P l = l.
Proof. induction l as [|x t IH]; intros H; cbn [filter]; [reflexivity|]. rewrite H by (left; reflexivity). f_equal. apply IH. intros; apply H; right; auto. Qed.
Lemma filter_none {A} (P : A -> bool) l : (forall x, In x l -> P x = false) -> filter P l = [].
Proof. induction l as [|x t IH]; intros H; cbn [filter]; [reflexivity|]. rewrite H by (left; reflexivity). apply IH. intros; apply H; right; auto. Qed.

Lemma grid_between de N lo hi : 0 < de -> 0 <= lo -> lo <= hi ->
  grid_energies de N (between lo hi) = map (fun i => IZR (i + 1) * de) (Zrange (Rfloor (lo / de)) (Z.min (Rfloor (hi / de)) N)).
Proof.
  intros Hd Hlo Hhi. unfold grid_energies. set (s1 := Rfloor (lo / de)). set (s2 := Rfloor (hi / de)).
  assert (L' : lo / de <= hi / de) by (apply Rmult_le_compat_r; [left; apply Rinv_0_lt_compat; auto|auto]).
  assert (0 <= lo / de) by (apply Rmult_le_pos; [auto|left; apply Rinv_0_lt_compat; auto]).
  assert (A : (0 <= s1)%Z) by (apply Rfloor_nonneg; auto). assert (B : (s1 <= s2)%Z) by (apply Rfloor_mono; auto).
  assert (K : forall x i, Rfloor (x / de) = i -> forall j, x < IZR (j + 1) * de <-> (i <= j)%Z).
  { intros x i Hi j. apply Rfloor_spec in Hi. assert (T : x = x / de * de) by (field; lra). split; intros X.
    - rewrite T in X. apply Rmult_lt_reg_r in X; [|auto]. assert (IZR i < IZR (j + 1)) by lra. apply lt_IZR in H0. lia.
    - rewrite T. apply Rmult_lt_compat_r; [auto|]. assert (IZR i + 1 <= IZR (j + 1)) by (rewrite <- plus_IZR; apply IZR_le; lia). lra. }
  assert (Kb : forall j, between lo hi (IZR (j + 1) * de) = ((s1 <=? j) && (j <? s2))%Z).
  { intros j. unfold between. destruct (Rlt_dec lo (IZR (j + 1) * de)) as [X | X].
    - apply (K lo s1 eq_refl) in X. apply Z.leb_le in X. rewrite X. cbn [andb]. destruct (Rle_dec (IZR (j + 1) * de) hi) as [Y | Y].
      + symmetry. apply Z.ltb_lt. destruct (Z_lt_le_dec j s2) as [|C]; [auto|]. apply (K hi s2 eq_refl) in C. lra.
      + symmetry. apply Z.ltb_ge. apply (K hi s2 eq_refl). lra.
    - destruct (s1 <=? j)%Z eqn:C; [|reflexivity]. apply Z.leb_le in C. apply (K lo s1 eq_refl) in C. lra. }
  destruct (Z_le_gt_dec N 0) as [N0 | N0].
  { rewrite !Zrange_empty by lia. reflexivity. }
  destruct (Z_le_gt_dec N s1) as [N1 | N1].
  { rewrite (Zrange_empty s1) by lia. apply filter_none. intros x Hx. apply in_map_iff in Hx. destruct Hx as [j [<- Hj]]. apply Zrange_In in Hj. rewrite Kb.
    destruct (s1 <=? j)%Z eqn:C; [apply Z.leb_le in C; lia|reflexivity]. }
  rewrite (Zrange_split 0 s1 N) by lia. rewrite (Zrange_split s1 (Z.min s2 N) N) by lia. rewrite !map_app, !filter_app.
  rewrite filter_none, (filter_all _ (map _ (Zrange s1 (Z.min s2 N)))), filter_none.
  - rewrite app_nil_r. reflexivity.
  - intros x Hx. apply in_map_iff in Hx. destruct Hx as [j [<- Hj]]. apply Zrange_In in Hj. rewrite Kb. destruct (j <? s2)%Z eqn:C; [apply Z.ltb_lt in C; lia|apply andb_false_r].
  - intros x Hx. apply in_map_iff in Hx. destruct Hx as [j [<- Hj]]. apply Zrange_In in Hj. rewrite Kb. apply andb_true_intro. split; [apply Z.leb_le; lia|apply Z.ltb_lt; lia].
  - intros x Hx. apply in_map_iff in Hx. destruct Hx as [j [<- Hj]]. apply Zrange_In in Hj. rewrite Kb. destruct (s1 <=? j)%Z eqn:C; [apply Z.leb_le in C; lia|reflexivity].
Qed.

Lemma bin_content I DM D c gap eps de emax a b Q : real_crystal c gap eps de emax a b -> (1 <= Q)%Z -> Emin_R gap eps Q / de < 2 ^ 31 ->
  R_Q_Crystal I Q DM D c = rate_sum I DM D c (grid_energies de (N_E c) (between (Emin_R gap eps Q) (Emin_R gap eps (Q + 1)))).
Proof.
  intros HR HQ HB. assert (HR' := HR). destruct HR' as (_ & _ & H3 & _ & _ & _ & Hg & He & Hd & _).
  assert (M : Emin_R gap eps Q <= Emin_R gap eps (Q + 1)) by (apply Emin_mono; [auto|lia]).
  assert (P : 0 < Emin_R gap eps Q) by (apply Emin_pos; auto; lia).
  assert (P' : 0 < Emin_R gap eps Q / de) by (apply Rdiv_lt_0_compat; auto).
  assert (M' : Emin_R gap eps Q / de <= Emin_R gap eps (Q + 1) / de) by (apply Rmult_le_compat_r; [left; apply Rinv_0_lt_compat; auto|auto]).
  rewrite grid_between by lra. rewrite <- (total_rate_sum I DM D c de) by auto.
  unfold R_Q_Crystal. rewrite (start_index c gap eps de emax a b Q) by (auto; try lia; lra). rewrite (Emin_fin c gap eps de emax a b (Q + 1)) by auto.
  rewrite Rtrunc_nonneg by lra. set (s1 := Rfloor (Emin_R gap eps Q / de)). set (s2 := Rfloor (Emin_R gap eps (Q + 1) / de)).
  assert (A : (0 <= s1)%Z) by (apply Rfloor_nonneg; lra). assert (B : (s1 <= s2)%Z) by (apply Rfloor_mono; auto).
  destruct (- 2 ^ 31 <=? s1)%Z eqn:B1; [|apply Z.leb_gt in B1; lia]. cbn [bind]. replace 0.0 with 0 by lra.
  assert (BR : forall i, xlt (Fin (Emin_R gap eps (Q + 1))) (xmul (Fin (IZR (i + 1))) (dE c)) = negb (i <? s2)%Z).
  { intros i. rewrite H3, xmul_fin. destruct (Rfloor_bounds (Emin_R gap eps (Q + 1) / de)) as [F1 F2]. fold s2 in F1, F2.
    assert (T : Emin_R gap eps (Q + 1) = Emin_R gap eps (Q + 1) / de * de) by (field; lra).
    destruct (i <? s2)%Z eqn:C; cbn [negb].
    - apply Z.ltb_lt in C. apply xlt_false. rewrite T. apply Rmult_le_compat_r; [lra|]. assert (IZR (i + 1) <= IZR s2) by (apply IZR_le; lia). lra.
    - apply Z.ltb_ge in C. apply xlt_true. rewrite T. apply Rmult_lt_compat_r; [lra|]. assert (IZR s2 + 1 <= IZR (i + 1)) by (rewrite <- plus_IZR; apply IZR_le; lia). lra. }
  destruct (Z_le_gt_dec (N_E c) s1) as [L1 | L1].
  { rewrite !Zrange_empty by lia. reflexivity. }
  rewrite (Zrange_split s1 (Z.min s2 (N_E c)) (N_E c)) by lia. apply Q_loop_prefix.
  - intros i Hi. apply Zrange_In in Hi. rewrite BR. destruct (i <? s2)%Z eqn:X; [reflexivity|apply Z.ltb_ge in X; lia].
  - destruct (Z_le_gt_dec (N_E c) s2) as [L2 | L2]; [rewrite Zrange_empty by lia; exact Logic.I|].
    rewrite Z.min_l by lia. destruct (Zrange_head s2 (N_E c)) as [t ->]; [lia|]. rewrite BR, Z.ltb_irrefl. reflexivity.
Qed.

(** In the built-in crystals no grid energy coincides with a threshold, so bin Q sums exactly the energies which produce Q pairs. *)
Lemma no_ties target gap eps Qm Q i : built_in target gap eps Qm -> IZR (i + 1) * (0.1 * eV) <> Emin_R gap eps Q.
Proof.
  intros HB E. assert (h := eV_pos). unfold Emin_R in E.
  assert (K : exists x y, E = E /\ (10 * (i + 1) = x + y * (Q - 1))%Z /\ (x mod 10 <> 0)%Z /\ (y mod 10 = 0)%Z).
  { destruct HB as [(_ & -> & -> & _) | (_ & -> & -> & _)].
    - exists 111%Z, 360%Z. split; [reflexivity|]. split; [|split; [discriminate|reflexivity]]. apply eq_IZR. rewrite !plus_IZR, !mult_IZR, minus_IZR, plus_IZR.
      rewrite plus_IZR in E. apply (Rmult_eq_reg_r (eV * 0.01)); [lra|lra].
    - exists 67%Z, 290%Z. split; [reflexivity|]. split; [|split; [discriminate|reflexivity]]. apply eq_IZR. rewrite !plus_IZR, !mult_IZR, minus_IZR, plus_IZR.
      rewrite plus_IZR in E. apply (Rmult_eq_reg_r (eV * 0.01)); [lra|lra]. }
  destruct K as [x [y [_ [K1 [K2 K3]]]]]. apply Z.mod_divide in K3; [|lia]. destruct K3 as [k ->]. apply K2. apply Z.mod_divide; [lia|]. exists (i + 1 - k * (Q - 1))%Z. lia.
Qed.

Definition has_pairs (c : Crystal) (Q : Z) (E : R) : bool := match Electron_Hole_Pairs (Fin E) c with Ok n => (n =? Q)%Z | _ => false end.

Lemma filter_ext_In {A} (P P' : A -> bool) l : (forall x, In x l -> P x = P' x) -> filter P l = filter P' l.
Proof. induction l as [|x t IH]; intros H; cbn [filter]; [reflexivity|]. rewrite H by (left; reflexivity). rewrite IH by (intros; apply H; right; auto). reflexivity. Qed.

Lemma bin_is_pair_number I DM D c target gap eps a b Qm Q : built_in target gap eps Qm -> real_crystal c gap eps (0.1 * eV) (500 * (0.1 * eV)) a b -> N_E c = 500%Z ->
  (1 <= Q <= 50000000)%Z -> R_Q_Crystal I Q DM D c = rate_sum I DM D c (grid_energies (0.1 * eV) 500 (has_pairs c Q)).
Proof.
  intros HB HR HN HQ. assert (h := eV_pos). assert (HR' := HR). destruct HR' as (_ & _ & H3 & _ & _ & _ & Hg & He & Hd & _).
  rewrite (bin_content I DM D c gap eps (0.1 * eV) (500 * (0.1 * eV)) a b Q HR); [|lia|].
  - rewrite HN. f_equal. apply filter_ext_In. intros E HE. apply in_map_iff in HE. destruct HE as [i [<- Hi]]. apply Zrange_In in Hi.
    assert (E0 : 0 < IZR (i + 1) * (0.1 * eV)). { apply Rmult_lt_0_compat; [apply IZR_lt; lia|lra]. }
    assert (GE : gap - eps <= IZR (i + 1) * (0.1 * eV)) by (destruct HB as [(_ & -> & -> & _) | (_ & -> & -> & _)]; lra).
    assert (EU : IZR (i + 1) * (0.1 * eV) < gap + eps * (2 ^ 32 - 1)).
    { assert (IZR (i + 1) <= 500) by (apply IZR_le; lia). destruct HB as [(_ & -> & -> & _) | (_ & -> & -> & _)]; nra. }
    destruct (pairs_total c gap eps _ _ _ _ _ HR GE EU) as [n [_ En]]. unfold has_pairs. rewrite En.
    rewrite (pairs_value c gap eps _ _ _ _ _ HR GE) in En. destruct (_ <=? _)%Z; [|discriminate]. apply Ok_inj in En.
    unfold between. pose proof (no_ties target gap eps Qm Q i HB) as T1. pose proof (no_ties target gap eps Qm (Q + 1) i HB) as T2.
    pose proof (proj1 (pairs_iff gap eps _ n He) En) as N1. destruct (Rlt_dec _ _) as [A1 | A1]; [destruct (Rle_dec _ _) as [A2 | A2]|].
    + symmetry. apply Z.eqb_eq. rewrite <- En. apply pairs_iff; [auto|]. lra.
    + symmetry. apply Z.eqb_neq. intros ->. lra.
    + symmetry. apply Z.eqb_neq. intros ->. lra.
  - unfold Emin_R. assert (IZR Q <= 50000000) by (apply IZR_le; lia). destruct HB as [(_ & -> & -> & _) | (_ & -> & -> & _)].
    + replace ((1.11 * eV + 3.6 * eV * (IZR Q - 1)) / (0.1 * eV)) with ((1.11 + 3.6 * (IZR Q - 1)) / 0.1) by (field; lra). lra.
    + replace ((0.67 * eV + 2.9 * eV * (IZR Q - 1)) / (0.1 * eV)) with ((0.67 + 2.9 * (IZR Q - 1)) / 0.1) by (field; lra). lra.
Qed.

(** A readable data file. *)
Definition IL0 (path : string) : res (list xr) := Ok (repeat (Fin 1) (Z.to_nat 450000)).
Lemma IL0_length : Z.of_nat (List.length (repeat (Fin 1) (Z.to_nat 450000))) = 450000%Z.
Proof. rewrite repeat_length. apply Z2Nat.id. lia. Qed.
