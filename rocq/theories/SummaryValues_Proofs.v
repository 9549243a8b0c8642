(** Lemmas about the values in the printed summaries (Summary_Model). *)
From Coq Require Import Reals ZArith String Lra Lia Bool.
From Coquelicot Require Import Coquelicot.
From Coq Require Import List.
From Verif Require Import Base XrFacts Analysis Quadrature Interpolation Nucleus_Model Nuclear_Model Particle_Model Particle_Proofs CrossSection_Model
  Astronomy_Model Distribution_Model Halo_Model Atom_Model Crystal_Model Rates_Model Crystal_Proofs Detector_Model DetectorTypes_Model
  Experiments_Model Configuration_Model Average_Model Detector_Proofs DetectorModes_Proofs DetectorWitness_Proofs DetectorSafety_Proofs Experiments_Proofs Configuration_Proofs ConfigurationRun_Proofs ConfigurationValues_Proofs ConfigurationWitness_Proofs Atom_Proofs Nuclear_Proofs Summary_Model Summary_Proofs.
Import ListNotations.
Local Open Scope R_scope.

(** What is printed behind a label, once for every line with this label. *)
Definition values (label : string) (out : list line) : list (list cell) := map snd (filter (fun l => (fst l =? label)%string) out).

Lemma values_app l a b : values l (a ++ b) = values l a ++ values l b.
Proof. unfold values. rewrite filter_app, map_app. reflexivity. Qed.
Lemma values_other l (out : list line) : (forall x, In x out -> fst x <> l) -> values l out = [].
Proof.
  unfold values. induction out as [|x t IH]; intros H; [reflexivity|]. cbn [filter]. destruct (fst x =? l)%string eqn:E.
  - apply String.eqb_eq in E. exfalso. apply (H x (or_introl eq_refl)); exact E.
  - apply IH. intros; apply H; right; auto.
Qed.
Lemma values_all l (out : list line) : (forall x, In x out -> fst x = l) -> values l out = map snd out.
Proof.
  unfold values. induction out as [|x t IH]; intros H; [reflexivity|]. cbn [filter]. rewrite (H x) by (left; reflexivity). rewrite String.eqb_refl. cbn [map]. f_equal.
  apply IH. intros; apply H; right; auto.
Qed.

(** * Masses *)

(** The units of energy by their name, in GeV. *)
Definition named_unit (u : string) : option R :=
  if (u =? "eV")%string then Some (1 / 1000000000) else if (u =? "keV")%string then Some (1 / 1000000)
  else if (u =? "MeV")%string then Some (1 / 1000) else if (u =? "GeV")%string then Some 1 else None.
(** The cells show the mass [m] (in GeV): a number and a unit whose product is the mass; from 1 to 1000 when the units allow it. *)
Definition shows_mass (m : R) (cells : list cell) : Prop :=
  exists x u k, cells = [Num (Fin x); Txt u] /\ named_unit u = Some k /\ x * k = m /\ (1 / 1000000000 <= m -> 1 <= x) /\ (m < 1000 -> x < 1000).

Lemma mass_shown m : shows_mass m (mass_cells (Fin m)).
Proof.
  unfold shows_mass, mass_cells, mass_unit, In_Units.
  destruct (Rlt_dec m keV) as [H|H]; [rewrite (xlt_true m keV H)|rewrite (xlt_false m keV (Rnot_lt_le _ _ H))].
  - cbn [fst snd]. rewrite xdiv_fin by (unfold eV; lra). exists (m / eV), "eV"%string, (1 / 1000000000). unfold keV, eV in *. repeat split; try reflexivity; intros; lra.
  - destruct (Rlt_dec m MeV) as [H1|H1]; [rewrite (xlt_true m MeV H1)|rewrite (xlt_false m MeV (Rnot_lt_le _ _ H1))].
    + cbn [fst snd]. rewrite xdiv_fin by (unfold keV; lra). exists (m / keV), "keV"%string, (1 / 1000000). unfold keV, MeV in *. repeat split; try reflexivity; intros; lra.
    + destruct (Rlt_dec m GeV) as [H2|H2]; [rewrite (xlt_true m GeV H2)|rewrite (xlt_false m GeV (Rnot_lt_le _ _ H2))]; cbn [fst snd].
      * rewrite xdiv_fin by (unfold MeV; lra). exists (m / MeV), "MeV"%string, (1 / 1000). unfold GeV, MeV in *. repeat split; try reflexivity; intros; lra.
      * rewrite xdiv_fin by (unfold GeV; lra). exists (m / GeV), "GeV"%string, 1. unfold GeV in *. repeat split; try reflexivity; intros; lra.
Qed.

Lemma values_particle (Round : rounding) spin p : 
  values "Mass" (print_particle Round 0 spin p) = [mass_cells (mass p)] /\
  values "Mediator mass" (print_particle Round 0 spin p) =
    (match kind p with SI => if (FF_DM p =? "General")%string then [mass_cells (mMediator p)] else [] | SD => [] end) /\
  values "Sigma_P[cm^2]" (print_particle Round 0 spin p) = [[Num (Round (In_Units (Sigma_Proton p) (cm * cm)))]] /\
  values "Sigma_N[cm^2]" (print_particle Round 0 spin p) = [[Num (Round (In_Units (Sigma_Neutron p) (cm * cm)))]] /\
  values "Sigma_E[cm^2]" (print_particle Round 0 spin p) = [[Num (Round (In_Units (Sigma_Electron p) (cm * cm)))]] /\
  values "Coupling ratio" (print_particle Round 0 spin p) =
    (if fixed p then [if xne (fp p) (Fin 0.0) then [Txt "fn/fp = "; Num (Round (fn p / fp p)%xr)] else [Txt "fp/fn = "; Num (Round (fp p / fn p)%xr)]] else []).
Proof.
  unfold print_particle. change (0 =? 0)%Z with true. cbv iota. destruct (kind p); unfold print_particle_base, print_standard; change (0 =? 0)%Z with true; cbv iota.
  - destruct (FF_DM p =? "General")%string; destruct (fixed p); repeat split; reflexivity.
  - destruct (fixed p); repeat split; reflexivity.
Qed.

Lemma mass_printed (Round : rounding) spin p m : mass p = Fin m ->
  exists cells, values "Mass" (print_particle Round 0 spin p) = [cells] /\ shows_mass m cells.
Proof. intros M. destruct (values_particle Round spin p) as (V & _). rewrite V, M. eexists. split; [reflexivity|apply mass_shown]. Qed.
Lemma mediator_printed (Round : rounding) spin p m : mMediator p = Fin m ->
  ((kind p = SI /\ FF_DM p = "General"%string) -> exists cells, values "Mediator mass" (print_particle Round 0 spin p) = [cells] /\ shows_mass m cells) /\
  (~ (kind p = SI /\ FF_DM p = "General"%string) -> values "Mediator mass" (print_particle Round 0 spin p) = []).
Proof.
  intros M. destruct (values_particle Round spin p) as (_ & V & _). rewrite V, M. split.
  - intros [K F]. rewrite K, F. cbn [String.eqb]. eexists. split; [reflexivity|apply mass_shown].
  - intros N. destruct (kind p); [|reflexivity]. destruct (FF_DM p =? "General")%string eqn:E; [|reflexivity]. apply String.eqb_eq in E. exfalso. apply N. auto.
Qed.

(** * Cross sections *)
Lemma area_nonzero : cm * cm <> 0. Proof. unfold cm. lra. Qed.
Lemma proton_printed (Round : rounding) spin s x : reachable s -> 0 <= x -> (fixed s = true -> fp_relative s <> Fin 0) ->
  values "Sigma_P[cm^2]" (print_particle Round 0 spin (Set_Sigma_Proton (Fin x) s)) = [[Num (Round (Fin (x / (cm * cm))))]].
Proof.
  intros R X F. destruct (values_particle Round spin (Set_Sigma_Proton (Fin x) s)) as (_ & _ & V & _). rewrite V, round_trip_proton by auto.
  unfold In_Units. rewrite xdiv_fin by apply area_nonzero. reflexivity.
Qed.
Lemma neutron_printed (Round : rounding) spin s x : reachable s -> 0 <= x -> (fixed s = true -> fn_relative s <> Fin 0) ->
  values "Sigma_N[cm^2]" (print_particle Round 0 spin (Set_Sigma_Neutron (Fin x) s)) = [[Num (Round (Fin (x / (cm * cm))))]].
Proof.
  intros R X F. destruct (values_particle Round spin (Set_Sigma_Neutron (Fin x) s)) as (_ & _ & _ & V & _). rewrite V, round_trip_neutron by auto.
  unfold In_Units. rewrite xdiv_fin by apply area_nonzero. reflexivity.
Qed.
Lemma electron_printed (Round : rounding) spin s x :
  values "Sigma_E[cm^2]" (print_particle Round 0 spin (Set_Sigma_Electron (Fin x) s)) = [[Num (Round (Fin (x / (cm * cm))))]].
Proof.
  destruct (values_particle Round spin (Set_Sigma_Electron (Fin x) s)) as (_ & _ & _ & _ & V & _). rewrite V.
  unfold In_Units. change (Sigma_Electron (Set_Sigma_Electron (Fin x) s)) with (Fin x). rewrite xdiv_fin by apply area_nonzero. reflexivity.
Qed.

(** * The coupling ratio *)
Lemma ratio_line (Round : rounding) spin s x y p n : fixed s = true -> couplings s x y -> x * n = y * p -> p + n <> 0 ->
  (x <> 0 -> values "Coupling ratio" (print_particle Round 0 spin s) = [[Txt "fn/fp = "; Num (Round (Fin (n / p)))]]) /\
  (x = 0 -> y <> 0 -> values "Coupling ratio" (print_particle Round 0 spin s) = [[Txt "fp/fn = "; Num (Round (Fin (p / n)))]]).
Proof.
  intros F [P N] E Q. destruct (values_particle Round spin s) as (_ & _ & _ & _ & _ & V). rewrite V, F, P, N. split.
  - intros X. rewrite xne_true by lra. rewrite xdiv_fin by lra.
    assert (p <> 0). { intros ->. assert (x * n = 0) by lra. apply Rmult_integral in H. lra. }
    replace (y / x) with (n / p); [reflexivity|]. apply (Rmult_eq_reg_r (x * p)); [|apply Rmult_integral_contrapositive; auto]. field_simplify; [|lra|lra]. lra.
  - intros -> Y. rewrite xne_false by lra. rewrite xdiv_fin by lra.
    assert (p = 0). { assert (y * p = 0) by lra. apply Rmult_integral in H. lra. }
    subst p. replace (0 / y) with (0 / n); [reflexivity|]. unfold Rdiv. ring.
Qed.

Lemma ratio_printed k m0 x0 ops0 s p n : 0 < m0 -> 0 <= x0 -> safe_run (Particle_ctor k (Fin m0) (Fin x0)) ops0 s -> p + n <> 0 -> Sigma_Proton s <> Fin 0 ->
  exists s', Fix_Coupling_Ratio (Fin p) (Fin n) s = Ok s' /\
  forall ops s'' Round spin, Forall valid_call ops -> Forall keeps_relation ops -> prun s' ops = Ok s'' ->
    (Sigma_Proton s'' <> Fin 0 -> values "Coupling ratio" (print_particle Round 0 spin s'') = [[Txt "fn/fp = "; Num (Round (Fin (n / p)))]]) /\
    (Sigma_Proton s'' = Fin 0 -> Sigma_Neutron s'' <> Fin 0 -> values "Coupling ratio" (print_particle Round 0 spin s'') = [[Txt "fp/fn = "; Num (Round (Fin (p / n)))]]).
Proof.
  intros Hm Hx Hr Ht Hs. assert (S := safe_run_sound _ _ _ (sound_ctor k m0 x0 Hm Hx) Hr).
  destruct (fix_ratio_eq s p n S Ht) as (s1 & x & y & E & C & Rt & Fx & Ep & En); [auto|].
  exists s1; split; auto. intros ops s'' Round spin V K H.
  assert (T : tied (p / (p + n)) (n / (p + n)) s1).
  { split; [|auto]. eapply (sound_step s (PFix_Ratio (Fin p) (Fin n))); eauto.
    split; [split; eauto|]. split; auto. rewrite xadd_fin; intros Q; apply Fin_inj in Q; auto. }
  apply (tied_run _ _ ops s1 s'') in T; auto. assert (F'' : fixed s'' = true) by (destruct T as (_ & F & _); exact F).
  assert (G : good s'') by (destruct T as ((G & _) & _); exact G). destruct (good_pre _ G) as (m & pre & M1 & M2 & P1 & P2).
  apply tied_ratio in T as (x' & y' & C' & E'). apply share_ratio in E'; auto.
  assert (Z : forall f, sig pre m f = 0 <-> f = 0).
  { intros f. split; [apply sig_zero; auto|]. intros ->. unfold sig. unfold Rdiv. ring. }
  destruct (ratio_line Round spin s'' x' y' p n F'' C' E' Ht) as [L1 L2]. destruct C' as [CP CN].
  rewrite (Sigma_Proton_eq s'' m pre x' M1 M2 P1 CP), (Sigma_Neutron_eq s'' m pre y' M1 M2 P1 CN). split.
  - intros N. apply L1. intros ->. apply N. f_equal. apply Z. reflexivity.
  - intros Q N. apply L2; [apply Z; apply Fin_inj in Q; exact Q|]. intros ->. apply N. f_equal. apply Z. reflexivity.
Qed.

(** A particle of cross section 0 keeps the ratio 1 : 1, but no ratio is shown. *)
Lemma ratio_not_shown : exists p, reachable p /\ fixed p = true /\ fp_relative p = fn_relative p /\ forall (Round : rounding) spin,
  values "Coupling ratio" (print_particle Round 0 spin p) = [[Txt "fp/fn = "; Num (Round NaN)]].
Proof.
  assert (E : couplings (Particle_ctor SI (Fin 10) (Fin 0)) 0 0 /\ fixed (Particle_ctor SI (Fin 10) (Fin 0)) = true /\
     fp_relative (Particle_ctor SI (Fin 10) (Fin 0)) = fn_relative (Particle_ctor SI (Fin 10) (Fin 0))).
  { unfold Particle_ctor. rewrite (Set_Sigma_Proton_eq (Standard_ctor SI (Fin 10)) 10 1 0) by (reflexivity || lra). rewrite cpl_0.
    cbn [fixed Standard_ctor fp_relative fn_relative]. rewrite xeq_false, xdiv_fin, xmul_fin by lra. repeat split; cbn; try reflexivity. f_equal. lra. }
  destruct E as ([CP CN] & F & Q). exists (Particle_ctor SI (Fin 10) (Fin 0)). split; [exists SI, 10, 0, []; repeat split; try lra; constructor|].
  split; [exact F|]. split; [exact Q|]. intros Round spin. destruct (values_particle Round spin (Particle_ctor SI (Fin 10) (Fin 0))) as (_ & _ & _ & _ & _ & V).
  rewrite V, F, CP, CN. rewrite xne_false by lra. unfold xdiv. destruct (Req_EM_T 0 0); [|lra]. unfold inf_sign, rpos, rneg. destruct (Rlt_dec 0 0); [lra|]. reflexivity.
Qed.

(** * The table of the energy bins *)
Definition edge (lo hi : R) (n : nat) (i : nat) : R := lo + INR i * ((hi - lo) / INR n).

Lemma map_res_labels {A : Type} (f : A -> res line) l L : forall out, (forall a x, f a = Ok x -> fst x = L) -> map_res f l = Ok out -> forall x, In x out -> fst x = L.
Proof.
  induction l as [|a t IH]; intros out H R x I; cbn [map_res] in R; [apply Ok_inj in R; subst; contradiction|].
  destruct (f a) as [y| | |] eqn:E; cbn [bind] in R; try discriminate. destruct (map_res f t) as [ys| | |] eqn:E2; cbn [bind] in R; try discriminate.
  apply Ok_inj in R. subst out. destruct I as [<-|I]; [eapply H; eauto|eapply IH; eauto].
Qed.
Lemma map_res_seq {B : Type} (f : nat -> res B) (g : nat -> B) n : forall a, (forall i, (a <= i < a + n)%nat -> f i = Ok (g i)) -> map_res f (seq a n) = Ok (map g (seq a n)).
Proof.
  induction n as [|n IH]; intros a H; [reflexivity|]. cbn [seq map_res map]. rewrite H by lia. cbn [bind]. rewrite IH by (intros; apply H; lia). reflexivity.
Qed.
Lemma Zrange_seq n : (0 <= n)%Z -> Zrange 0 n = map Z.of_nat (seq 0 (Z.to_nat n)).
Proof. intros H. unfold Zrange. rewrite Z.sub_0_r. apply map_ext. intros; lia. Qed.
Lemma map_res_map' {A B C : Type} (f : B -> res C) (g : A -> B) l : map_res f (map g l) = map_res (fun a => f (g a)) l.
Proof. induction l; cbn [map_res map]; [reflexivity|]. rewrite IHl. reflexivity. Qed.

Lemma energy_rows (Round : rounding) d lo hi n : b_using_bins d = true -> b_bins d = n -> (1 <= n < 2 ^ 31)%Z ->
  b_bin_energies d = Linear_Space (Fin lo) (Fin hi) (Z.to_nat (u32 (n + 1))) ->
  print_energy_bins Round d = Ok (map (fun i => ("Bin range [keV]"%string, [Int (Z.of_nat (Datatypes.S i));
    Num (Round (Fin (edge lo hi (Z.to_nat n) i / keV))); Num (Round (Fin (edge lo hi (Z.to_nat n) (Datatypes.S i) / keV)))])) (seq 0 (Z.to_nat n))).
Proof.
  intros U B N E. unfold print_energy_bins. rewrite U, B, Zrange_seq, map_res_map' by lia. apply map_res_seq. intros i Hi. rewrite E.
  assert (W : u32 (n + 1) = (n + 1)%Z) by (unfold u32; apply Z.mod_small; lia). rewrite W. rewrite Linear_Space_fin by lia.
  assert (W2 : u32 (Z.of_nat i + 1) = Z.of_nat (Datatypes.S i)) by (unfold u32; rewrite Z.mod_small by lia; lia). rewrite W2.
  set (l := map _ _). assert (L : List.length l = Z.to_nat (n + 1)) by (unfold l; rewrite !map_length, seq_length; reflexivity).
  assert (A : forall j, (j <= Z.to_nat n)%nat -> at_ubZ l (Z.of_nat j) = Ok (Fin (edge lo hi (Z.to_nat n) j))).
  { intros j Hj. unfold at_ubZ. destruct (Z.of_nat j <? 0)%Z eqn:J; [apply Z.ltb_lt in J; lia|]. rewrite L.
    destruct (Z.of_nat j <? Z.of_nat (Z.to_nat (n + 1)))%Z eqn:J2; [|apply Z.ltb_ge in J2; lia]. rewrite Nat2Z.id. unfold at_ub, l.
    rewrite map_map. rewrite nth_error_map. rewrite nth_error_nth' with (d := 0%nat) by (rewrite seq_length; lia). cbn [option_map]. rewrite seq_nth by lia.
    cbn [Nat.add]. unfold edge. replace (Z.to_nat (n + 1) - 1)%nat with (Z.to_nat n) by lia. reflexivity. }
  rewrite (A i) by lia. rewrite (A (Datatypes.S i)) by lia. cbn [bind]. unfold In_Units. rewrite !xdiv_fin by (unfold keV; lra). reflexivity.
Qed.

(** Consecutive bins share an edge; the first starts at lo, the last ends at hi. *)
Lemma edges_cover lo hi n : (1 <= n)%nat -> edge lo hi n 0 = lo /\ edge lo hi n n = hi.
Proof. intros H. assert (INR n <> 0) by (apply not_0_INR; lia). unfold edge. split; [cbn; ring|field; auto]. Qed.

Lemma bins_rows_labels d out : print_bins d = Ok out -> forall x, In x out -> fst x <> "Bin range [keV]"%string.
Proof.
  unfold print_bins. destruct (b_analysis d); intros H; try (apply Ok_inj in H; subst out; intros x I; contradiction).
  match type of H with (let* _ := ?m in _) = _ => destruct m as [rows| | |] eqn:E; cbn [bind] in H; try discriminate end.
  apply Ok_inj in H. subst out. intros x [<-|I]; [discriminate|].
  assert (K : fst x = "Bin"%string). { eapply map_res_labels; [|exact E|exact I]. intros a y Hy. cbv beta in Hy. open_res Hy. apply Ok_inj in Hy. subst y. reflexivity. }
  rewrite K. discriminate.
Qed.

Lemma nuclear_bins_printed label expo nuclei abund n0 ops n Round lo hi b : Nuclear_ctor label expo nuclei abund = Ok n0 ->
  (abund = [] \/ (List.length nuclei <= List.length abund)%nat) -> nuclear_run n0 ops = Ok n -> Forall nuclear_args ops ->
  (forall o, In (NBase o) ops -> sensible_bins o) -> last_such nuclear_use ops = Some (NBase (BBins (Fin lo) (Fin hi) b)) -> (1 <= b)%Z ->
  exists out, print_nuclear Round 0 n = Ok out /\
    values "Bin range [keV]" out = map (fun i => [Int (Z.of_nat (Datatypes.S i)); Num (Round (Fin (edge lo hi (Z.to_nat b) i / keV)));
      Num (Round (Fin (edge lo hi (Z.to_nat b) (Datatypes.S i) / keV)))]) (seq 0 (Z.to_nat b)) /\
    values "Recoil energies [keV]" out = [[Num (Round (Fin (lo / keV))); Num (Round (Fin (hi / keV)))]] /\
    values "Number of bins" out = [[Int b]].
Proof.
  intros C L R A S LS B1. destruct (nuclear_printable label expo nuclei abund n0 ops n Round 0 C L R A S) as [out O]. exists out. split; [exact O|].
  assert (SB : sensible_bins (BBins (Fin lo) (Fin hi) b)) by (apply S; eapply last_such_In; eauto). cbn in SB.
  assert (SH := nuclear_shows _ _ _ _ R LS). cbn [base_shows] in SH. destruct SH as (H1 & H2 & H3 & H4 & H5 & H6 & _).
  assert (W : u32 b = b) by (unfold u32; apply Z.mod_small; lia). rewrite W in *.
  unfold print_nuclear in O. change (0 =? 0)%Z with true in O. cbv iota in O. unfold print_base in O. change (0 =? 0)%Z with true in O. cbv iota zeta in O.
  rewrite H3, H4, H5 in O. rewrite orb_true_r in O. cbn [orb] in O.
  destruct (print_bins (n_base n)) as [bins| | |] eqn:PB; cbn [bind] in O; try discriminate.
  rewrite (energy_rows Round (n_base n) lo hi b H3 H2 ltac:(lia) H6) in O. cbn [bind] in O.
  match type of O with (let* _ := ?m in _) = _ => destruct m as [rows| | |] eqn:E; cbn [bind] in O; try discriminate end. apply Ok_inj in O. subst out.
  assert (LT : forall x, In x rows -> fst x = "Nucl."%string).
  { eapply map_res_labels; [|exact E]. intros a y Hy. cbv beta in Hy. open_res Hy. apply Ok_inj in Hy. subst y. reflexivity. }
  assert (LR : forall l, l <> "Nucl."%string -> values l rows = []). { intros l N. apply values_other. intros x I. rewrite (LT x I). auto. }
  assert (PB' : exists rest, bins = ("Number of bins"%string, [Int b]) :: rest /\ forall x, In x rest -> fst x = "Bin"%string).
  { unfold print_bins in PB. rewrite H1, H2 in PB. match type of PB with (let* _ := ?m in _) = _ => destruct m as [rest| | |] eqn:E2; cbn [bind] in PB; try discriminate end.
    apply Ok_inj in PB. subst bins. exists rest. split; [reflexivity|]. eapply map_res_labels; [|exact E2]. intros a y Hy. cbv beta in Hy. open_res Hy. apply Ok_inj in Hy. subst y. reflexivity. }
  destruct PB' as (rest & -> & LB). assert (LR2 : forall l, l <> "Bin"%string -> values l rest = []). { intros l N. apply values_other. intros x I. rewrite (LB x I). auto. }
  assert (KE : forall l, l <> "Bin range [keV]"%string -> values l (map (fun i => ("Bin range [keV]"%string, [Int (Z.of_nat (Datatypes.S i));
    Num (Round (Fin (edge lo hi (Z.to_nat b) i / keV))); Num (Round (Fin (edge lo hi (Z.to_nat b) (Datatypes.S i) / keV)))])) (seq 0 (Z.to_nat b))) = []).
  { intros l N. apply values_other. intros x I. apply in_map_iff in I. destruct I as (i & <- & _). cbn. auto. }
  rewrite !xdiv_fin by (unfold keV; lra).
  assert (VC : forall l a, values l (a :: rest) = values l [a] ++ values l rest) by (intros l a; apply (values_app l [a] rest)).
  repeat rewrite values_app. repeat rewrite VC.
  rewrite !LR by discriminate. rewrite !LR2 by discriminate. split; [|split].
  - rewrite (values_all "Bin range [keV]" (map _ _)) by (intros x I; apply in_map_iff in I; destruct I as (i & <- & _); reflexivity).
    rewrite map_map. cbn [snd]. cbn [values filter map app fst String.eqb Ascii.eqb Bool.eqb]. rewrite app_nil_r. reflexivity.
  - rewrite KE by discriminate. reflexivity.
  - rewrite KE by discriminate. reflexivity.
Qed.

(** * Whole configurations *)
Lemma configuration_parts E fs w path rank cfg c w' x : loaded E fs path cfg -> value_of cfg "DD_experiment" = Some (SString x) ->
  snd (Configuration_ctor E fs w path rank) = Ok (c, w') ->
  exists i DM, cf_detector c = Some i /\ cf_DM c = Some DM /\ Construct_DM_Detector E cfg w = Ok (i, w') /\ read_string cfg "DD_experiment" = Ok x.
Proof.
  intros (t & T1 & T2) V H. unfold Configuration_ctor, Read_Config_File in H. rewrite T1, T2 in H.
  destruct (Initialize_Result_Folder E path rank cfg fs) as [fs1 r]. cbn [snd] in H. destruct r as [ID| | |]; cbn [bind] in H; try discriminate.
  unfold construct_members in H. destruct (Construct_DM_Particle cfg) as [DM| | |]; cbn [bind] in H; try discriminate.
  destruct (Construct_DM_Distribution E cfg) as [distr| | |]; cbn [bind] in H; try discriminate.
  destruct (Construct_DM_Detector E cfg w) as [[i w1]| | |] eqn:D; cbn [bind] in H; try discriminate.
  destruct (Initialize_Parameters E cfg) as [[[[ce lo] hi] n]| | |]; cbn [bind] in H; try discriminate.
  apply Ok_inj in H. injection H as <- <-. exists i, DM. split; [reflexivity|]. split; [reflexivity|]. split; [reflexivity|].
  unfold read_string. rewrite find_value, V. reflexivity.
Qed.

Lemma configuration_printing E fs w path rank cfg c w' x : loaded E fs path cfg -> value_of cfg "DD_experiment" = Some (SString x) ->
  snd (Configuration_ctor E fs w path rank) = Ok (c, w') ->
  (In x crystal_experiments -> forall Round Q out, print_configuration Round Q 0 c <> Ok out) /\
  (~ In x crystal_experiments -> forall Round Q h lines, cf_distr c = Some h -> print_halo Round Q 0 h = Ok lines -> exists out, print_configuration Round Q 0 c = Ok out).
Proof.
  intros L V H. destruct (configuration_parts E fs w path rank cfg c w' x L V H) as (i & DM & D & P & C & R).
  destruct (configured_summary E cfg w i w' x C R) as [S1 S2]. split.
  - intros N Round Q out O. unfold print_configuration in O. change (0 =? 0)%Z with true in O. cbv iota in O. rewrite D, P in O. cbn [deref bind] in O.
    destruct (deref (cf_distr c)); cbn [bind] in O; try discriminate. destruct (print_halo Round Q 0 a); cbn [bind] in O; try discriminate.
    rewrite (S1 N Round 0%Z) in O. discriminate O.
  - intros N Round Q h lines HD HP. unfold print_configuration. change (0 =? 0)%Z with true. cbv iota. rewrite D, P, HD. cbn [deref bind]. rewrite HP. cbn [bind].
    destruct (S2 N Round 0%Z) as [o O]. rewrite O. eexists. reflexivity.
Qed.

(** * Witnesses *)
Lemma loud_refuted : exists s0 ops s, s0 = ion1 /\ ionization_run s0 ops = Ok s /\ forall Round rank, exists out, print_ionization Round rank s = Ok out /\ out <> [].
Proof.
  exists ion1, [], ion1. split; [reflexivity|]. split; [reflexivity|]. intros Round rank.
  destruct (ionization_printable Electron_Recoil "test" (Fin 1) [atom1] [Fin 1] [] ion1 Round rank) as [out O].
  - cbn. lia.
  - reflexivity.
  - constructor.
  - intros b [].
  - constructor.
  - left. split; reflexivity.
  - exists out. split; [exact O|]. exact (proj2 (ionization_loud Round rank ion1) out O).
Qed.

Lemma mixed_bins_refuted : exists ops s, ionization_run ion1 ops = Ok s /\ Forall ionization_args ops /\ (forall o, In (IBase o) ops -> sensible_bins o) /\
  forall Round rank, print_ionization Round rank s = UB.
Proof.
  exists [IBase (BBins (Fin 1) (Fin 2) 1); IBase (BThreshold (Fin 1) (Fin 2)); IElectron_Bins 3 4]. eexists. split.
  - assert (X : xlt (Fin 2) (Fin 1) = false) by (apply xlt_false; lra).
    cbn -[xlt Linear_Space]. rewrite X. cbn -[xlt Linear_Space]. unfold Use_Energy_Threshold. rewrite X. cbn -[xlt Linear_Space]. reflexivity.
  - split; [repeat constructor; unfold is_u32, is_i32; lia|]. split.
    + intros o [H|[H|[H|[]]]]; try discriminate H; injection H as <-; cbn; try exact Logic.I; lia.
    + intros Round rank. unfold print_ionization, print_base. change (0 =? 0)%Z with true. cbv iota zeta.
      cbn. reflexivity.
Qed.

Lemma SENSEI_unprintable : exists i w', supported_experiment F0 world0 "SENSEI@MINOS" = Ok (i, w') /\ summary_undefined i.
Proof.
  assert (I : In ("SENSEI@MINOS"%string, Publication "SENSEI@MINOS" 0.0091 Silicon (Quanta 1 [578; 5; 0; 0]%Z)) publications) by (unfold publications; cbn [In]; repeat first [left; reflexivity | right]).
  destruct (experiments_realised shipped_rows F0 world0 shipped_well_formed shipped_full (wh_start _) F0_readable _ _ I) as (d & w' & R & _).
  exists d, w'. split; [exact R|]. apply (supported_summary _ _ _ _ _ R). cbn. tauto.
Qed.
