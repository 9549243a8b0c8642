(** What the printed summaries of halos, nuclei and atoms show. *)
From Coq Require Import Reals ZArith String Lia Lra Bool.
From Coquelicot Require Import Coquelicot.
From Coq Require Import List.
From Verif Require Import Base XrFacts Quadrature Astronomy_Model Nucleus_Model Nuclear_Model Nuclear_Proofs Atom_Model Atom_Proofs AtomTables_Proofs Distribution_Model Halo_Model Halo_Proofs HaloState_Proofs HaloFinal_Proofs Average_Model Average_Proofs AverageHalo_Proofs
  Configuration_Model Distribution_Proofs DetectorTypes_Model Summary_Model Summary_Proofs SummaryValues_Proofs Abundances_Proofs.
Import ListNotations.
Local Open Scope R_scope.

(** * Specification *)
Definition in_km_per_sec (Round : rounding) (x : R) : cell := Num (Round (Fin (x / (km / sec)))).
Definition exactly (unit x : R) : cell := Num (Fin (x / unit)).
(** The lines every halo of the standard family shows: density, speed domain and the parameters. *)
Definition shows_halo (Round : rounding) (rho v0 : R) (vel : vec3) (ve : R) (out : list line) : Prop :=
  values "Local DM density[GeV/cm^3]" out = [[exactly (GeV / cm / cm / cm) rho]] /\
  values "Speed domain [km/sec]" out = [[in_km_per_sec Round 0; in_km_per_sec Round (ve + vnorm vel)]] /\
  values "Speed dispersion v_0[km/sec]" out = [[exactly (km / sec) v0]] /\ values "Gal. escape velocity [km/sec]" out = [[exactly (km / sec) ve]] /\
  values "Observer's velocity [km/sec]" out = [map (in_km_per_sec Round) [vx vel; vy vel; vz vel]] /\ values "Observer's speed [km/sec]" out = [[in_km_per_sec Round (vnorm vel)]].

Lemma kmsec_pos : km / sec <> 0.
Proof. apply Rgt_not_eq, Rdiv_lt_0_compat; [exact km_pos|exact sec_pos]. Qed.
Lemma units x u : u <> 0 -> In_Units (Fin x) u = Fin (x / u).
Proof. intros. unfold In_Units. apply xdiv_fin. assumption. Qed.
Lemma domain_sum v0 vel ve rho : h_dmin (SHM_of_velocity rho v0 vel ve) = Fin 0 /\ h_dmax (SHM_of_velocity rho v0 vel ve) = Fin (ve + vnorm vel) /\ h_rho (SHM_of_velocity rho v0 vel ve) = Fin rho /\ h_v0 (SHM_of_velocity rho v0 vel ve) = Fin v0 /\
  h_vesc (SHM_of_velocity rho v0 vel ve) = Fin ve /\ h_velobs (SHM_of_velocity rho v0 vel ve) = vel /\ h_vobs (SHM_of_velocity rho v0 vel ve) = Fin (vnorm vel).
Proof. repeat split; reflexivity. Qed.
Lemma density_unit : GeV / cm / cm / cm <> 0.
Proof. assert (C := cm_pos). apply Rgt_not_eq. repeat (apply Rdiv_lt_0_compat; [|exact C]). unfold GeV. lra. Qed.

(** The lines of the base class and of the halo parameters. *)
Lemma lines_of Round b tl velocity speed out rho v0 vel ve : h_dmin b = Fin 0 -> h_dmax b = Fin (ve + vnorm vel) -> h_rho b = Fin rho -> h_v0 b = Fin v0 -> h_vesc b = Fin ve -> h_velobs b = vel -> h_vobs b = Fin (vnorm vel) ->
  (tl = [] \/ exists e be, tl = [("Eta parameter", [Num e]); ("Beta parameter", [Num be])]%string) ->
  (let* base := print_distribution_base Round (h_name b) (h_rho b) (h_dmin b) (h_dmax b) velocity speed in Ok (base ++ print_SHM Round b ++ tl)) = Ok out ->
  shows_halo Round rho v0 vel ve out /\
  (exists x y z, velocity = Ok (x, y, z) /\ values "Average DM velocity [km/sec]" out = [map (fun c => Num (Round (In_Units c (km / sec)))) [x; y; z]]) /\
  (exists v, speed = Ok v /\ values "Average DM speed [km/sec]" out = [[Num (Round (In_Units v (km / sec)))]]) /\
  values "Eta parameter" out = values "Eta parameter" tl /\ values "Beta parameter" out = values "Beta parameter" tl.
Proof.
  intros H1 H2 H3 H4 H5 H6 H7 T P. unfold print_distribution_base in P. destruct velocity as [[[x y] z]| | |]; cbn [bind] in P; try discriminate. destruct speed as [v| | |]; cbn [bind] in P; try discriminate. apply Ok_inj in P. subst out.
  unfold print_SHM. rewrite H1, H2, H3, H4, H5, H6, H7. assert (K := kmsec_pos). assert (D := density_unit). rewrite !units by assumption. unfold shows_halo, exactly, in_km_per_sec.
  destruct T as [-> | (e & be & ->)]; repeat split; try reflexivity; try (exists x, y, z; split; reflexivity); try (exists v; split; reflexivity).
Qed.
Lemma halo_lines Round Q rho v0 vel ve ops s out : hrun (SHM_of_velocity rho v0 vel ve) ops = Ok s -> print_halo Round Q 0 (HStandard s) = Ok out ->
  exists u, last_vel vel ops u /\ shows_halo Round rho (last_v0 v0 ops) u (last_vesc ve ops) out.
Proof.
  intros H P. apply run_fresh in H. destruct H as (u & L & ->). exists u. split; [exact L|]. unfold print_halo in P. change (0 =? 0)%Z with true in P. cbv iota in P.
  destruct (domain_sum (last_v0 v0 ops) u (last_vesc ve ops) rho) as (A1 & A2 & A3 & A4 & A5 & A6 & A7).
  rewrite <- (app_nil_r (print_SHM _ _)) in P. apply (lines_of _ _ [] _ _ _ _ _ _ _ A1 A2 A3 A4 A5 A6 A7 (or_introl eq_refl) P).
Qed.
Lemma last_vel_same vel ops u : last_vel vel ops u -> forall u', last_vel vel ops u' -> u = u'.
Proof. induction 1; intros u' K; inversion K; subst; auto. match goal with A : velocity_on _ _ _ _ _ ?a, B : velocity_on _ _ _ _ _ ?b |- _ => unfold velocity_on in A, B; rewrite A in B; injection B as B; subst end. auto. Qed.
Lemma speed_average Q s v0 vel ve : ideal_quadrature (q_Integrate Q) -> halo_history s v0 vel ve -> 0 < v0 -> 0 < ve -> vnorm vel <= ve ->
  exists f m, (forall v, PDF_Speed_SHM s (Fin v) = Fin (f v)) /\ is_RInt (fun v => v * f v) 0 (ve + vnorm vel) m /\ average_speed Q (fun v => Ok (PDF_Speed_SHM s v)) (Fin 0) (Fin (ve + vnorm vel)) = Ok (Fin m).
Proof.
  intros HQ H P0 Pe L. destruct (halo_density s v0 vel ve H P0 Pe L) as (f & F & SD). assert (N := vnorm_nonneg vel). exists f, (RInt (fun v => v * f v) 0 (ve + vnorm vel)). split; [exact F|].
  split; [apply (RInt_correct (V := R_CompleteNormedModule)); apply (moment_ex _ _ _ _ SD); lra|]. unfold average_speed, Average_Speed. rewrite xopp_fin, xlt_true by lra. apply (moment_value _ _ _ _ _ HQ SD). lra.
Qed.
Lemma halo_shown Round Q rho v0 vel ve ops s u : ideal_quadrature (q_Integrate Q) -> ideal_quadrature_3D (q_Integrate_3D Q) -> hrun (SHM_of_velocity rho v0 vel ve) ops = Ok s -> last_vel vel ops u ->
  0 < last_v0 v0 ops -> 0 < last_vesc ve ops -> vnorm u <= last_vesc ve ops ->
  exists out f m, print_halo Round Q 0 (HStandard s) = Ok out /\ shows_halo Round rho (last_v0 v0 ops) u (last_vesc ve ops) out /\
    values "Average DM velocity [km/sec]" out = [map (in_km_per_sec Round) [- vx u; - vy u; - vz u]] /\
    (forall v, PDF_Speed_SHM s (Fin v) = Fin (f v)) /\ is_RInt (fun v => v * f v) 0 (last_vesc ve ops + vnorm u) m /\ values "Average DM speed [km/sec]" out = [[in_km_per_sec Round m]].
Proof.
  intros HQ H3 R LV P0 Pe L. apply run_fresh in R. destruct R as (u' & LV' & ->). rewrite <- (last_vel_same _ _ _ LV _ LV') in *. clear u' LV'. set (a := last_v0 v0 ops) in *. set (e := last_vesc ve ops) in *. clearbody a e.
  assert (HH := hh_velocity rho a u e). set (s := SHM_of_velocity rho a u e) in *.
  destruct (domain_sum a u e rho) as (A1 & A2 & A3 & A4 & A5 & A6 & A7). fold s in A1, A2, A3, A4, A5, A6, A7. destruct (speed_average Q s a u e HQ HH P0 Pe L) as (f & m & F & M & AS). assert (AV := average_any _ _ _ _ _ H3 HH P0 Pe L).
  assert (P : exists out, print_halo Round Q 0 (HStandard s) = Ok out). { unfold print_halo. change (0 =? 0)%Z with true. cbv iota. rewrite AV, A1, A2, AS. unfold print_distribution_base. cbn [bind]. eexists. reflexivity. }
  destruct P as (out & P). exists out, f, m. split; [exact P|]. unfold print_halo in P. change (0 =? 0)%Z with true in P. cbv iota in P. rewrite <- (app_nil_r (print_SHM _ _)) in P.
  destruct (lines_of _ _ [] _ _ _ _ _ _ _ A1 A2 A3 A4 A5 A6 A7 (or_introl eq_refl) P) as (S & (x & y & z & V & SV) & (w & W & SW) & _). split; [exact S|]. rewrite AV in V. injection V as <- <- <-. rewrite A1, A2, AS in W. injection W as <-.
  assert (K := kmsec_pos). split; [rewrite SV; cbn [map]; rewrite !units by assumption; reflexivity|]. split; [exact F|]. split; [exact M|]. rewrite SW, units by assumption. reflexivity.
Qed.
Lemma pp_shown Round Q I I2 rho v0 vel ve e b ops s0 s out : SHMpp_of_velocity I I2 rho v0 vel ve e b = Ok s0 -> pprun s0 ops = Ok s -> print_halo Round Q 0 (HPlusPlus s) = Ok out ->
  exists u, last_vel vel (base_ops ops) u /\ shows_halo Round rho (last_v0 v0 (base_ops ops)) u (last_vesc ve (base_ops ops)) out /\
    values "Eta parameter" out = [[Num (Fin (last_eta e ops))]] /\ values "Beta parameter" out = [[Num (Fin (last_beta b ops))]].
Proof.
  intros H0 H P. destruct (pp_history _ _ _ _ _ _ _ _ _ _ _ H0 H) as (u & LV & ->). exists u. split; [exact LV|]. unfold print_halo in P. change (0 =? 0)%Z with true in P. cbv iota zeta in P.
  generalize dependent (last_v0 v0 (base_ops ops)). generalize dependent (last_vesc ve (base_ops ops)). generalize (last_eta e ops) (last_beta b ops). intros e' b' ve' v0' P.
  destruct (lines_of _ (p_base (with_table (p_table s0) (pp_core (SHM_of_velocity rho v0' u ve') e' b'))) [("Eta parameter", [Num (Fin e')]); ("Beta parameter", [Num (Fin b')])]%string _ _ _ rho v0' u ve' eq_refl eq_refl eq_refl eq_refl eq_refl eq_refl eq_refl (or_intror (ex_intro _ (Fin e') (ex_intro _ (Fin b') eq_refl))) P) as (S & _ & _ & E & B).
  split; [exact S|]. split; [exact E|exact B].
Qed.

(** * Nuclei and atoms *)
(** The line of an isotope, from its row in the table. *)
Definition isotope_shown (Round : rounding) (r : row) (l : line) : Prop :=
  exists e, nth_error Nucleus_Names (Z.to_nat (rw_Z r - 1)) = Some e /\
  l = ((e ++ "-" ++ DecimalString.NilZero.string_of_int (Z.to_int (rw_A r)))%string, [Int (rw_Z r); Int (rw_A r); Num (Round (Fin 100 * rw_abundance r)%xr); Num (rw_spin r); Num (rw_sp r); Num (rw_sn r)]).
Lemma isotopes_shown Round rs : forall is, Forall2 isotope_of_row rs is -> Forall2 (isotope_shown Round) rs (flat_map (print_isotope Round 0) is).
Proof.
  induction 1 as [|r i rs is H F IH]; [constructor|]. cbn [flat_map print_isotope app]. change (0 =? 0)%Z with true. cbn [app]. constructor; [|exact IH]. destruct H as (A & B & C & D & E & G & _ & (e & N & M)). exists e. split; [exact N|]. rewrite A, B, C, D, E, G, M. replace 100.0 with 100 by lra. reflexivity.
Qed.
Lemma percent_total l : forall is acc, Forall2 (fun i y => iabundance i = Fin y) is l -> fold_left (fun total i => (total + Fin 100.0 * iabundance i)%xr) is (Fin acc) = Fin (acc + 100 * total_of l).
Proof.
  induction l as [|y l IH]; intros is acc F; inversion F as [|i ? is' ? H F']; subst; cbn [fold_left total_of]; [f_equal; ring|]. rewrite H, xmul_fin, xadd_fin, (IH is' _ F'). f_equal. replace 100.0 with 100 by lra. ring.
Qed.
Lemma nucleus_shown Round rows w z n w' : well_formed rows -> world_history rows w -> (1 <= z <= 92)%Z -> in_table rows z -> Get_Nucleus w z = Ok (n, w') ->
  exists lines total, print_nucleus Round 0 n = [(nname n, [])] ++ lines ++ [("Total"%string, total)] /\ nth_error Nucleus_Names (Z.to_nat (z - 1)) = Some (nname n) /\
    Forall2 (isotope_shown Round) (filter (fun r => (rw_Z r =? z)%Z) rows) lines /\ (forall l, abundances n l -> exists a, total = [a; Num (Fin (100 * total_of l))]).
Proof.
  intros WF H Hz T G. destruct (get_nucleus_in rows w z WF H Hz T) as (n' & v & G' & (_ & N & F)). rewrite G in G'. apply Ok_inj in G'. injection G' as <- _.
  unfold print_nucleus. change (0 =? 0)%Z with true. cbv iota. do 2 eexists. split; [reflexivity|]. split; [exact N|]. split; [exact (isotopes_shown Round _ _ F)|]. intros l A. eexists. do 2 f_equal. f_equal. replace 0.0 with 0 by lra. rewrite (percent_total l _ 0 A). f_equal. ring.
Qed.
Lemma nucleus_percent w z n w' Round : world_history shipped_rows w -> Get_Nucleus w z = Ok (n, w') -> ~ In z irregular -> exists lines a, print_nucleus Round 0 n = lines ++ [("Total"%string, [a; Num (Fin 100)])].
Proof.
  intros H G N. destruct (shipped_abundances w z n w' H G) as (l & A & T & _). specialize (T N). unfold print_nucleus. change (0 =? 0)%Z with true. cbv iota. rewrite app_assoc. replace 0.0 with 0 by lra. rewrite (percent_total l _ 0 A), T. replace (0 + 100 * 1) with 100 by ring. do 2 eexists. reflexivity.
Qed.
(** The line of a shell, from the list of shells. *)
Definition shell_shown (p : listed) : line := (l_name p, [Num (Fin (l_energy p)); Int (l_secondaries p)]).
Lemma shells_shown IT kmax l : forall es, Forall2 (shell_as_listed IT kmax) l es -> flat_map (print_shell 0) es = map shell_shown l.
Proof.
  induction 1 as [|p s l es H F IH]; [reflexivity|]. cbn [flat_map map]. rewrite IH. unfold print_shell. change (0 =? 0)%Z with true. cbn [app]. f_equal. destruct H as (A & _ & _ & B & C & _). unfold shell_shown. rewrite A, B, C. rewrite units by (unfold eV; lra). do 4 f_equal. field. unfold eV. lra.
Qed.
Lemma atom_shown IT rows w name z ls wf : proper_tables IT -> well_formed rows -> full_table rows -> world_history rows w ->
  In (name, z, ls, wf) [("Xe"%string, 54%Z, listed_xenon, 13.8); ("Ar"%string, 18%Z, listed_argon, 19.6)] ->
  exists a w' m, Atom_by_name IT w name = Ok (a, w') /\ print_atom 0 a = Ok ([("Atom", [Txt name]); ("Z", [Int z]); ("Mass [GeV]", [Num m]); ("W [eV]", [Num (Fin wf)])]%string ++ map shell_shown ls).
Proof.
  intros PT WF FT WH [E|[E|[]]]; injection E as <- <- <- <-.
  - destruct (xenon_listed IT rows w PT WF FT WH) as (a & w' & A & (Z1 & N & _) & S & WA). exists a, w', (Average_Nuclear_Mass (at_nucleus a)). split; [exact A|]. unfold print_atom. change (0 =? 0)%Z with true. cbv iota. rewrite Z1. cbn [read_init bind].
    rewrite (shells_shown _ _ _ _ S), WA, units by (unfold eV; lra). injection N as N. rewrite <- N. replace (13.8 * eV / eV) with 13.8 by (field; unfold eV; lra). reflexivity.
  - destruct (argon_listed IT rows w PT WF FT WH) as (a & w' & A & (Z1 & N & _) & S & WA). exists a, w', (Average_Nuclear_Mass (at_nucleus a)). split; [exact A|]. unfold print_atom. change (0 =? 0)%Z with true. cbv iota. rewrite Z1. cbn [read_init bind].
    rewrite (shells_shown _ _ _ _ S), WA, units by (unfold eV; lra). injection N as N. rewrite <- N. replace (19.6 * eV / eV) with 19.6 by (field; unfold eV; lra). reflexivity.
Qed.

(** * Instances *)
Definition exact_integrals : integrals := mkIntegrals reference_Integrate (fun _ _ _ _ _ => Ok (Fin 0)) reference_quadrature_3D (fun _ _ => Ok (Fin 0)).
Definition even_integrals : integrals := mkIntegrals (fun _ _ _ => Ok (Fin 0)) (fun _ _ _ _ _ => Ok (Fin 0)) (fun _ _ _ _ _ _ _ => Ok (Fin 0)) (fun _ _ => Ok (Fin 0)).
Lemma halo_shown_instance : ideal_quadrature (q_Integrate exact_integrals) /\ ideal_quadrature_3D (q_Integrate_3D exact_integrals) /\ exists s, hrun (SHM_of_velocity 1 2 (V3 0 0 1) 5) [Set_Observer_Velocity (V3 1 2 (-2)); Set_Escape_Velocity 6] = Ok s /\
  last_vel (V3 0 0 1) [Set_Observer_Velocity (V3 1 2 (-2)); Set_Escape_Velocity 6] (V3 1 2 (-2)) /\ vnorm (V3 1 2 (-2)) = 3.
Proof.
  split; [exact ideal_quadrature_exists|]. split; [exact ideal_quadrature_3D_exists|]. eexists. split; [reflexivity|]. split; [repeat constructor|]. destruct average_any_instance as (_ & _ & B & _). exact B.
Qed.
Lemma pp_shown_instance : exists I I2 s0 s out, SHMpp_of_velocity I I2 1 1 (V3 0 1 0) 2 (1/5) (9/10) = Ok s0 /\ pprun s0 [Set_Beta (1/2); PBase (Set_Speed_Dispersion 3); Set_Eta (1/3)] = Ok s /\
  print_halo (fun x => x) even_integrals 0 (HPlusPlus s) = Ok out /\ values "Eta parameter" out = [[Num (Fin (1/3))]].
Proof.
  destruct sigmas_instance as (I & I2 & s0 & s & A & B & _). assert (P : exists out, print_halo (fun x => x) even_integrals 0 (HPlusPlus s) = Ok out).
  { assert (N : (xlt (xopp (Fin 1.0)) (Fin 0)) = true) by (rewrite xopp_fin; apply xlt_true; lra).
    unfold print_halo. change (0 =? 0)%Z with true. cbv iota zeta. unfold Average_Velocity, Average_Component, average_speed, Average_Speed, print_distribution_base. rewrite N. cbn [even_integrals q_Integrate_3D q_Integrate bind]. eexists. reflexivity. }
  destruct P as (out & P). exists I, I2, s0, s, out. split; [exact A|]. split; [exact B|]. split; [exact P|]. destruct (pp_shown _ _ _ _ _ _ _ _ _ _ _ _ _ _ A B P) as (u & _ & _ & E & _). exact E.
Qed.
Lemma nucleus_shown_instance : exists n w', well_formed shipped_rows /\ in_table shipped_rows 32 /\ Get_Nucleus (fresh_world shipped_rows) 32 = Ok (n, w') /\ ~ In 32%Z irregular.
Proof. destruct abundances_instance as (n & w' & G & _ & N). exists n, w'. split; [exact shipped_well_formed|]. split; [apply shipped_full; lia|]. split; [exact G|exact N]. Qed.
