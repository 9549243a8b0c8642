(** The shells of xenon and argon: names, numbers, energies and the files their tables come from. *)
From Coq Require Import Reals ZArith String Lia Lra Bool.
From Coquelicot Require Import Coquelicot.
From Coq Require Import List.
From Verif Require Import Base XrFacts Nucleus_Model Nuclear_Model Nuclear_Proofs Atom_Model Atom_Proofs.
Import ListNotations.
Local Open Scope R_scope.

(** * Specification *)

(** One shell as listed in the literature: name, n, l, binding energy in eV, number of secondary electrons. *)
Record listed : Type := mkListed { l_name : string; l_n : Z; l_l : Z; l_energy : R; l_secondaries : Z }.
Definition listed_xenon : list listed :=
  [mkListed "Xe_5p" 5 1 12.4433 0; mkListed "Xe_5s" 5 0 25.6986 0; mkListed "Xe_4d" 4 2 75.5897 4; mkListed "Xe_4p" 4 1 163.495 6;
   mkListed "Xe_4s" 4 0 213.781 3; mkListed "Xe_3d" 3 2 710.73 0; mkListed "Xe_3p" 3 1 958.43 0; mkListed "Xe_3s" 3 0 1093.24 0;
   mkListed "Xe_2p" 2 1 4837.71 0; mkListed "Xe_2s" 2 0 5149.21 0; mkListed "Xe_1s" 1 0 33317.6 0].
Definition listed_argon : list listed :=
  [mkListed "Ar_3p" 3 1 16.0824 0; mkListed "Ar_3s" 3 0 34.7585 0; mkListed "Ar_2p" 2 1 260.453 0; mkListed "Ar_2s" 2 0 335.303 0; mkListed "Ar_1s" 1 0 3227.55 0].

(** Files with at least two rows and two columns. *)
Definition proper_tables (Import_Table : string -> res (list (list xr))) : Prop :=
  forall path, exists r t, Import_Table path = Ok (r :: t) /\ (1 <= List.length t)%nat /\ (2 <= List.length r)%nat.
(** n points from a to b, equidistant on a logarithmic scale. *)
Definition log_nodes (a b : R) (n : nat) : list xr := map (fun i => Fin (a * Rpower (b / a) (INR i / INR (n - 1)))) (seq 0 n).
(** Response function r of a shell: the numbers of the shell's own file over momenta up to kmax (rows) and 1000 keV (columns). *)
Definition response_from (Import_Table : string -> res (list (list xr))) (name r : string) (kmax : R) (t : table2) : Prop :=
  exists row rows, Import_Table ("data/Atomic_Response_Functions/" ++ name ++ "_" ++ r ++ ".txt")%string = Ok (row :: rows) /\
    t2_f t = row :: rows /\ t2_x t = log_nodes (0.1 * keV) (kmax * keV) (S (List.length rows)) /\ t2_y t = log_nodes (1 * keV) (1000 * keV) (List.length row).
Definition shell_as_listed (Import_Table : string -> res (list (list xr))) (kmax : R) (p : listed) (s : Atomic_Electron) : Prop :=
  sh_name s = l_name p /\ sh_n s = l_n p /\ sh_l s = l_l p /\ binding_energy s = Fin (l_energy p * eV) /\ number_of_secondary_electrons s = l_secondaries p /\
  k_min s = Fin (0.1 * keV) /\ k_max s = Fin (kmax * keV) /\ q_min s = Fin (1 * keV) /\ q_max s = Fin (1000 * keV) /\
  (exists t1 t2 t3 t4, atomic_response_interpolations s = [t1; t2; t3; t4] /\
    response_from Import_Table (l_name p) "1" kmax t1 /\ response_from Import_Table (l_name p) "2" kmax t2 /\
    response_from Import_Table (l_name p) "3" kmax t3 /\ response_from Import_Table (l_name p) "4" kmax t4 /\
    k_Grid s = t2_x t4 /\ q_Grid s = t2_y t4) /\
  (exists dk dq, dlogk s = Fin dk /\ dlogq s = Fin dq /\
    (forall i, (S i < List.length (k_Grid s))%nat -> exists x, nth_error (k_Grid s) i = Some (Fin x) /\ 0 < x /\ nth_error (k_Grid s) (S i) = Some (Fin (x * Rpower 10 dk))) /\
    (forall j, (S j < List.length (q_Grid s))%nat -> exists y, nth_error (q_Grid s) j = Some (Fin y) /\ 0 < y /\ nth_error (q_Grid s) (S j) = Some (Fin (y * Rpower 10 dq)))).

(** * Proofs *)
Lemma Log_Space_nodes a b n : 0 < a -> 0 < b -> (2 <= n)%nat -> Log_Space (Fin a) (Fin b) n = log_nodes a b n.
Proof.
  intros A B N. unfold Log_Space, log_nodes. apply map_ext. intros k. rewrite !xlog_fin by auto. assert (M : INR (n - 1) <> 0) by (apply not_0_INR; lia).
  rewrite xsub_fin, xdiv_fin, xmul_fin, xadd_fin, xexp_fin by auto. f_equal. unfold Rpower. rewrite ln_div by auto. rewrite exp_plus, exp_ln by auto. f_equal. f_equal. field. auto.
Qed.
Lemma nodes_nth a b n i : (i < n)%nat -> nth_error (log_nodes a b n) i = Some (Fin (a * Rpower (b / a) (INR i / INR (n - 1)))).
Proof.
  intros H. unfold log_nodes. rewrite nth_error_map. assert (E : nth_error (seq 0 n) i = Some i).
  { rewrite (nth_error_nth' (seq 0 n) 0%nat) by (rewrite seq_length; auto). rewrite seq_nth by auto. reflexivity. }
  rewrite E. reflexivity.
Qed.
Lemma nodes_length a b n : List.length (log_nodes a b n) = n.
Proof. unfold log_nodes. rewrite map_length, seq_length. reflexivity. Qed.
Lemma nodes_step a b n i : 0 < a -> 0 < b -> (S i < n)%nat -> exists x, nth_error (log_nodes a b n) i = Some (Fin x) /\ 0 < x /\
  nth_error (log_nodes a b n) (S i) = Some (Fin (x * Rpower 10 (ln (b / a) / ln 10 / (INR n - 1)))).
Proof.
  intros A B N. eexists. split; [apply nodes_nth; lia|]. split; [apply Rmult_lt_0_compat; auto; apply exp_pos|].
  rewrite nodes_nth by lia. do 2 f_equal. rewrite Rmult_assoc. f_equal. unfold Rpower. rewrite <- exp_plus. f_equal.
  assert (M : 0 < INR (n - 1)) by (apply lt_0_INR; lia). replace (INR n - 1) with (INR (n - 1)) by (rewrite minus_INR by lia; reflexivity).
  rewrite S_INR. assert (T : ln 10 <> 0). { apply Rgt_not_eq. rewrite <- ln_1. apply ln_increasing; lra. } field. split; [auto|lra]. all: auto; lra.
Qed.

(** The element, n and l determine the name. *)
Definition name_of (el : string) (n l : Z) : option string := option_map (fun sn => (el ++ "_" ++ to_string n ++ sn)%string) (nth_error s_names (Z.to_nat l)).
Definition consistent (el : string) (p : listed) (q : Z * Z * R * Z) : Prop :=
  q = (l_n p, l_l p, l_energy p, l_secondaries p) /\ (0 <= l_l p <= 4)%Z /\ name_of el (l_n p) (l_l p) = Some (l_name p).
Lemma import_response_from IT name r rs kmax : proper_tables IT -> 0 < kmax -> to_string r = rs ->
  exists nk nq t, import_response IT name (Fin 0.1 * Fin keV)%xr (Fin kmax * Fin keV)%xr (Fin 1.0 * Fin keV)%xr (Fin 1000.0 * Fin keV)%xr r = Ok (nk, nq, t) /\
    response_from IT name rs kmax t /\ (2 <= nk)%nat /\ (2 <= nq)%nat /\ t2_x t = log_nodes (0.1 * keV) (kmax * keV) nk /\ t2_y t = log_nodes (1 * keV) (1000 * keV) nq.
Proof.
  intros H K <-. assert (P : 0 < keV) by (unfold keV, eV; lra). unfold import_response. destruct (H ("data/Atomic_Response_Functions/" ++ name ++ "_" ++ to_string r ++ ".txt")%string) as (r0 & t & E & L1 & L2).
  rewrite E. cbn [bind at_ub nth_error]. rewrite !xmul_fin. replace 1.0 with 1 by lra. replace 1000.0 with 1000 by lra.
  assert (X : Log_Space (Fin (0.1 * keV)) (Fin (kmax * keV)) (Datatypes.length (r0 :: t)) = log_nodes (0.1 * keV) (kmax * keV) (Datatypes.length (r0 :: t))).
  { apply Log_Space_nodes; [lra|apply Rmult_lt_0_compat; auto|cbn; lia]. }
  assert (Y : Log_Space (Fin (1 * keV)) (Fin (1000 * keV)) (Datatypes.length r0) = log_nodes (1 * keV) (1000 * keV) (Datatypes.length r0)) by (apply Log_Space_nodes; [lra|lra|lia]).
  rewrite X, Y. do 3 eexists. split; [reflexivity|]. split.
  - exists r0, t. split; [exact E|]. split; [reflexivity|]. split; reflexivity.
  - cbn [t2_x t2_y Datatypes.length]. split; [lia|]. split; [lia|]. split; reflexivity.
Qed.
Lemma shell_listed IT el p kmax q : proper_tables IT -> 0 < kmax -> consistent el p q ->
  exists s, (let '(n, l, E, ns) := q in Atomic_Electron_ctor IT el n l (Fin E * Fin eV)%xr (Fin 0.1 * Fin keV)%xr (Fin kmax * Fin keV)%xr (Fin 1.0 * Fin keV)%xr (Fin 1000.0 * Fin keV)%xr ns) = Ok s /\
    shell_as_listed IT kmax p s.
Proof.
  intros H K (-> & Hl & Hn). assert (P : 0 < keV) by (unfold keV, eV; lra). unfold Atomic_Electron_ctor.
  unfold name_of in Hn. destruct (nth_error s_names (Z.to_nat (l_l p))) as [sn|] eqn:E; try discriminate. cbn [option_map] in Hn. apply (f_equal (fun o => match o with Some x => x | None => ""%string end)) in Hn. cbv beta iota in Hn.
  assert (A : at_ubZ s_names (l_l p) = Ok sn).
  { unfold at_ubZ, at_ub. rewrite (proj2 (Z.ltb_ge _ _)) by lia. rewrite (proj2 (Z.ltb_lt _ _)) by (cbn; lia). rewrite E. reflexivity. }
  rewrite A. cbn [bind]. rewrite Hn.
  destruct (import_response_from IT (l_name p) 1 "1" kmax H K eq_refl) as (nk1 & nq1 & t1 & E1 & F1 & _).
  destruct (import_response_from IT (l_name p) 2 "2" kmax H K eq_refl) as (nk2 & nq2 & t2 & E2 & F2 & _).
  destruct (import_response_from IT (l_name p) 3 "3" kmax H K eq_refl) as (nk3 & nq3 & t3 & E3 & F3 & _).
  destruct (import_response_from IT (l_name p) 4 "4" kmax H K eq_refl) as (nk & nq & t4 & E4 & F4 & NK & NQ & X4 & Y4).
  cbn [map_res]. rewrite E1, E2, E3, E4. cbn [bind at_ub nth_error]. eexists. split; [reflexivity|].
  assert (T : 0 < ln 10) by (rewrite <- ln_1; apply ln_increasing; lra).
  unfold shell_as_listed. cbn [sh_name sh_n sh_l binding_energy number_of_secondary_electrons k_min k_max q_min q_max atomic_response_interpolations map snd k_Grid q_Grid dlogk dlogq].
  rewrite !xmul_fin. replace 1.0 with 1 by lra. replace 1000.0 with 1000 by lra.
  do 9 (split; [reflexivity|]). split.
  - exists t1, t2, t3, t4. repeat (split; [first [reflexivity|assumption]|]). reflexivity.
  - exists (ln (kmax * keV / (0.1 * keV)) / ln 10 / (INR nk - 1)), (ln (1000 * keV / (1 * keV)) / ln 10 / (INR nq - 1)).
    assert (KP : 0 < kmax * keV) by (apply Rmult_lt_0_compat; auto).
    assert (M1 : INR nk - 1 <> 0). { assert (2 <= INR nk) by (apply (le_INR 2); auto). lra. }
    assert (M2 : INR nq - 1 <> 0). { assert (2 <= INR nq) by (apply (le_INR 2); auto). lra. }
    split. { unfold xlog10. rewrite !xdiv_fin by lra. rewrite xlog_fin by (apply Rdiv_lt_0_compat; lra). rewrite xdiv_fin by lra. rewrite xsub_fin, xdiv_fin by auto. reflexivity. }
    split. { unfold xlog10. rewrite !xdiv_fin by lra. rewrite xlog_fin by (apply Rdiv_lt_0_compat; lra). rewrite xdiv_fin by lra. rewrite xsub_fin, xdiv_fin by auto. reflexivity. }
    rewrite X4, Y4, !nodes_length. split; intros i Hi; apply nodes_step; auto; lra.
Qed.
Lemma make_listed IT el kmax ps qs : proper_tables IT -> 0 < kmax -> Forall2 (consistent el) ps qs ->
  exists ss, make_shells IT el kmax qs = Ok ss /\ Forall2 (shell_as_listed IT kmax) (rev ps) ss.
Proof.
  intros H K F. unfold make_shells. match goal with |- context [map_res ?f qs] => set (G := f) end.
  assert (Q : exists ss, map_res G qs = Ok ss /\ Forall2 (shell_as_listed IT kmax) ps ss).
  { induction F as [|p q ps qs C F IH]; [exists []; split; [reflexivity|constructor]|]. destruct IH as (ss & E1 & E2).
    destruct (shell_listed IT el p kmax q H K C) as (s & S1 & S2). exists (s :: ss). cbn [map_res]. split; [|constructor; auto].
    assert (G q = Ok s) as ->. { unfold G. destruct q as [[[n l] E] ns]. exact S1. } cbn [bind]. rewrite E1. reflexivity. }
  destruct Q as (ss & E1 & E2). rewrite E1. cbn [bind]. exists (rev ss). split; [reflexivity|].
  clear -E2. induction E2; cbn [rev]; [constructor|]. apply Forall2_app; [exact IHE2|]. constructor; [assumption|constructor].
Qed.
Lemma xenon_consistent : Forall2 (consistent "Xe") (rev listed_xenon) xenon_shells.
Proof. unfold listed_xenon, xenon_shells. cbn [rev app]. repeat (constructor; [split; [reflexivity|split; [cbn; lia|reflexivity]]|]). constructor. Qed.
Lemma argon_consistent : Forall2 (consistent "Ar") (rev listed_argon) argon_shells.
Proof. unfold listed_argon, argon_shells. cbn [rev app]. repeat (constructor; [split; [reflexivity|split; [cbn; lia|reflexivity]]|]). constructor. Qed.
Lemma xenon_listed IT rows w : proper_tables IT -> well_formed rows -> full_table rows -> world_history rows w ->
  exists a w', Atom_by_name IT w "Xe" = Ok (a, w') /\ element_of_table rows 54 (at_nucleus a) /\ Forall2 (shell_as_listed IT 500) listed_xenon (electrons a) /\ W a = Fin (13.8 * eV).
Proof.
  intros H WF FT HW. destruct (by_name_is_by_charge rows w 54 "Xe" WF FT HW ltac:(lia) eq_refl) as [n [w1 [w2 [G [_ E]]]]].
  unfold Atom_by_name. rewrite G. cbn [bind]. destruct (make_listed IT "Xe" 500.0 _ _ H ltac:(lra) xenon_consistent) as (ss & S1 & S2).
  change ((("Xe" =? "Xe") || ("Xe" =? "Xenon"))%string)%bool with true. cbn iota. rewrite S1. cbn [bind].
  do 2 eexists. split; [reflexivity|]. cbn [at_nucleus electrons W fst]. split; [exact E|]. split; [|reflexivity].
  rewrite rev_involutive in S2. replace 500 with 500.0 by lra. exact S2.
Qed.
Lemma argon_listed IT rows w : proper_tables IT -> well_formed rows -> full_table rows -> world_history rows w ->
  exists a w', Atom_by_name IT w "Ar" = Ok (a, w') /\ element_of_table rows 18 (at_nucleus a) /\ Forall2 (shell_as_listed IT 100) listed_argon (electrons a) /\ W a = Fin (19.6 * eV).
Proof.
  intros H WF FT HW. destruct (by_name_is_by_charge rows w 18 "Ar" WF FT HW ltac:(lia) eq_refl) as [n [w1 [w2 [G [_ E]]]]].
  unfold Atom_by_name. rewrite G. cbn [bind]. destruct (make_listed IT "Ar" 100.0 _ _ H ltac:(lra) argon_consistent) as (ss & S1 & S2).
  change ((("Ar" =? "Xe") || ("Ar" =? "Xenon"))%string)%bool with false. change ((("Ar" =? "Ar") || ("Ar" =? "Argon"))%string)%bool with true. cbn iota.
  rewrite S1. cbn [bind]. do 2 eexists. split; [reflexivity|]. cbn [at_nucleus electrons W fst]. split; [exact E|]. split; [|reflexivity].
  rewrite rev_involutive in S2. replace 100 with 100.0 by lra. exact S2.
Qed.
Definition IT2 (path : string) : res (list (list xr)) := Ok [[Fin 1; Fin 2]; [Fin 3; Fin 4]; [Fin 5; Fin 6]].
Lemma listed_instance : proper_tables IT2 /\ well_formed shipped_rows /\ full_table shipped_rows /\ world_history shipped_rows (fresh_world shipped_rows).
Proof.
  split. { intros path. do 2 eexists. split; [reflexivity|]. cbn. lia. }
  split; [exact shipped_well_formed|]. split; [exact shipped_full|constructor].
Qed.
