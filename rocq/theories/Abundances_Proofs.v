(** The natural abundances of the shipped nuclear data. *)
From Coq Require Import Reals ZArith String Lia Lra Bool.
From Coq Require Import List.
From Verif Require Import Base XrFacts Nucleus_Model Nuclear_Model Nuclear_Proofs.
Import ListNotations.
Local Open Scope R_scope.

(** * Specification *)
(** The abundances of the isotopes of an element, in order. *)
Definition abundances (n : Nucleus) (l : list R) : Prop := Forall2 (fun i y => iabundance i = Fin y) (nisotopes n) l.
Fixpoint total_of (l : list R) : R := match l with [] => 0 | x :: r => x + total_of r end.
(** Elements whose shipped abundances do not add up to 1: calcium, technetium, xenon, promethium, tantalum, mercury. *)
Definition irregular : list Z := [20; 43; 54; 61; 73; 80]%Z.

(** * The table in units of 10^-10 *)
Definition raw_parts (r : raw_row) : Z := match r with Raw _ _ _ ab _ _ _ => (fst ab * 10 ^ (10 - Z.of_nat (snd ab)))%Z end.
Definition raw_short (r : raw_row) : bool := match r with Raw _ _ _ ab _ _ _ => (snd ab <=? 10)%nat end.
Definition raw_total (z : Z) : Z := fold_right (fun r t => raw_parts r + t)%Z 0%Z (filter (fun r => (raw_Z r =? z)%Z) shipped_raw).
Lemma parts_value d : (snd d <= 10)%nat -> decimal d = Fin (IZR (fst d * 10 ^ (10 - Z.of_nat (snd d))) / 10 ^ 10).
Proof.
  intros H. unfold decimal. f_equal. rewrite mult_IZR. replace (10 - Z.of_nat (snd d))%Z with (Z.of_nat (10 - snd d)) by lia. rewrite <- pow_IZR.
  assert (E : 10 ^ 10 = 10 ^ (10 - snd d) * 10 ^ snd d) by (rewrite <- pow_add; f_equal; lia). rewrite E. field. split; apply pow_nonzero; lra.
Qed.
Lemma raw_sum l : forall rs, Forall2 isotope_of_row (map row_of_raw rs) l -> forallb raw_short rs = true ->
  exists ys, Forall2 (fun i y => iabundance i = Fin y) l ys /\ total_of ys = IZR (fold_right (fun r t => raw_parts r + t)%Z 0%Z rs) / 10 ^ 10.
Proof.
  induction l as [|i l IH]; intros rs F S; destruct rs as [|r rs]; cbn [map] in F; try (inversion F; fail).
  - exists []. split; [constructor|]. cbn [total_of fold_right]. unfold Rdiv. rewrite Rmult_0_l. reflexivity.
  - inversion F as [|? ? ? ? Hi F']; subst. cbn [forallb] in S. apply andb_prop in S as [S1 S2]. destruct (IH rs F' S2) as (ys & Y & T).
    destruct r as [nm z a ab sp p q]. cbn [row_of_raw] in Hi. destruct Hi as (_ & _ & H & _). cbn [rw_abundance] in H. cbn [raw_short] in S1. apply Nat.leb_le in S1. rewrite (parts_value ab S1) in H.
    exists (IZR (fst ab * 10 ^ (10 - Z.of_nat (snd ab))) / 10 ^ 10 :: ys). split; [constructor; assumption|]. cbn [total_of fold_right]. rewrite T, plus_IZR. cbn [raw_parts]. unfold Rdiv. ring.
Qed.
Lemma shipped_short : forallb raw_short shipped_raw = true.
Proof. vm_compute. reflexivity. Qed.
Lemma forallb_filter {A} (p q : A -> bool) l : forallb p l = true -> forallb p (filter q l) = true.
Proof. rewrite !forallb_forall. intros H x Hx. apply filter_In in Hx. apply H, Hx. Qed.
Lemma shipped_total z n : element_of_table shipped_rows z n -> exists ys, abundances n ys /\ total_of ys = IZR (raw_total z) / 10 ^ 10.
Proof. intros (_ & _ & F). unfold shipped_rows in F. rewrite filter_map_raw in F. apply (raw_sum _ _ F). apply forallb_filter, shipped_short. Qed.
Definition total_checked (k : nat) : bool :=
  let z := Z.of_nat k in let t := raw_total z in
  (if existsb (Z.eqb z) irregular then negb (t =? 10 ^ 10)%Z else (t =? 10 ^ 10)%Z) &&
  (if ((z =? 43) || (z =? 61))%Z then (t =? 0)%Z else (Z.abs (t - 10 ^ 10) <=? 12 * 10 ^ 5)%Z).
Lemma totals_checked : forallb total_checked (seq 1 92) = true.
Proof. vm_compute. reflexivity. Qed.
Lemma abundances_same n l l' : abundances n l -> abundances n l' -> l = l'.
Proof.
  unfold abundances. generalize (nisotopes n). intros is. revert l l'. induction is as [|i is IH]; intros l l' H H'; inversion H; inversion H'; subst; [reflexivity|]. f_equal; [congruence|]. apply IH; assumption.
Qed.

(** * The totals *)
Lemma shipped_abundances w z n w' : world_history shipped_rows w -> Get_Nucleus w z = Ok (n, w') ->
  exists l, abundances n l /\ (~ In z irregular -> total_of l = 1) /\ (In z irregular -> total_of l <> 1) /\ (z <> 43%Z -> z <> 61%Z -> Rabs (total_of l - 1) <= 0.00012) /\ (z = 43%Z \/ z = 61%Z -> total_of l = 0).
Proof.
  intros H G. assert (Hz : (1 <= z <= 92)%Z).
  { destruct (Z_le_dec 1 z) as [A|A]; [destruct (Z_le_dec z 92) as [B|B]; [lia|]|]; rewrite (get_nucleus_out shipped_rows) in G; auto; try discriminate; try exact shipped_well_formed; lia. }
  destruct (get_nucleus_in shipped_rows w z shipped_well_formed H Hz (shipped_full z Hz)) as (n' & v & G' & E). rewrite G in G'. apply Ok_inj in G'. injection G' as <- _.
  destruct (shipped_total z n E) as (l & A & T). exists l. split; [exact A|].
  assert (C : total_checked (Z.to_nat z) = true). { assert (K := totals_checked). rewrite forallb_forall in K. apply K. apply in_seq. lia. }
  unfold total_checked in C. rewrite Z2Nat.id in C by lia. cbv zeta in C. apply andb_prop in C as [C1 C2]. assert (P : 0 < 10 ^ 10) by (apply pow_lt; lra). assert (Q : IZR (10 ^ 10) = 10 ^ 10) by (rewrite (pow_IZR 10 10); reflexivity).
  split; [|split; [|split]].
  - intros N. destruct (existsb (Z.eqb z) irregular) eqn:X; [exfalso; apply existsb_exists in X; destruct X as (y & Y & B); apply Z.eqb_eq in B; subst y; auto|]. apply Z.eqb_eq in C1. rewrite T, C1, Q. field; try lra.
  - intros N. replace (existsb (Z.eqb z) irregular) with true in C1 by (symmetry; apply existsb_exists; exists z; split; [exact N|apply Z.eqb_refl]). apply negb_true_iff, Z.eqb_neq in C1. rewrite T. intros B. apply C1. apply eq_IZR. rewrite Q. apply (f_equal (fun x => x * 10 ^ 10)) in B. unfold Rdiv in B. rewrite Rmult_assoc, Rinv_l, Rmult_1_r, Rmult_1_l in B by lra. exact B.
  - intros N1 N2. replace ((z =? 43) || (z =? 61))%Z%bool with false in C2 by (symmetry; apply orb_false_intro; apply Z.eqb_neq; auto). apply Z.leb_le, IZR_le in C2. rewrite abs_IZR, minus_IZR, Q, mult_IZR in C2. replace (IZR (10 ^ 5)) with (10 ^ 5) in C2 by (rewrite (pow_IZR 10 5); reflexivity).
    rewrite T. clear C1 T. generalize dependent (IZR (raw_total z)). intros x C2. replace (x / 10 ^ 10 - 1) with ((x - 10 ^ 10) / 10 ^ 10) by (unfold Rdiv; rewrite Rmult_minus_distr_r, Rinv_r by lra; reflexivity). unfold Rdiv. rewrite Rabs_mult, (Rabs_pos_eq (/ 10 ^ 10)) by (left; apply Rinv_0_lt_compat; exact P). apply (Rmult_le_reg_r (10 ^ 10)); [exact P|]. rewrite Rmult_assoc, Rinv_l, Rmult_1_r by lra. lra.
  - intros N. replace ((z =? 43) || (z =? 61))%Z%bool with true in C2 by (symmetry; apply orb_true_iff; destruct N as [-> | ->]; auto). apply Z.eqb_eq in C2. rewrite T, C2. unfold Rdiv. ring.
Qed.
Lemma xenon_total : raw_total 54 = 9999900000%Z.
Proof. vm_compute. reflexivity. Qed.
Lemma abundances_refuted : exists w n w' l, world_history shipped_rows w /\ Get_Nucleus w 54 = Ok (n, w') /\ abundances n l /\ total_of l = 0.99999.
Proof.
  destruct (get_nucleus_in shipped_rows (fresh_world shipped_rows) 54%Z shipped_well_formed (wh_start shipped_rows) ltac:(lia) (shipped_full 54%Z ltac:(lia))) as (n & v & G & E).
  destruct (shipped_total 54%Z n E) as (l & A & T). exists (fresh_world shipped_rows), n, v, l. split; [constructor|]. split; [exact G|]. split; [exact A|]. rewrite T, xenon_total. lra.
Qed.
Lemma abundances_instance : exists n w', Get_Nucleus (fresh_world shipped_rows) 32 = Ok (n, w') /\ world_history shipped_rows (fresh_world shipped_rows) /\ ~ In 32%Z irregular.
Proof.
  destruct (get_nucleus_in shipped_rows (fresh_world shipped_rows) 32%Z shipped_well_formed (wh_start shipped_rows) ltac:(lia) (shipped_full 32%Z ltac:(lia))) as (n & v & G & _).
  exists n, v. split; [exact G|]. split; [constructor|]. cbn. intuition discriminate.
Qed.
