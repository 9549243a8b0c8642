(** Lemmas about the nuclear data lookups. *)
From Coq Require Import Reals List ZArith String Lia Lra Bool DecimalString.
From Verif Require Import Base XrFacts Nucleus_Model Nuclear_Model.
Import ListNotations.
Local Open Scope Z_scope.

(** Specification: rows are grouped by charge, starting at [prev] (or prev + 1) without leaving out a charge. *)
Fixpoint consecutive (prev : Z) (rows : list row) : Prop :=
  match rows with
  | [] => True
  | r :: t => (rw_Z r = prev \/ rw_Z r = prev + 1) /\ consecutive (rw_Z r) t
  end.

(** Specification: a table whose charges run from 1 upwards and stay within the list of known elements. *)
Definition well_formed (rows : list row) : Prop :=
  match rows with
  | [] => False
  | r :: t => rw_Z r = 1 /\ consecutive 1 t /\ Forall (fun r => rw_Z r <= 118) rows
  end.

(** Specification: [i] is the isotope described by row [r]. *)
Definition isotope_of_row (r : row) (i : Isotope) : Prop :=
  iZ i = rw_Z r /\ iA i = rw_A r /\ iabundance i = rw_abundance r /\ ispin i = rw_spin r /\ isp i = rw_sp r /\ isn i = rw_sn r /\
  imass i = Fin (if rw_A r =? 1 then mProton else (IZR (rw_A r) * mNucleon)%R) /\
  exists e, nth_error Nucleus_Names (Z.to_nat (rw_Z r - 1)) = Some e /\ iname i = (e ++ "-" ++ NilZero.string_of_int (Z.to_int (rw_A r)))%string.

(** Specification: [n] is the element of charge [z] of the table. *)
Definition element_of_table (rows : list row) (z : Z) (n : Nucleus) : Prop :=
  nZ n = Some z /\ nth_error Nucleus_Names (Z.to_nat (z - 1)) = Some (nname n) /\
  Forall2 isotope_of_row (filter (fun r => rw_Z r =? z) rows) (nisotopes n).

(** Specification: the table contains charge [z]. *)
Definition in_table (rows : list row) (z : Z) : Prop := exists r, In r rows /\ rw_Z r = z.

Lemma names_length : Datatypes.length Nucleus_Names = 118%nat.
Proof. reflexivity. Qed.

Lemma at_ubZ_in {A} (l : list A) i : 0 <= i < Z.of_nat (Datatypes.length l) ->
  exists a, at_ubZ l i = Ok a /\ nth_error l (Z.to_nat i) = Some a.
Proof.
  intros H. unfold at_ubZ. destruct (i <? 0) eqn:E; [apply Z.ltb_lt in E; lia|].
  destruct (i <? Z.of_nat (Datatypes.length l)) eqn:E2; [|apply Z.ltb_ge in E2; lia].
  destruct (at_ub_lt l (Z.to_nat i)) as [a [H1 H2]]; [lia|]. exists a; auto.
Qed.

Lemma at_ubZ_some {A} (l : list A) i a : 0 <= i -> nth_error l (Z.to_nat i) = Some a -> at_ubZ l i = Ok a.
Proof.
  intros H0 H. assert (L : (Z.to_nat i < Datatypes.length l)%nat) by (apply nth_error_Some; congruence).
  destruct (at_ubZ_in l i) as [b [E1 E2]]; [lia|]. congruence.
Qed.

Lemma at_ubZ_out {A} (l : list A) i : Z.of_nat (Datatypes.length l) <= i -> at_ubZ l i = UB.
Proof.
  intros H. unfold at_ubZ. destruct (i <? 0); [reflexivity|].
  destruct (i <? Z.of_nat (Datatypes.length l)) eqn:E2; [apply Z.ltb_lt in E2; lia|reflexivity].
Qed.

Lemma isotope_ctor_ok r : 1 <= rw_Z r <= 118 ->
  exists i, Isotope_ctor (rw_Z r) (rw_A r) (rw_abundance r) (rw_spin r) (rw_sp r) (rw_sn r) = Ok i /\ isotope_of_row r i.
Proof.
  intros H. unfold Isotope_ctor.
  replace (u32 (rw_Z r - 1)) with (rw_Z r - 1) by (unfold u32; rewrite Z.mod_small; lia).
  destruct (at_ubZ_in Nucleus_Names (rw_Z r - 1)) as [e [E1 E2]]; [rewrite names_length; lia|].
  rewrite E1. cbn [bind]. eexists; split; [reflexivity|].
  unfold isotope_of_row; cbn [iZ iA iabundance ispin isp isn imass iname].
  repeat (split; [reflexivity|]). split; [destruct (rw_A r =? 1); reflexivity|].
  exists e; auto.
Qed.

Lemma filter_all {A} (f : A -> bool) l : Forall (fun x => f x = true) l -> filter f l = l.
Proof. induction 1; cbn; [reflexivity|]. rewrite H, IHForall; reflexivity. Qed.
Lemma filter_none {A} (f : A -> bool) l : Forall (fun x => f x = false) l -> filter f l = [].
Proof. induction 1; cbn; [reflexivity|]. rewrite H; auto. Qed.

Lemma nucleus_ok prev isos z : prev <> [] -> 1 <= z <= 118 -> Forall (fun r => rw_Z r = z) prev -> Forall2 isotope_of_row prev isos ->
  exists n, Nucleus_of_isotopes isos = Ok n /\ nZ n = Some z /\ nth_error Nucleus_Names (Z.to_nat (z - 1)) = Some (nname n) /\ nisotopes n = isos.
Proof.
  intros Hne Hz HZ H2. destruct H2 as [|r i pt it Hr Ht]; [congruence|].
  inversion HZ as [|? ? Z1 Z2]; subst. unfold Nucleus_of_isotopes.
  destruct Hr as [E1 _].
  destruct (at_ubZ_in Nucleus_Names (rw_Z r - 1)) as [e [E3 E4]]; [rewrite names_length; lia|].
  unfold at_ub at 1; cbn [nth_error bind]. rewrite E1, E3. cbn [bind]. eexists; split; [reflexivity|]. auto.
Qed.

Lemma consecutive_ge rows : forall prev, consecutive prev rows -> Forall (fun r => prev <= rw_Z r) rows.
Proof.
  induction rows as [|r t IH]; intros prev H; constructor.
  - destruct H as [[-> | ->] _]; lia.
  - destruct H as [D C]. specialize (IH _ C). eapply Forall_impl; [|exact IH]. cbn; intros a Ha. lia.
Qed.

Lemma import_loop_ok rows : forall prev isos nuclei z,
  prev <> [] -> 1 <= z <= 118 -> Forall (fun r => rw_Z r = z) prev -> Forall2 isotope_of_row prev isos ->
  consecutive z rows -> Forall (fun r => rw_Z r <= 118) rows ->
  exists tail, import_loop rows nuclei isos z = Ok (nuclei ++ tail) /\
    (forall k, (k < Datatypes.length tail)%nat <-> in_table (prev ++ rows) (z + Z.of_nat k)) /\
    (forall k n, nth_error tail k = Some n -> element_of_table (prev ++ rows) (z + Z.of_nat k) n).
Proof.
  induction rows as [|r t IH]; intros prev isos nuclei z Hne Hz HZ H2 HC HB.
  - cbn [import_loop]. destruct (nucleus_ok prev isos z Hne Hz HZ H2) as [n [E1 [E2 [E3 E4]]]].
    rewrite E1; cbn [bind]. exists [n]. split; [reflexivity|]. rewrite app_nil_r. split.
    + intros k; cbn [Datatypes.length]. split.
      * intros Hk. assert (k = 0%nat) as -> by lia. destruct prev as [|p0 pt]; [congruence|].
        exists p0. split; [left; reflexivity|]. inversion HZ; subst. cbn; lia.
      * intros [r [Hin Hr]]. rewrite Forall_forall in HZ. specialize (HZ r Hin). lia.
    + intros k n' Hk. destruct k as [|k]; [|destruct k; discriminate]. injection Hk as <-.
      replace (z + Z.of_nat 0) with z by lia. unfold element_of_table. rewrite E2, E3, E4.
      split; [reflexivity|]. split; [reflexivity|]. rewrite filter_all; [exact H2|].
      eapply Forall_impl; [|exact HZ]. cbn; intros a ->. apply Z.eqb_refl.
  - inversion HB as [|? ? B1 B2]; subst. destruct HC as [D C].
    destruct (isotope_ctor_ok r) as [i [I1 I2]]; [lia|]. cbn [import_loop].
    destruct D as [D | D].
    + replace (z <? rw_Z r) with false by (symmetry; apply Z.ltb_ge; lia). rewrite I1; cbn [bind].
      destruct (IH (prev ++ [r]) (isos ++ [i]) nuclei z) as [tail [T1 [T2 T3]]].
      * destruct prev; discriminate.
      * lia.
      * apply Forall_app; split; [auto|]. constructor; [exact D|constructor].
      * apply Forall2_app; [auto|]. constructor; [auto|constructor].
      * rewrite D in C; exact C.
      * exact B2.
      * exists tail. rewrite <- app_assoc in T2, T3. cbn [app] in T2, T3. auto.
    + replace (z <? rw_Z r) with true by (symmetry; apply Z.ltb_lt; lia).
      destruct (nucleus_ok prev isos z Hne Hz HZ H2) as [n [E1 [E2 [E3 E4]]]].
      rewrite E1, I1; cbn [bind].
      destruct (IH [r] [i] (nuclei ++ [n]) (rw_Z r)) as [tail [T1 [T2 T3]]].
      * discriminate.
      * lia.
      * constructor; [reflexivity|constructor].
      * constructor; [auto|constructor].
      * exact C.
      * exact B2.
      * assert (G : Forall (fun x => z < rw_Z x) ([r] ++ t)).
        { constructor; [lia|]. apply consecutive_ge in C. eapply Forall_impl; [|exact C]. cbn; intros; lia. }
        exists (n :: tail). split; [rewrite T1, <- app_assoc; reflexivity|]. split.
        -- intros k. destruct k as [|k].
           ++ split; [|cbn; lia]. intros _. destruct prev as [|p0 pt]; [congruence|].
              exists p0. split; [left; reflexivity|]. inversion HZ; subst. cbn; lia.
           ++ cbn [Datatypes.length]. rewrite <- Nat.succ_lt_mono, T2. replace (rw_Z r + Z.of_nat k) with (z + Z.of_nat (S k)) by lia.
              unfold in_table. split; intros [x [Hx Ex]].
              ** exists x. split; [apply in_or_app; right; exact Hx|exact Ex].
              ** apply in_app_or in Hx. destruct Hx as [Hx | Hx]; [|exists x; auto].
                 rewrite Forall_forall in HZ. specialize (HZ x Hx). lia.
        -- intros k n' Hk. destruct k as [|k].
           ++ injection Hk as <-. replace (z + Z.of_nat 0) with z by lia. unfold element_of_table. rewrite E2, E3, E4.
              split; [reflexivity|]. split; [reflexivity|]. rewrite filter_app, filter_all, filter_none, app_nil_r; [exact H2| |].
              ** eapply Forall_impl; [|exact G]. cbn; intros a Ha. apply Z.eqb_neq; lia.
              ** eapply Forall_impl; [|exact HZ]. cbn; intros a ->. apply Z.eqb_refl.
           ++ cbn [nth_error] in Hk. apply T3 in Hk. replace (rw_Z r + Z.of_nat k) with (z + Z.of_nat (S k)) in Hk by lia.
              destruct Hk as [K1 [K2 K3]]. split; [exact K1|]. split; [exact K2|].
              rewrite filter_app, (filter_none _ prev); [exact K3|].
              eapply Forall_impl; [|exact HZ]. cbn; intros a ->. apply Z.eqb_neq; lia.
Qed.

(** The whole import. *)
Lemma import_ok rows : well_formed rows ->
  exists l, import_loop rows [] [] 1 = Ok l /\ l <> [] /\
    (forall z, 1 <= z -> (z <= Z.of_nat (Datatypes.length l) <-> in_table rows z)) /\
    (forall z n, 1 <= z -> nth_error l (Z.to_nat (z - 1)) = Some n -> element_of_table rows z n).
Proof.
  destruct rows as [|r t]; [intros []|]. intros [H1 [HC HB]]. inversion HB as [|? ? B1 B2]; subst.
  destruct (isotope_ctor_ok r) as [i [I1 I2]]; [lia|]. cbn [import_loop].
  replace (1 <? rw_Z r) with false by (symmetry; apply Z.ltb_ge; lia). rewrite I1; cbn [bind app].
  destruct (import_loop_ok t [r] [i] [] 1) as [tail [T1 [T2 T3]]]; auto; try lia.
  { discriminate. }
  cbn [app] in *. exists tail. split; [exact T1|]. split.
  - intros ->. destruct (T2 0%nat) as [_ Q]. cbn in Q. enough (0 < 0)%nat by lia. apply Q. exists r. split; [left; reflexivity|exact H1].
  - split.
    + intros z Hz. specialize (T2 (Z.to_nat (z - 1))). replace (1 + Z.of_nat (Z.to_nat (z - 1))) with z in T2 by lia.
      rewrite <- T2. lia.
    + intros z n Hz Hn. specialize (T3 _ _ Hn). replace (1 + Z.of_nat (Z.to_nat (z - 1))) with z in T3 by lia. exact T3.
Qed.

(** Worlds reachable from the start of the program by any sequence of successful lookups. *)
Inductive world_history (rows : list row) : nuclear_world -> Prop :=
| wh_start : world_history rows (fresh_world rows)
| wh_query w q n w' : world_history rows w -> lookup w q = Ok (n, w') -> world_history rows w'.

Definition world_inv (rows : list row) (w : nuclear_world) : Prop :=
  nw_file w = Some rows /\ (nw_all w = [] \/ import_loop rows [] [] 1 = Ok (nw_all w)).

Lemma get_nucleus_inv rows w z n w' : world_inv rows w -> Get_Nucleus w z = Ok (n, w') -> world_inv rows w'.
Proof.
  intros [F A] H. unfold Get_Nucleus in H. destruct ((z <? 1) || (92 <? z)); [discriminate|].
  destruct (Datatypes.length (nw_all w) =? 0)%nat eqn:E.
  - unfold Import_Nuclear_Data in H. rewrite F in H. destruct (import_loop rows [] [] 1) as [l| | |] eqn:L; cbn [bind] in H; try discriminate.
    cbn [nw_all] in H. destruct (at_ubZ l (z - 1)); cbn [bind] in H; try discriminate.
    apply Ok_inj in H. injection H as _ <-. split; [reflexivity|]. right; exact L.
  - cbn [bind] in H. destruct (at_ubZ (nw_all w) (z - 1)); cbn [bind] in H; try discriminate.
    apply Ok_inj in H. injection H as _ <-. split; auto.
Qed.

Lemma name_loop_inv rows k : forall z w s n w', world_inv rows w -> name_loop k z w s = Ok (n, w') -> world_inv rows w'.
Proof.
  induction k as [|k IH]; intros z w s n w' I H; cbn [name_loop] in H; [discriminate|].
  destruct (Get_Nucleus w z) as [[n1 w1]| | |] eqn:G; cbn [bind] in H; try discriminate. cbn [fst snd] in H.
  pose proof (get_nucleus_inv _ _ _ _ _ I G) as I1.
  destruct (nname n1 =? s)%string; [eapply get_nucleus_inv; eauto|]. exact (IH _ _ _ _ _ I1 H).
Qed.

Lemma history_inv rows w : world_history rows w -> world_inv rows w.
Proof.
  induction 1 as [|w q n w' _ IH H]; [split; [reflexivity|left; reflexivity]|].
  destruct q; cbn [lookup] in H; [eapply get_nucleus_inv; eauto|]. unfold Get_Nucleus_by_name in H. eapply name_loop_inv; eauto.
Qed.

Lemma get_nucleus_in rows w z : well_formed rows -> world_history rows w -> 1 <= z <= 92 -> in_table rows z ->
  exists n w', Get_Nucleus w z = Ok (n, w') /\ element_of_table rows z n.
Proof.
  intros WF H Hz Hin. apply history_inv in H. destruct H as [F A].
  destruct (import_ok rows WF) as [l [L [Hl [T2 T3]]]].
  assert (B : z <= Z.of_nat (Datatypes.length l)) by (apply T2; auto; lia).
  destruct (at_ubZ_in l (z - 1)) as [n [N1 N2]]; [lia|].
  unfold Get_Nucleus. replace ((z <? 1) || (92 <? z)) with false
    by (symmetry; apply orb_false_iff; split; apply Z.ltb_ge; lia).
  destruct A as [A | A].
  - rewrite A. cbn [Datatypes.length Nat.eqb]. unfold Import_Nuclear_Data. rewrite F, L. cbn [bind nw_all]. rewrite N1. cbn [bind].
    do 2 eexists; split; [reflexivity|]. apply T3; [lia|exact N2].
  - rewrite L in A. apply Ok_inj in A. rewrite <- A. replace (Datatypes.length l =? 0)%nat with false.
    2:{ symmetry; apply Nat.eqb_neq. destruct l; [congruence|discriminate]. }
    cbn [bind]. rewrite <- A, N1. cbn [bind]. do 2 eexists; split; [reflexivity|]. apply T3; [lia|exact N2].
Qed.

Lemma get_nucleus_out rows w z : well_formed rows -> world_history rows w -> ~ 1 <= z <= 92 -> Get_Nucleus w z = Exit.
Proof.
  intros _ _ H. unfold Get_Nucleus. replace ((z <? 1) || (92 <? z)) with true; [reflexivity|].
  symmetry; apply orb_true_iff. destruct (Z.ltb_spec z 1); [left; reflexivity|right]. apply Z.ltb_lt; lia.
Qed.

Lemma get_nucleus_missing rows w z : well_formed rows -> world_history rows w -> 1 <= z <= 92 -> ~ in_table rows z -> Get_Nucleus w z = UB.
Proof.
  intros WF H Hz Hin. apply history_inv in H. destruct H as [F A].
  destruct (import_ok rows WF) as [l [L [Hl [T2 T3]]]].
  assert (B : ~ z <= Z.of_nat (Datatypes.length l)) by (intros Q; apply Hin, T2; auto; lia).
  unfold Get_Nucleus. replace ((z <? 1) || (92 <? z)) with false
    by (symmetry; apply orb_false_iff; split; apply Z.ltb_ge; lia).
  destruct A as [A | A].
  - rewrite A. cbn [Datatypes.length Nat.eqb]. unfold Import_Nuclear_Data. rewrite F, L. cbn [bind nw_all]. rewrite at_ubZ_out by lia. reflexivity.
  - rewrite L in A. apply Ok_inj in A. rewrite <- A. replace (Datatypes.length l =? 0)%nat with false.
    2:{ symmetry; apply Nat.eqb_neq. destruct l; [congruence|discriminate]. }
    cbn [bind]. rewrite <- A, at_ubZ_out by lia. reflexivity.
Qed.

(** Lookups do not depend on the history: the answer is a function of the table. *)
Lemma get_nucleus_stable rows w1 w2 z : well_formed rows -> world_history rows w1 -> world_history rows w2 -> 1 <= z <= 92 -> in_table rows z ->
  exists n v1 v2, Get_Nucleus w1 z = Ok (n, v1) /\ Get_Nucleus w2 z = Ok (n, v2).
Proof.
  intros WF H1 H2 Hz Hin.
  assert (K : forall w, world_history rows w -> exists n l w', import_loop rows [] [] 1 = Ok l /\ nth_error l (Z.to_nat (z - 1)) = Some n /\ Get_Nucleus w z = Ok (n, w')).
  { intros w H. destruct (get_nucleus_in rows w z WF H Hz Hin) as [n [w' [G _]]].
    exists n. apply history_inv in H. destruct H as [F A]. destruct (import_ok rows WF) as [l [L [Hl _]]]. exists l, w'.
    split; [exact L|]. split; [|exact G]. unfold Get_Nucleus in G. destruct ((z <? 1) || (92 <? z)); [discriminate|].
    assert (X : exists w0, (if (Datatypes.length (nw_all w) =? 0)%nat then let* l := Import_Nuclear_Data w in Ok (mkWorld (nw_file w) l) else Ok w) = Ok w0 /\ nw_all w0 = l).
    { destruct A as [A | A].
      - rewrite A. cbn [Datatypes.length Nat.eqb]. unfold Import_Nuclear_Data. rewrite F, L. cbn [bind]. eexists; split; [reflexivity|]. reflexivity.
      - rewrite L in A. apply Ok_inj in A. rewrite <- A. replace (Datatypes.length l =? 0)%nat with false; [eexists; split; [reflexivity|congruence]|].
        symmetry; apply Nat.eqb_neq. destruct l; [congruence|discriminate]. }
    destruct X as [w0 [E1 E2]]. rewrite E1 in G. cbn [bind] in G. rewrite E2 in G.
    unfold at_ubZ in G. destruct (z - 1 <? 0); [discriminate|]. destruct (z - 1 <? _); [|discriminate].
    unfold at_ub in G. destruct (nth_error l (Z.to_nat (z - 1))) as [m|]; [|discriminate]. cbn [bind] in G. apply Ok_inj in G. congruence. }
  destruct (K w1 H1) as [n1 [l1 [v1 [A1 [B1 C1]]]]]. destruct (K w2 H2) as [n2 [l2 [v2 [A2 [B2 C2]]]]].
  rewrite A1 in A2. apply Ok_inj in A2. subst l2. rewrite B1 in B2. injection B2 as <-. exists n1, v1, v2; auto.
Qed.

(** Lookup by name. *)
Lemma names_nodup : NoDup Nucleus_Names.
Proof.
  assert (H : (fix nd (l : list string) := match l with [] => true | a :: t => negb (existsb (String.eqb a) t) && nd t end) Nucleus_Names = true) by (vm_compute; reflexivity).
  revert H. generalize Nucleus_Names. induction l as [|a t IH]; intros H; constructor.
  - apply andb_prop in H as [H _]. intros Hin. apply negb_true_iff in H. assert (existsb (String.eqb a) t = true); [|congruence].
    apply existsb_exists. exists a. split; [exact Hin|apply String.eqb_refl].
  - apply IH. apply andb_prop in H as [_ H]. exact H.
Qed.

Definition full_table (rows : list row) : Prop := forall z, 1 <= z <= 92 -> in_table rows z.

Lemma get_nucleus_world rows w z n w' : world_history rows w -> Get_Nucleus w z = Ok (n, w') -> world_history rows w'.
Proof. intros H G. exact (wh_query rows w (ByCharge z) n w' H G). Qed.

Lemma name_loop_found rows : well_formed rows -> full_table rows -> forall k z w z0 n0 w0, world_history rows w ->
  1 <= z -> z + Z.of_nat k = 93 -> z <= z0 <= 92 -> Get_Nucleus w z0 = Ok (n0, w0) ->
  exists w', name_loop k z w (nname n0) = Ok (n0, w').
Proof.
  intros WF FT. induction k as [|k IH]; intros z w z0 n0 w0 H Hz Hk Hz0 G0; [lia|]. cbn [name_loop].
  destruct (get_nucleus_in rows w z WF H) as [n [w1 [G E]]]; [lia|apply FT; lia|]. rewrite G; cbn [bind fst snd].
  pose proof (get_nucleus_world _ _ _ _ _ H G) as H1.
  destruct (get_nucleus_in rows w z0 WF H) as [m [w2 [G' E0]]]; [lia|apply FT; lia|]. rewrite G0 in G'. apply Ok_inj in G'. injection G' as <- <-.
  destruct (Z.eq_dec z z0) as [<- | Ne].
  - rewrite G in G0. apply Ok_inj in G0. injection G0 as <- <-. rewrite String.eqb_refl.
    destruct (get_nucleus_stable rows w w1 z WF H H1) as [n' [v1 [v2 [Q1 Q2]]]]; [lia|apply FT; lia|].
    rewrite G in Q1. apply Ok_inj in Q1. injection Q1 as <- <-. exists v2; exact Q2.
  - destruct (nname n =? nname n0)%string eqn:En.
    + exfalso. apply String.eqb_eq in En. destruct E as [_ [E _]]. destruct E0 as [_ [E0 _]]. rewrite En in E.
      assert (Z.to_nat (z - 1) = Z.to_nat (z0 - 1)); [|lia]. apply (proj1 (NoDup_nth_error Nucleus_Names) names_nodup); [|congruence].
      apply nth_error_Some. congruence.
    + destruct (get_nucleus_stable rows w w1 z0 WF H H1) as [n' [v1 [v2 [Q1 Q2]]]]; [lia|apply FT; lia|].
      rewrite G0 in Q1. apply Ok_inj in Q1. injection Q1 as <- <-.
      exact (IH (z + 1) w1 z0 n0 v2 H1 ltac:(lia) ltac:(lia) ltac:(lia) Q2).
Qed.

Lemma name_loop_missing rows s : well_formed rows -> full_table rows -> (forall k, (k < 92)%nat -> nth_error Nucleus_Names k <> Some s) ->
  forall k z w, world_history rows w -> 1 <= z -> z + Z.of_nat k = 93 -> name_loop k z w s = Exit.
Proof.
  intros WF FT Hs. induction k as [|k IH]; intros z w H Hz Hk; cbn [name_loop]; [reflexivity|].
  destruct (get_nucleus_in rows w z WF H) as [n [w1 [G E]]]; [lia|apply FT; lia|]. rewrite G; cbn [bind fst snd].
  destruct (nname n =? s)%string eqn:En.
  - exfalso. apply String.eqb_eq in En. destruct E as [_ [E _]]. rewrite En in E. apply (Hs (Z.to_nat (z - 1))); [lia|exact E].
  - apply IH; try lia. eapply get_nucleus_world; eauto.
Qed.

(** By name and by charge. *)
Lemma by_name_is_by_charge rows w z s : well_formed rows -> full_table rows -> world_history rows w -> 1 <= z <= 92 ->
  nth_error Nucleus_Names (Z.to_nat (z - 1)) = Some s ->
  exists n w1 w2, Get_Nucleus_by_name w s = Ok (n, w1) /\ Get_Nucleus w z = Ok (n, w2) /\ element_of_table rows z n.
Proof.
  intros WF FT H Hz Hs. destruct (get_nucleus_in rows w z WF H Hz (FT z Hz)) as [n [w2 [G E]]].
  destruct (name_loop_found rows WF FT 92 1 w z n w2 H) as [w1 L]; try lia; auto.
  exists n, w1, w2. split; [|auto]. unfold Get_Nucleus_by_name. destruct E as [_ [E _]]. rewrite Hs in E. injection E as ->. exact L.
Qed.

Lemma by_name_unknown rows w s : well_formed rows -> full_table rows -> world_history rows w ->
  (forall k, (k < 92)%nat -> nth_error Nucleus_Names k <> Some s) -> Get_Nucleus_by_name w s = Exit.
Proof. intros WF FT H Hs. apply (name_loop_missing rows s WF FT Hs); auto; lia. Qed.

(** Isotope lookup: the first row of that charge and mass number. *)
Lemma isotope_lookup rows w z a : well_formed rows -> world_history rows w -> 1 <= z <= 92 -> in_table rows z ->
  match find (fun r => (rw_Z r =? z) && (rw_A r =? a)) rows with
  | Some r => exists i w', Get_Isotope w z a = Ok (i, w') /\ isotope_of_row r i
  | None => Get_Isotope w z a = Exit
  end.
Proof.
  intros WF H Hz Hin. destruct (get_nucleus_in rows w z WF H Hz Hin) as [n [w' [G [_ [_ E]]]]].
  unfold Get_Isotope. rewrite G; cbn [bind fst snd]. unfold Nucleus_Get_Isotope. revert E. generalize (nisotopes n).
  clear -rows. induction rows as [|r t IH]; intros l E; cbn [filter find] in *.
  - inversion E; subst. reflexivity.
  - destruct (rw_Z r =? z); cbn [andb].
    + inversion E as [|x i lt it Hi Ht]; subst. cbn [Get_Isotope_loop]. destruct Hi as [I1 [I2 I3]]. rewrite I2.
      destruct (rw_A r =? a); cbn [bind]; [do 2 eexists; split; [reflexivity|]; split; [exact I1|]; split; [exact I2|exact I3]|].
      apply IH; exact Ht.
    + apply IH; exact E.
Qed.

(** The shipped file. *)
Fixpoint consecutiveb (prev : Z) (l : list Z) : bool :=
  match l with [] => true | a :: t => ((a =? prev) || (a =? prev + 1)) && consecutiveb a t end.
Definition raw_Z (r : raw_row) : Z := match r with Raw _ z _ _ _ _ _ => z end.

Lemma consecutive_of_b rows : forall prev, consecutiveb prev (map rw_Z rows) = true -> consecutive prev rows.
Proof.
  induction rows as [|r t IH]; intros prev H; cbn in *; [exact I|]. apply andb_prop in H as [H1 H2]. split; [|apply IH; exact H2].
  apply orb_prop in H1 as [H1 | H1]; apply Z.eqb_eq in H1; auto.
Qed.

Lemma shipped_charges : map rw_Z shipped_rows = map raw_Z shipped_raw.
Proof. unfold shipped_rows. rewrite map_map. apply map_ext. intros [? ? ? ? ? ? ?]; reflexivity. Qed.

Lemma shipped_well_formed : well_formed shipped_rows.
Proof.
  assert (C : consecutiveb 1 (map rw_Z shipped_rows) = true) by (rewrite shipped_charges; vm_compute; reflexivity).
  assert (B : Forall (fun r => rw_Z r <= 118) shipped_rows).
  { apply Forall_map with (f := rw_Z) (P := fun z => z <= 118). rewrite shipped_charges.
    apply Forall_forall. intros z Hz. assert (F : forallb (fun z => z <=? 118) (map raw_Z shipped_raw) = true) by (vm_compute; reflexivity).
    rewrite forallb_forall in F. apply Z.leb_le, F, Hz. }
  apply consecutive_of_b in C. unfold well_formed. destruct shipped_rows as [|r t] eqn:E; [discriminate E|].
  assert (R : rw_Z r = 1) by (change r with (hd r (r :: t)); rewrite <- E; reflexivity).
  split; [exact R|]. split; [|exact B]. destruct C as [_ C]. rewrite R in C. exact C.
Qed.

Lemma shipped_full : full_table shipped_rows.
Proof.
  intros z Hz. assert (H : In z (map rw_Z shipped_rows)).
  { rewrite shipped_charges. assert (F : forallb (fun k => existsb (Z.eqb (Z.of_nat k)) (map raw_Z shipped_raw)) (seq 1 92) = true) by (vm_compute; reflexivity).
    rewrite forallb_forall in F. specialize (F (Z.to_nat z)). rewrite existsb_exists in F. destruct F as [y [Y1 Y2]]; [apply in_seq; lia|].
    apply Z.eqb_eq in Y2. replace z with y by lia. exact Y1. }
  apply in_map_iff in H. destruct H as [r [R1 R2]]. exists r; auto.
Qed.

(** Average nuclear mass: a nucleus with non-negative finite abundances that do not all vanish has a positive mass. *)
Local Open Scope R_scope.
Definition raw_ok (r : raw_row) : bool := match r with Raw _ _ a ab _ _ _ => (1 <=? a)%Z && (0 <=? fst ab)%Z end.
Definition raw_pos (r : raw_row) : bool := match r with Raw _ _ _ ab _ _ _ => (0 <? fst ab)%Z end.

Lemma average_mass_sum l : forall rs acc, Forall2 isotope_of_row (map row_of_raw rs) l -> Forall (fun r => raw_ok r = true) rs -> 0 <= acc ->
  exists x, fold_left (fun acc i => xadd acc (xmul (imass i) (iabundance i))) l (Fin acc) = Fin x /\ acc <= x /\
    (existsb raw_pos rs = true -> 0 < x) /\ (existsb raw_pos rs = false -> x = acc).
Proof.
  induction l as [|i t IH]; intros rs acc H2 HO Ha.
  - destruct rs; inversion H2; subst. exists acc. cbn. split; [reflexivity|]. split; [lra|]. split; [discriminate|auto].
  - destruct rs as [|r rt]; inversion H2 as [|? ? ? ? Hi Ht]; subst. inversion HO as [|? ? O1 O2]; subst.
    destruct r as [nm z a [m e] sp p n]. cbn [row_of_raw] in Hi. destruct Hi as [_ [_ [I3 [_ [_ [_ [I7 _]]]]]]]. cbn [rw_abundance rw_A] in *.
    cbn [raw_ok fst] in O1. apply andb_prop in O1 as [A1 A2]. apply Z.leb_le in A1, A2.
    cbn [fold_left]. rewrite I3, I7. unfold decimal; cbn [fst snd].
    set (M := (if (a =? 1)%Z then mProton else IZR a * mNucleon)). assert (HM : 0 < M).
    { unfold M. destruct (a =? 1)%Z; [exact mProton_pos|]. apply Rmult_lt_0_compat; [apply IZR_lt; lia|exact mNucleon_pos]. }
    assert (HE : 0 < 10 ^ e) by (apply pow_lt; lra). apply IZR_le in A2.
    assert (HP : 0 <= M * (IZR m / 10 ^ e)).
    { apply Rmult_le_pos; [lra|]. unfold Rdiv. apply Rmult_le_pos; [exact A2|]. left; apply Rinv_0_lt_compat, HE. }
    rewrite xmul_fin, xadd_fin. destruct (IH rt (acc + M * (IZR m / 10 ^ e)) Ht O2) as [x [E [X1 [X2 X3]]]]; [lra|].
    exists x. split; [exact E|]. split; [lra|]. cbn [existsb raw_pos fst]. destruct (Z.ltb_spec 0 m) as [Hm | Hm]; cbn [orb].
    + split; [|discriminate]. intros _. apply IZR_lt in Hm. assert (0 < M * (IZR m / 10 ^ e)); [|lra].
      apply Rmult_lt_0_compat; [exact HM|]. apply Rmult_lt_0_compat; [exact Hm|]. apply Rinv_0_lt_compat, HE.
    + split; [exact X2|]. intros E0. rewrite (X3 E0). assert (IZR m = 0) as -> by (apply IZR_le in Hm; lra). unfold Rdiv; ring.
Qed.

Lemma filter_map_raw z : forall rs, filter (fun r => (rw_Z r =? z)%Z) (map row_of_raw rs) = map row_of_raw (filter (fun r => (raw_Z r =? z)%Z) rs).
Proof. induction rs as [|r t IH]; [reflexivity|]. destruct r as [nm zz a ab sp p n]; cbn. destruct (zz =? z)%Z; cbn; rewrite IH; reflexivity. Qed.

Lemma shipped_average w z n w' : world_history shipped_rows w -> Get_Nucleus w z = Ok (n, w') ->
  exists x, Average_Nuclear_Mass n = Fin x /\
    (x = 0 <-> existsb raw_pos (filter (fun r => (raw_Z r =? z)%Z) shipped_raw) = false) /\ 0 <= x.
Proof.
  intros H G. assert (Hz : (1 <= z <= 92)%Z).
  { destruct (Z_le_dec 1 z) as [A|A]; [destruct (Z_le_dec z 92) as [B|B]; [lia|]|]; rewrite (get_nucleus_out shipped_rows) in G; auto; try discriminate; try exact shipped_well_formed; lia. }
  destruct (get_nucleus_in shipped_rows w z shipped_well_formed H Hz (shipped_full z Hz)) as [n' [v [G' [_ [_ E]]]]].
  rewrite G in G'. apply Ok_inj in G'. injection G' as <- <-.
  unfold shipped_rows in E. rewrite filter_map_raw in E.
  destruct (average_mass_sum (nisotopes n) (filter (fun r => (raw_Z r =? z)%Z) shipped_raw) 0 E) as [x [X1 [X2 [X3 X4]]]]; [|lra|].
  - apply Forall_forall. intros r Hr. apply filter_In in Hr as [Hr _].
    assert (F : forallb raw_ok shipped_raw = true) by (vm_compute; reflexivity). rewrite forallb_forall in F. exact (F r Hr).
  - exists x. split; [exact X1|]. split; [|exact X2]. destruct (existsb raw_pos _) eqn:B.
    + specialize (X3 eq_refl). split; [intros ->; lra|discriminate].
    + split; auto.
Qed.

Lemma shipped_mass_positive w z n w' : world_history shipped_rows w -> Get_Nucleus w z = Ok (n, w') ->
  (z <> 43%Z -> z <> 61%Z -> exists x, Average_Nuclear_Mass n = Fin x /\ 0 < x) /\ (z = 43%Z \/ z = 61%Z -> Average_Nuclear_Mass n = Fin 0).
Proof.
  intros H G. destruct (shipped_average w z n w' H G) as [x [X1 [X2 X3]]].
  assert (Hz : (1 <= z <= 92)%Z).
  { destruct (Z_le_dec 1 z) as [A|A]; [destruct (Z_le_dec z 92) as [B|B]; [lia|]|]; rewrite (get_nucleus_out shipped_rows) in G; auto; try discriminate; try exact shipped_well_formed; lia. }
  assert (F : forallb (fun k => eqb (existsb raw_pos (filter (fun r => (raw_Z r =? Z.of_nat k)%Z) shipped_raw)) (negb ((k =? 43)%nat || (k =? 61)%nat))) (seq 1 92) = true) by (vm_compute; reflexivity).
  rewrite forallb_forall in F. specialize (F (Z.to_nat z)). rewrite Z2Nat.id in F by lia. specialize (F ltac:(apply in_seq; lia)).
  apply eqb_prop in F. rewrite F in X2. split.
  - intros N1 N2. exists x. split; [exact X1|]. destruct X3 as [X3 | X3]; [exact X3|]. symmetry in X3. apply X2 in X3.
    apply negb_false_iff, orb_prop in X3. destruct X3 as [X3 | X3]; apply Nat.eqb_eq in X3; lia.
  - intros D. rewrite X1. f_equal. apply X2. destruct D as [-> | ->]; reflexivity.
Qed.

Lemma short_table : exists rows w z, well_formed rows /\ world_history rows w /\ (1 <= z <= 92)%Z /\
  ~ in_table rows z /\ Get_Nucleus w z = UB.
Proof.
  set (rows := [row_of_raw (Raw "H" 1 1 (1%Z, 0%nat) (5%Z, 1%nat) (5%Z, 1%nat) (0%Z, 0%nat))]).
  assert (WF : well_formed rows). { split; [reflexivity|]. split; [exact I|]. constructor; [cbn; lia|constructor]. }
  assert (NI : ~ in_table rows 2). { intros [r [[<- | []] E]]. cbn in E. lia. }
  exists rows, (fresh_world rows), 2%Z. split; [exact WF|]. split; [constructor|]. split; [lia|]. split; [exact NI|].
  apply (get_nucleus_missing rows _ 2 WF); [constructor|lia|exact NI].
Qed.

Lemma zero_mass : exists w z n w', world_history shipped_rows w /\ Get_Nucleus w z = Ok (n, w') /\ Average_Nuclear_Mass n = Fin 0.
Proof.
  destruct (get_nucleus_in shipped_rows (fresh_world shipped_rows) 43 shipped_well_formed (wh_start _) ltac:(lia) (shipped_full 43%Z ltac:(lia))) as [n [w' [G _]]].
  exists (fresh_world shipped_rows), 43%Z, n, w'. split; [constructor|]. split; [exact G|].
  apply (shipped_mass_positive (fresh_world shipped_rows) 43 n w'); auto. constructor.
Qed.
