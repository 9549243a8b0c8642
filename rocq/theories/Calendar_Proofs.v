(** Proofs about the calendar and sidereal time functions of Astronomy_Model.v. *)
From Coq Require Import Reals ZArith Lia Lra Bool.
From Verif Require Import Base XrFacts Astronomy_Model Calendar_Spec.
Local Open Scope R_scope.

Lemma Int_part_spec r z : r - 1 < IZR z <= r -> z = Int_part r.
Proof.
  intros [H1 H2]. destruct (base_Int_part r) as [h1 h2].
  assert (z < Int_part r + 1)%Z by (apply lt_IZR; rewrite plus_IZR; lra).
  assert (Int_part r < z + 1)%Z by (apply lt_IZR; rewrite plus_IZR; lra).
  lia.
Qed.

Lemma Int_part_ratio p q : (0 < q)%Z -> Int_part (IZR p / IZR q) = (p / q)%Z.
Proof.
  intros Hq. symmetry. apply Int_part_spec.
  assert (hq : 0 < IZR q) by (apply IZR_lt; auto).
  assert (h := Z.div_mod p q ltac:(lia)). assert (hm := Z.mod_pos_bound p q Hq).
  set (d := (p / q)%Z) in *. set (m := (p mod q)%Z) in *.
  assert (hp : IZR p = IZR q * IZR d + IZR m) by (rewrite h, plus_IZR, mult_IZR; reflexivity).
  assert (h1 : 0 <= IZR m) by (apply IZR_le; lia).
  assert (h2 : IZR m < IZR q) by (apply IZR_lt; lia).
  rewrite hp. replace ((IZR q * IZR d + IZR m) / IZR q) with (IZR d + IZR m / IZR q) by (field; lra).
  assert (h3 : 0 <= IZR m / IZR q) by (apply Rmult_le_pos; [lra|left; apply Rinv_0_lt_compat; auto]).
  assert (h4 : IZR m / IZR q < 1) by (apply Rmult_lt_reg_r with (IZR q); auto; field_simplify; lra).
  lra.
Qed.

Lemma floor_year y : Rfloor (365.25 * IZR y) = IZR (1461 * y / 4).
Proof.
  unfold Rfloor. rewrite <- (Int_part_ratio (1461 * y) 4) by lia.
  do 2 f_equal. rewrite mult_IZR. lra.
Qed.
Lemma floor_month m : Rfloor (30.61 * IZR m) = IZR (3061 * m / 100).
Proof.
  unfold Rfloor. rewrite <- (Int_part_ratio (3061 * m) 100) by lia.
  do 2 f_equal. rewrite mult_IZR. lra.
Qed.

(** Integer day number hidden in the code's formula. *)
Definition day_count (d : date) : Z :=
  ((if (mo d =? 1) || (mo d =? 2) then 1461 * (yr d - 1) / 4 + 3061 * (mo d + 13) / 100
    else 1461 * yr d / 4 + 3061 * (mo d + 1) / 100) + dy d)%Z.

Lemma days_eq d h m s :
  Fractional_Days_since_J2000 (dy d) (mo d) (yr d) h m s
  = IZR (day_count d) - 730563.5 + h / 24 + m / 1440 + s / 86400.
Proof.
  unfold Fractional_Days_since_J2000, day_count.
  destruct ((mo d =? 1) || (mo d =? 2))%Z.
  - rewrite floor_year, floor_month, !plus_IZR. ring.
  - rewrite floor_year, floor_month, !plus_IZR. ring.
Qed.

Ltac Zify.zify_post_hook ::= Z.div_mod_to_equations.
Arguments Z.mul : simpl never.
Arguments Z.add : simpl never.
Arguments Z.sub : simpl never.

Lemma step_julian d : valid_date julian_leap d ->
  day_count (next_day julian_leap d) = (day_count d + 1)%Z.
Proof.
  intros [Hm Hd]. destruct d as [y m dd]; simpl in *.
  unfold next_day; simpl.
  destruct (Z.ltb_spec dd (month_length julian_leap y m)) as [Hlt|Hge].
  - unfold day_count; simpl. destruct ((m =? 1) || (m =? 2))%Z; lia.
  - assert (Hdd : dd = month_length julian_leap y m) by lia. subst dd.
    unfold month_length, julian_leap in *.
    assert (Hcases : (m = 1 \/ m = 2 \/ m = 3 \/ m = 4 \/ m = 5 \/ m = 6 \/ m = 7 \/ m = 8 \/ m = 9 \/ m = 10 \/ m = 11 \/ m = 12)%Z) by lia.
    destruct Hcases as [->|[->|[->|[->|[->|[->|[->|[->|[->|[->|[->| ->]]]]]]]]]]];
    cbn -[Z.mul Z.div Z.modulo Z.add Z.sub]; unfold day_count; cbn -[Z.mul Z.div Z.modulo Z.add Z.sub];
    try change (1 + 1)%Z with 2%Z;
    try change (2 + 1)%Z with 3%Z;
    try change (3 + 1)%Z with 4%Z;
    try change (4 + 1)%Z with 5%Z;
    try change (5 + 1)%Z with 6%Z;
    try change (6 + 1)%Z with 7%Z;
    try change (7 + 1)%Z with 8%Z;
    try change (8 + 1)%Z with 9%Z;
    try change (9 + 1)%Z with 10%Z;
    try change (10 + 1)%Z with 11%Z;
    try change (11 + 1)%Z with 12%Z;
    cbn -[Z.mul Z.div Z.modulo Z.add Z.sub]; clear Hge Hd; try lia.
    destruct (Z.eqb_spec (y mod 4) 0); lia.
Qed.

Lemma valid_next leap d : valid_date leap d -> valid_date leap (next_day leap d).
Proof.
  intros [Hm Hd]; destruct d as [y m dd]; unfold valid_date, next_day in *; simpl in *.
  assert (hl : forall y' m', (28 <= month_length leap y' m')%Z).
  { intros y' m'; unfold month_length. destruct (m' =? 2)%Z; [destruct (leap y')|destruct (_ || _)]; lia. }
  destruct (Z.ltb_spec dd (month_length leap y m)) as [Hlt|Hge]; simpl; [lia|].
  destruct (Z.ltb_spec m 12) as [H12|H12]; simpl.
  - specialize (hl y (m + 1)%Z); lia.
  - specialize (hl (y + 1)%Z 1%Z); lia.
Qed.


Lemma leap_agree y : (1900 < y < 2100)%Z -> gregorian_leap y = julian_leap y.
Proof.
  intros H; unfold gregorian_leap, julian_leap.
  destruct (Z.eqb_spec (y mod 4) 0) as [H4|H4]; simpl; auto.
  destruct (Z.eqb_spec (y mod 100) 0) as [H1|H1]; simpl; auto.
  destruct (Z.eqb_spec (y mod 400) 0) as [H2|H2]; simpl; auto.
  exfalso; lia.
Qed.

Lemma month_length_agree y m :
  (1900 < y < 2100)%Z \/ m <> 2%Z -> month_length gregorian_leap y m = month_length julian_leap y m.
Proof.
  intros [H|H]; unfold month_length.
  - rewrite leap_agree; auto.
  - destruct (Z.eqb_spec m 2); [contradiction|reflexivity].
Qed.

(** Inside the range both calendars make the same step. *)
Lemma next_agree d :
  date_le first_day d -> date_le (next_day gregorian_leap d) last_day -> valid_date gregorian_leap d ->
  next_day gregorian_leap d = next_day julian_leap d /\ valid_date julian_leap d.
Proof.
  intros Hlo Hhi [Hm Hd]; destruct d as [y m dd]; unfold first_day, last_day, date_le, valid_date in *; simpl in *.
  assert (Hr : (1900 <= y <= 2100)%Z).
  { unfold next_day in Hhi; simpl in Hhi.
    destruct (dd <? _)%Z; [|destruct (m <? 12)%Z]; simpl in Hhi; lia. }
  destruct (Z.eq_dec y 2100) as [->|Hy].
  - (* 2100: only January and February up to the 27th step inside the range *)
    assert (Hmm : (m = 1 \/ (m = 2 /\ dd < 28))%Z).
    { unfold next_day in Hhi; simpl in Hhi.
      destruct (Z.ltb_spec dd (month_length gregorian_leap 2100 m)) as [Hl|Hl]; simpl in Hhi;
        [lia|].
      destruct (Z.ltb_spec m 12); simpl in Hhi; [|lia].
      destruct (Z.eq_dec m 1); [lia|]. exfalso; lia. }
    destruct Hmm as [->|[-> Hdd]].
    + split; [unfold next_day; rewrite (month_length_agree _ 1) by (right; lia); reflexivity|].
      simpl. rewrite (month_length_agree _ 1) in Hd by (right; lia). lia.
    + unfold next_day; simpl. unfold month_length; simpl.
      unfold gregorian_leap, julian_leap; simpl.
      destruct (Z.ltb_spec dd 28); destruct (Z.ltb_spec dd 29); try lia. split; [reflexivity|lia].
  - assert (Hag : month_length gregorian_leap y m = month_length julian_leap y m).
    { apply month_length_agree. destruct (Z.eq_dec y 1900); [right|left]; lia. }
    split; [unfold next_day; simpl; rewrite Hag; reflexivity|]. simpl; rewrite <- Hag; lia.
Qed.

Lemma next_gt d : valid_date gregorian_leap d -> ~ date_le (next_day gregorian_leap d) d.
Proof.
  intros [Hm Hd]; destruct d as [y m dd]; unfold date_le, next_day; simpl in *.
  destruct (Z.ltb_spec dd (month_length gregorian_leap y m)); simpl; [lia|].
  destruct (Z.ltb_spec m 12); simpl; lia.
Qed.
Lemma next_mono_ge d : valid_date gregorian_leap d -> date_le d (next_day gregorian_leap d).
Proof.
  intros [Hm Hd]; destruct d as [y m dd]; unfold date_le, next_day; simpl in *.
  destruct (Z.ltb_spec dd (month_length gregorian_leap y m)); simpl; [lia|].
  destruct (Z.ltb_spec m 12); simpl; lia.
Qed.
Lemma date_le_trans a b c : date_le a b -> date_le b c -> date_le a c.
Proof. unfold date_le; destruct a, b, c; simpl; lia. Qed.

Lemma iter_ge k d : valid_date gregorian_leap d ->
  valid_date gregorian_leap (Nat.iter k (next_day gregorian_leap) d) /\ date_le d (Nat.iter k (next_day gregorian_leap) d).
Proof.
  intros Hv; induction k as [|k [IHv IHle]]; simpl.
  - split; auto. unfold date_le; destruct d; simpl; lia.
  - split; [apply valid_next; auto|]. eapply date_le_trans; [exact IHle|apply next_mono_ge; auto].
Qed.

Lemma count_iter k d :
  valid_date gregorian_leap d -> date_le first_day d ->
  date_le (Nat.iter k (next_day gregorian_leap) d) last_day ->
  day_count (Nat.iter k (next_day gregorian_leap) d) = (day_count d + Z.of_nat k)%Z.
Proof.
  intros Hv Hlo; induction k as [|k IH]; intros Hhi; [simpl; lia|].
  change (Nat.iter (S k) (next_day gregorian_leap) d) with
    (next_day gregorian_leap (Nat.iter k (next_day gregorian_leap) d)) in *.
  destruct (iter_ge k d Hv) as [Hvk Hle].
  assert (Hlok : date_le first_day (Nat.iter k (next_day gregorian_leap) d)) by (eapply date_le_trans; eauto).
  assert (Hhik : date_le (Nat.iter k (next_day gregorian_leap) d) last_day).
  { eapply date_le_trans; [apply next_mono_ge; auto|exact Hhi]. }
  destruct (next_agree _ Hlok Hhi Hvk) as [He Hvj].
  rewrite He, step_julian by auto. rewrite IH by auto. lia.
Qed.

Lemma days_iter k d h m s :
  valid_date gregorian_leap d -> date_le first_day d ->
  date_le (Nat.iter k (next_day gregorian_leap) d) last_day ->
  let d' := Nat.iter k (next_day gregorian_leap) d in
  Fractional_Days_since_J2000 (dy d') (mo d') (yr d') h m s
  = Fractional_Days_since_J2000 (dy d) (mo d) (yr d) h m s + INR k.
Proof.
  intros Hv Hlo Hhi; simpl. rewrite !days_eq, count_iter by auto.
  rewrite plus_IZR, <- INR_IZR_INZ. ring.
Qed.

Lemma days_anchor h m s :
  Fractional_Days_since_J2000 1 1 2000 h m s = h / 24 + m / 1440 + s / 86400 - 0.5.
Proof.
  assert (H := days_eq J2000_day h m s). cbn [dy mo yr J2000_day] in H. rewrite H.
  replace (day_count J2000_day) with 730563%Z by reflexivity. lra.
Qed.

(** Julian version, without any range restriction. *)
Lemma count_iter_julian k d :
  valid_date julian_leap d ->
  day_count (Nat.iter k (next_day julian_leap) d) = (day_count d + Z.of_nat k)%Z
  /\ valid_date julian_leap (Nat.iter k (next_day julian_leap) d).
Proof.
  intros Hv; induction k as [|k [IH IHv]]; [simpl; split; [lia|auto]|].
  change (Nat.iter (S k) (next_day julian_leap) d) with
    (next_day julian_leap (Nat.iter k (next_day julian_leap) d)) in *.
  split; [|apply valid_next; auto]. rewrite step_julian, IH by auto. lia.
Qed.
Lemma days_iter_julian k d h m s :
  valid_date julian_leap d ->
  let d' := Nat.iter k (next_day julian_leap) d in
  Fractional_Days_since_J2000 (dy d') (mo d') (yr d') h m s
  = Fractional_Days_since_J2000 (dy d) (mo d) (yr d) h m s + INR k.
Proof.
  intros Hv; simpl. rewrite !days_eq, (proj1 (count_iter_julian k d Hv)), plus_IZR, <- INR_IZR_INZ. ring.
Qed.

(** Every date of the range is reached from the first one by counting days. *)
Lemma prev_exists leap d : valid_date leap d ->
  exists p, valid_date leap p /\ next_day leap p = d.
Proof.
  intros [Hm Hd]; destruct d as [y m dd]; simpl in *.
  assert (hl : forall y' m', (28 <= month_length leap y' m')%Z).
  { intros y' m'; unfold month_length. destruct (m' =? 2)%Z; [destruct (leap y')|destruct (_ || _)]; lia. }
  destruct (Z.eq_dec dd 1) as [->|Hd1].
  - destruct (Z.eq_dec m 1) as [->|Hm1].
    + exists (Date (y - 1) 12 31). split.
      * split; simpl; [lia|unfold month_length; simpl; lia].
      * unfold next_day; simpl. f_equal; lia.
    + exists (Date y (m - 1) (month_length leap y (m - 1))). specialize (hl y (m - 1)%Z). split.
      * split; simpl; lia.
      * unfold next_day; simpl. rewrite Z.ltb_irrefl.
        destruct (Z.ltb_spec (m - 1) 12); [f_equal; lia|lia].
  - exists (Date y m (dd - 1)). split.
    + split; simpl; lia.
    + unfold next_day; simpl. destruct (Z.ltb_spec (dd - 1) (month_length leap y m)); [f_equal; lia|lia].
Qed.

(** A measure that decreases going to the previous day: no relation to the code. *)
Definition meas (d : date) : Z := (372 * yr d + 31 * mo d + dy d)%Z.
Lemma meas_next leap d : valid_date leap d -> (meas d < meas (next_day leap d))%Z.
Proof.
  intros [Hm Hd]; destruct d as [y m dd]; unfold meas, next_day; simpl in *.
  assert (hl : (month_length leap y m <= 31)%Z).
  { unfold month_length. destruct (m =? 2)%Z; [destruct (leap y)|destruct (_ || _)]; lia. }
  destruct (Z.ltb_spec dd (month_length leap y m)); simpl; [lia|].
  destruct (Z.ltb_spec m 12); simpl; lia.
Qed.

Lemma reach_from_start d :
  valid_date gregorian_leap d -> date_le first_day d ->
  exists k, Nat.iter k (next_day gregorian_leap) first_day = d.
Proof.
  intros Hv Hlo.
  remember (Z.to_nat (meas d - meas first_day)) as n eqn:Hn.
  revert d Hv Hlo Hn. induction n as [n IH] using lt_wf_ind; intros d Hv Hlo Hn.
  destruct (prev_exists _ d Hv) as [p [Hpv Hpn]].
  assert (Hmp := meas_next gregorian_leap p Hpv). rewrite Hpn in Hmp.
  assert (Hdec : (meas first_day <= meas p)%Z \/ d = first_day).
  { destruct d as [y m dd], p as [y' m' dd']; unfold date_le, first_day, meas, valid_date in *; simpl in *.
    assert (hl : forall a b, (month_length gregorian_leap a b <= 31)%Z).
    { intros a b; unfold month_length. destruct (b =? 2)%Z; [destruct (gregorian_leap a)|destruct (_ || _)]; lia. }
    assert (h1 := hl y m). assert (h2 := hl y' m'). clear hl IH.
    unfold next_day in Hpn; simpl in Hpn.
    destruct (Z.ltb_spec dd' (month_length gregorian_leap y' m')) as [hh|hh].
    - injection Hpn as -> -> <-.
      destruct (Z.eq_dec y 1900); [destruct (Z.eq_dec m 3); [destruct (Z.eq_dec dd' 0)|]|]; lia.
    - destruct (Z.ltb_spec m' 12) as [hm|hm].
      + injection Hpn as -> <- <-.
        destruct (Z.eq_dec y 1900); [destruct (Z.eq_dec m' 2); [right; subst; reflexivity|lia]|lia].
      + injection Hpn as <- <- <-. assert (m' = 12)%Z by lia. subst m'. lia. }
  destruct Hdec as [Hge| ->].
  - assert (Hlop : date_le first_day p).
    { destruct (Z.le_gt_cases (meas first_day) (meas p)) as [h|h]; [|lia].
      destruct p as [y' m' dd']; unfold date_le, first_day, meas, valid_date in *; simpl in *.
      assert (hl : (month_length gregorian_leap y' m' <= 31)%Z).
      { unfold month_length. destruct (m' =? 2)%Z; [destruct (gregorian_leap y')|destruct (_ || _)]; lia. }
      lia. }
    destruct (IH (Z.to_nat (meas p - meas first_day)) ltac:(lia) p Hpv Hlop eq_refl) as [k Hk].
    exists (S k). change (next_day gregorian_leap (Nat.iter k (next_day gregorian_leap) first_day) = d).
    rewrite Hk; exact Hpn.
  - exists 0%nat; reflexivity.
Qed.

Lemma J2000_in_range : date_le first_day J2000_day /\ date_le J2000_day last_day /\ valid_date gregorian_leap J2000_day.
Proof. unfold date_le, valid_date; simpl; split; [|split]; try lia. unfold month_length; simpl; lia. Qed.

Lemma calendar_correct d n h m s :
  valid_date gregorian_leap d -> date_le first_day d -> date_le d last_day ->
  days_between J2000_day d n ->
  Fractional_Days_since_J2000 (dy d) (mo d) (yr d) h m s = IZR n - 0.5 + h / 24 + m / 1440 + s / 86400.
Proof.
  intros Hv Hlo Hhi [[Hn He]|[Hn He]].
  - subst d. assert (H := days_iter (Z.to_nat n) J2000_day h m s). simpl in H.
    destruct J2000_in_range as [h1 [h2 h3]].
    rewrite H by auto. simpl. rewrite (days_anchor h m s).
    rewrite INR_IZR_INZ, Z2Nat.id by lia. ring.
  - assert (H := days_iter (Z.to_nat (- n)) d h m s Hv Hlo). simpl in H. rewrite He in H.
    destruct J2000_in_range as [h1 [h2 h3]]. specialize (H h2). simpl in H. rewrite days_anchor in H.
    rewrite INR_IZR_INZ, Z2Nat.id, opp_IZR in H by lia. lra.
Qed.

Lemma iter_plus {A} (f : A -> A) n m x : Nat.iter (n + m) f x = Nat.iter n f (Nat.iter m f x).
Proof. induction n as [|n IH]; simpl; [reflexivity|]. rewrite <- IH; reflexivity. Qed.

Lemma days_between_exists d :
  valid_date gregorian_leap d -> date_le first_day d -> exists n, days_between J2000_day d n.
Proof.
  intros Hv Hlo.
  destruct (reach_from_start d Hv Hlo) as [k Hk].
  destruct J2000_in_range as [h1 [h2 h3]].
  destruct (reach_from_start J2000_day h3 h1) as [j Hj].
  destruct (Nat.le_gt_cases j k) as [Hjk|Hjk].
  - exists (Z.of_nat (k - j)). left; split; [lia|]. rewrite Nat2Z.id.
    rewrite <- Hj, <- iter_plus. replace (k - j + j)%nat with k by lia. exact Hk.
  - exists (- Z.of_nat (j - k))%Z. right; split; [lia|]. rewrite Z.opp_involutive, Nat2Z.id.
    rewrite <- Hk, <- iter_plus. replace (j - k + k)%nat with j by lia. exact Hj.
Qed.

Lemma calendar_refuted :
  exists d, valid_date gregorian_leap d /\
  let d' := next_day gregorian_leap d in
  forall h m s, Fractional_Days_since_J2000 (dy d') (mo d') (yr d') h m s
              = Fractional_Days_since_J2000 (dy d) (mo d) (yr d) h m s + 2.
Proof.
  exists last_day. split; [unfold valid_date; simpl; unfold month_length; simpl; lia|].
  intros d' h m s. rewrite !days_eq.
  replace (day_count d') with (day_count last_day + 2)%Z by reflexivity.
  rewrite plus_IZR. ring.
Qed.

(** Sidereal time. *)
Lemma Rfloor_bounds x : Rfloor x <= x < Rfloor x + 1.
Proof. unfold Rfloor; destruct (base_Int_part x); lra. Qed.
Lemma Rfloor_nonneg x : 0 <= x -> 0 <= Rfloor x.
Proof.
  intros H. destruct (Rfloor_bounds x) as [h1 h2]. unfold Rfloor in *.
  apply IZR_le. assert (h : (-1 < Int_part x)%Z); [|lia]. apply lt_IZR. lra.
Qed.

Lemma Rfmod_pos x y : 0 < y -> 0 <= x -> 0 <= Rfmod x y < y.
Proof.
  intros Hy Hx. unfold Rfmod, Rtrunc.
  assert (h : 0 <= x / y) by (apply Rmult_le_pos; [auto|left; apply Rinv_0_lt_compat; auto]).
  destruct (Rle_dec 0 (x / y)); [|contradiction].
  destruct (Rfloor_bounds (x / y)) as [h1 h2].
  assert (e : x = y * (x / y)) by (field; lra).
  set (q := x / y) in *. rewrite e. nra.
Qed.
Lemma Rfmod_neg x y : 0 < y -> x < 0 -> - y < Rfmod x y <= 0.
Proof.
  intros Hy Hx. unfold Rfmod, Rtrunc.
  assert (h : x / y < 0).
  { unfold Rdiv. assert (hi := Rinv_0_lt_compat y Hy). nra. }
  destruct (Rle_dec 0 (x / y)); [lra|].
  destruct (Rfloor_bounds (- (x / y))) as [h1 h2].
  assert (e : x = y * (x / y)) by (field; lra).
  set (q := x / y) in *. rewrite e. nra.
Qed.
Lemma Rfmod_range x y : 0 < y -> - y < Rfmod x y < y.
Proof.
  intros Hy; destruct (Rle_lt_dec 0 x) as [h|h].
  - destruct (Rfmod_pos x y Hy h); lra.
  - destruct (Rfmod_neg x y Hy h); lra.
Qed.
(** [Rfmod x y] differs from [x] by a whole multiple of [y]. *)
Lemma Rfmod_cong x y : exists k : Z, Rfmod x y = x - y * IZR k.
Proof.
  unfold Rfmod, Rtrunc, Rfloor. destruct (Rle_dec 0 (x / y)).
  - eexists; reflexivity.
  - exists (- Int_part (- (x / y)))%Z. rewrite opp_IZR; reflexivity.
Qed.

Lemma LAST_range n l : - 86400 * sec < Local_Apparent_Sidereal_Time n l < 86400 * sec.
Proof.
  unfold Local_Apparent_Sidereal_Time.
  destruct (Rfmod_range (LAST_t n l) 86400 ltac:(lra)). assert (h := sec_pos). split; nra.
Qed.

Lemma LAST_shift n l d :
  exists k : Z, Local_Apparent_Sidereal_Time n (l + d)
  = Local_Apparent_Sidereal_Time n l + d / (2 * PI) * (86400 * sec) + IZR k * (86400 * sec).
Proof.
  unfold Local_Apparent_Sidereal_Time.
  destruct (Rfmod_cong (LAST_t n (l + d)) 86400) as [k1 H1].
  destruct (Rfmod_cong (LAST_t n l) 86400) as [k2 H2].
  rewrite H1, H2. exists (k2 - k1)%Z. rewrite minus_IZR.
  replace (LAST_t n (l + d)) with (LAST_t n l + d / (2 * PI) * 86400); [ring|].
  unfold LAST_t. field. apply PI_neq0.
Qed.

Lemma LAST_period n l (k : Z) :
  exists j : Z, Local_Apparent_Sidereal_Time n (l + 2 * PI * IZR k)
  = Local_Apparent_Sidereal_Time n l + IZR j * (86400 * sec).
Proof.
  destruct (LAST_shift n l (2 * PI * IZR k)) as [j Hj]. rewrite Hj.
  exists (k + j)%Z. rewrite plus_IZR. field. apply PI_neq0.
Qed.

Lemma trig_corr_bound (a b c d e : R) :
  Rabs ((-1.1484 * sin a - 0.0864 * cos b) * cos c + 0.000176 * sin d + 0.000004 * sin e) <= 1.3.
Proof.
  destruct (SIN_bound a), (COS_bound b), (COS_bound c), (SIN_bound d), (SIN_bound e).
  apply Rabs_le.
  set (u := -1.1484 * sin a - 0.0864 * cos b).
  assert (hu : -1.2348 <= u <= 1.2348) by (unfold u; lra).
  assert (-1.2348 <= u * cos c <= 1.2348) by nra.
  lra.
Qed.

(** After J2000 and for longitudes from -180 degrees on the result is a time of day. *)
Lemma LAST_nonneg n l : 0 <= n -> - PI <= l -> 0 <= Local_Apparent_Sidereal_Time n l.
Proof.
  intros Hn Hl. unfold Local_Apparent_Sidereal_Time.
  assert (hs := sec_pos).
  apply Rmult_le_pos; [|lra]. apply Rfmod_pos; [lra|].
  unfold LAST_t.
  match goal with |- context [(-1.1484 * sin ?a - 0.0864 * cos ?b) * cos ?c + 0.000176 * sin ?d + 0.000004 * sin ?e] =>
    assert (hb := trig_corr_bound a b c d e); set (q := (-1.1484 * sin a - 0.0864 * cos b) * cos c + 0.000176 * sin d + 0.000004 * sin e) in *
  end.
  apply Rabs_def2 in hb || (unfold Rabs in hb; destruct (Rcase_abs q)).
  all: try lra.
  - assert (h1 := Rfmod_pos n 1 ltac:(lra) Hn).
    assert (h2 : 0 <= n / 36525) by lra.
    assert (h3 : - 0.5 <= l / 2 / PI).
    { assert (hp := PI_RGT_0). apply Rmult_le_reg_r with PI; auto.
      unfold Rdiv. rewrite !Rmult_assoc, Rinv_l, Rmult_1_r; lra. }
    set (T := n / 36525) in *. nra.
  - assert (h1 := Rfmod_pos n 1 ltac:(lra) Hn).
    assert (h2 : 0 <= n / 36525) by lra.
    assert (h3 : - 0.5 <= l / 2 / PI).
    { assert (hp := PI_RGT_0). apply Rmult_le_reg_r with PI; auto.
      unfold Rdiv. rewrite !Rmult_assoc, Rinv_l, Rmult_1_r; lra. }
    set (T := n / 36525) in *. nra.
Qed.

(** Noon of 29 December 1999 at Greenwich: the result is negative. *)
Lemma Rfmod_small_neg x y : 0 < y -> - y < x <= 0 -> Rfmod x y = x.
Proof.
  intros Hy [Hx1 Hx2]. unfold Rfmod, Rtrunc.
  destruct (Rle_dec 0 (x / y)) as [h|h].
  - assert (x = 0). { assert (hi := Rinv_0_lt_compat y Hy). unfold Rdiv in h. nra. }
    subst x. replace (0 / y) with 0 by (field; lra).
    unfold Rfloor. rewrite <- (Int_part_spec 0 0) by (simpl; lra). ring.
  - unfold Rfloor. rewrite <- (Int_part_spec (- (x / y)) 0).
    + simpl; ring.
    + assert (e : x = y * (x / y)) by (field; lra). set (q := x / y) in *. simpl; split; [nra|lra].
Qed.

Lemma LAST_refuted : exists n l, Local_Apparent_Sidereal_Time n l < 0.
Proof.
  exists (-0.9), 0. unfold Local_Apparent_Sidereal_Time.
  assert (hs := sec_pos).
  enough (h : Rfmod (LAST_t (-0.9) 0) 86400 < 0) by nra.
  enough (h : -86400 < LAST_t (-0.9) 0 < 0).
  { rewrite Rfmod_small_neg by lra. lra. }
  unfold LAST_t.
  rewrite (Rfmod_small_neg (-0.9) 1) by lra.
  match goal with |- context [(-1.1484 * sin ?a - 0.0864 * cos ?b) * cos ?c + 0.000176 * sin ?d + 0.000004 * sin ?e] =>
    assert (hb := trig_corr_bound a b c d e); set (q := (-1.1484 * sin a - 0.0864 * cos b) * cos c + 0.000176 * sin d + 0.000004 * sin e) in *
  end.
  assert (hq : -1.3 <= q <= 1.3) by (unfold Rabs in hb; destruct (Rcase_abs q); lra).
  replace (0 / 2 / PI) with 0 by (field; apply PI_neq0).
  lra.
Qed.

Lemma LAST_range_hours n l : - (24 * 3600 * sec) < Local_Apparent_Sidereal_Time n l < 24 * 3600 * sec.
Proof. destruct (LAST_range n l); split; lra. Qed.
Lemma LAST_time_of_day n l : 0 <= n -> - PI <= l -> 0 <= Local_Apparent_Sidereal_Time n l < 24 * 3600 * sec.
Proof. intros Hn Hl; split; [apply LAST_nonneg; auto|apply LAST_range_hours]. Qed.
