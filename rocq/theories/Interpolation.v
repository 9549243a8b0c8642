(** What is assumed about libphysica::Interpolation, and a witness. *)
From Coq Require Import Reals List Lra Lia Sorting.Sorted.
From Verif Require Import Base XrFacts Distribution_Model.
Import ListNotations.
Local Open Scope R_scope.

Definition node (p : R * xr) : xr * xr := (Fin (fst p), snd p).
Definition increasing (t : list (R * xr)) : Prop := StronglySorted (fun p q => fst p < fst q) t.

(** libphysica::Interpolation (external; /repo/src/DM_Distribution.cpp:197,205,214,225,238 and
    /repo/src/DM_Halo_Models.cpp:249,330), idealised: for strictly increasing abscissas it terminates the program outside
    the tabulated range, reproduces the nodes, and between the nodes stays between the smallest and the largest tabulated
    value (Steffen interpolation is monotone between nodes). *)
Definition ideal_interpolation (I : interpolator) : Prop :=
  forall p r, increasing (p :: r) ->
    (forall x, x < fst p \/ fst (last r p) < x -> I (map node (p :: r)) (Fin x) = Exit) /\
    (forall x, fst p <= x <= fst (last r p) -> exists y, I (map node (p :: r)) (Fin x) = Ok y) /\
    (forall q, In q (p :: r) -> I (map node (p :: r)) (Fin (fst q)) = Ok (snd q)) /\
    (forall lo hi x, (forall q, In q (p :: r) -> exists y, snd q = Fin y /\ lo <= y <= hi) -> fst p <= x <= fst (last r p) ->
       exists y, I (map node (p :: r)) (Fin x) = Ok (Fin y) /\ lo <= y <= hi).

(** Witness: the step function through the nodes. *)
Fixpoint step_value (cur : xr) (t : list (xr * xr)) (x : xr) : xr :=
  match t with
  | [] => cur
  | (a, v) :: r => if xle a x then step_value v r x else cur
  end.
Definition reference_Interpolation (t : list (xr * xr)) (x : xr) : res xr :=
  match t with
  | [] => Exit
  | p :: r => if xlt x (fst p) then Exit else if xlt (fst (last r p)) x then Exit else Ok (step_value (snd p) r x)
  end.

Lemma last_map {A B} (f : A -> B) l d : last (map f l) (f d) = f (last l d).
Proof. revert d; induction l as [|a l IH]; intros d; auto. destruct l as [|b l]; auto. cbn in *. apply IH. Qed.

Lemma step_value_in cur r x : In (step_value cur r x) (cur :: map snd r).
Proof.
  revert cur; induction r as [|[a v] r IH]; intros cur; cbn; auto. destruct (xle a x); auto.
  right. specialize (IH v). cbn in IH. exact IH.
Qed.

Lemma step_value_node r : forall p q, increasing (p :: r) -> In q (p :: r) ->
  step_value (snd p) (map node r) (Fin (fst q)) = snd q.
Proof.
  induction r as [|a r IH]; intros p q S Q.
  - destruct Q as [<- | []]. reflexivity.
  - inversion S as [|? ? S' F]; subst. cbn [map step_value node]. destruct Q as [<- | Q].
    + inversion F; subst. rewrite xle_false by auto. reflexivity.
    + assert (fst a <= fst q).
      { destruct Q as [<- | Q]; [lra|]. inversion S' as [|? ? ? F']; subst. rewrite Forall_forall in F'. specialize (F' q Q). cbn in F'. lra. }
      rewrite xle_true by auto. apply IH; auto.
Qed.

Lemma ideal_interpolation_exists : ideal_interpolation reference_Interpolation.
Proof.
  intros p r S. unfold reference_Interpolation. cbn [map]. rewrite (last_map node). cbn [node fst snd].
  assert (L : forall q, In q (p :: r) -> fst p <= fst q <= fst (last r p)).
  { clear - S. revert p S. induction r as [|a r IH]; intros p S q Q.
    - destruct Q as [<- | []]. cbn; lra.
    - inversion S as [|? ? S' F]; subst. specialize (IH a S').
      assert (P : fst p < fst a) by (inversion F; auto).
      assert (E : last (a :: r) p = last r a) by (clear; revert a; induction r as [|b r IH]; intros; auto; cbn in *; destruct r; auto).
      rewrite E. destruct Q as [<- | Q].
      + specialize (IH a (or_introl eq_refl)). lra.
      + specialize (IH q Q). lra. }
  split; [|split; [|split]].
  - intros x [H | H].
    + rewrite xlt_true by auto. reflexivity.
    + destruct (xlt (Fin x) _); auto. rewrite xlt_true by auto. reflexivity.
  - intros x H. rewrite !xlt_false by lra. eauto.
  - intros q Q. specialize (L q Q). rewrite !xlt_false by lra. rewrite step_value_node; auto.
  - intros lo hi x V H. rewrite !xlt_false by lra.
    assert (In (step_value (snd p) (map node r) (Fin x)) (map snd (p :: r))).
    { assert (I := step_value_in (snd p) (map node r) (Fin x)). rewrite map_map in I. cbn [node snd] in I. exact I. }
    apply in_map_iff in H0. destruct H0 as [q [E Q]]. destruct (V q Q) as [y [Ey B]]. exists y. rewrite <- E, Ey. auto.
Qed.

(** Tables built by evaluating a function on a list of abscissas. *)
Lemma map_res_fst (g : xr -> res xr) l t : map_res (fun v => let* e := g v in Ok (v, e)) l = Ok t -> map fst t = l.
Proof.
  revert t; induction l as [|v l IH]; intros t H; cbn in H; [injection H as <-; auto|].
  destruct (g v) as [e| | |]; cbn in H; try discriminate.
  destruct (map_res _ l) as [t'| | |] eqn:E; cbn in H; try discriminate.
  injection H as <-. cbn. f_equal. auto.
Qed.
Lemma nodes_of (rs : list R) t : map fst t = map Fin rs -> exists nodes, t = map node nodes /\ map fst nodes = rs.
Proof.
  revert t; induction rs as [|x rs IH]; intros t H; destruct t as [|[a v] t]; try discriminate.
  - exists []. auto.
  - cbn in H. injection H as -> H. destruct (IH t H) as [n [-> E]]. exists ((x, v) :: n). cbn. rewrite E. auto.
Qed.
Lemma increasing_fst nodes : StronglySorted Rlt (map fst nodes) -> increasing nodes.
Proof.
  induction nodes as [|p n IH]; intros H; [constructor|]. inversion H as [|? ? S F]; subst. constructor; auto.
  - apply IH; auto.
  - rewrite Forall_forall in *. intros q Q. apply F. apply in_map; auto.
Qed.

Lemma Linear_Space_fin a b n : (2 <= n)%nat ->
  Linear_Space (Fin a) (Fin b) n = map Fin (map (fun i => a + INR i * ((b - a) / INR (n - 1))) (seq 0 n)).
Proof.
  intros H. unfold Linear_Space. rewrite map_map. apply map_ext. intros i.
  assert (0 < INR (n - 1)) by (apply lt_0_INR; lia). rewrite xsub_fin, xdiv_fin by lra. rewrite xmul_fin, xadd_fin. reflexivity.
Qed.
Lemma sorted_seq (f : nat -> R) n : forall k, (forall i j, (i < j)%nat -> f i < f j) -> StronglySorted Rlt (map f (seq k n)).
Proof.
  induction n as [|n IH]; intros k H; [constructor|]. cbn. constructor; auto.
  apply Forall_forall. intros x X. apply in_map_iff in X. destruct X as [j [<- J]]. apply in_seq in J. apply H. lia.
Qed.
Lemma last_seq {A} (f : nat -> A) n : forall k d, last (map f (seq k (S n))) d = f (k + n)%nat.
Proof.
  induction n as [|n IH]; intros k d; [cbn; f_equal; lia|].
  change (seq k (S (S n))) with (k :: seq (S k) (S n)). cbn [map].
  replace (k + S n)%nat with (S k + n)%nat by lia. rewrite <- (IH (S k) d). cbn. reflexivity.
Qed.

(** A table evaluated on Linear_Space(a, b, n) covers exactly [a, b]. *)
Lemma linear_table (g : xr -> res xr) a b n t : a < b ->
  map_res (fun v => let* e := g v in Ok (v, e)) (Linear_Space (Fin a) (Fin b) (S (S n))) = Ok t ->
  exists p r, t = map node (p :: r) /\ increasing (p :: r) /\ fst p = a /\ fst (last r p) = b.
Proof.
  intros Hab H. apply map_res_fst in H. rewrite Linear_Space_fin in H by lia.
  set (f := fun i => a + INR i * ((b - a) / INR (S (S n) - 1))) in H.
  assert (D : 0 < INR (S (S n) - 1)) by (apply lt_0_INR; lia).
  destruct (nodes_of _ _ H) as [nodes [Et En]].
  assert (S : increasing nodes).
  { apply increasing_fst. rewrite En. apply sorted_seq. intros i j Hij. unfold f. apply lt_INR in Hij.
    assert (0 < (b - a) / INR (S (S n) - 1)) by (apply Rdiv_lt_0_compat; lra). nra. }
  destruct nodes as [|p r]; [discriminate|]. exists p, r. split; auto. split; auto.
  change (seq 0 (Datatypes.S (Datatypes.S n))) with (0%nat :: seq 1 (Datatypes.S n)) in En.
  change (fst p :: map fst r = f 0%nat :: map f (seq 1 (Datatypes.S n))) in En.
  assert (E0 : fst p = f 0%nat) by congruence. assert (E1 : map fst r = map f (seq 1 (Datatypes.S n))) by congruence. split.
  - rewrite E0. unfold f. cbn [INR]. lra.
  - rewrite <- (last_map fst). rewrite E1. rewrite last_seq. unfold f. replace (1 + n)%nat with (Datatypes.S (Datatypes.S n) - 1)%nat by lia. field. lra.
Qed.
