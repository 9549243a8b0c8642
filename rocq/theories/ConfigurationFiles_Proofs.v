(** Lemmas about the files touched while a configuration is read, and concrete configurations. *)
From Coq Require Import Reals ZArith String Ascii Lia Lra Bool.
From Coquelicot Require Import Coquelicot.
From Coq Require Import List.
From Verif Require Import Base XrFacts Quadrature Nucleus_Model Nuclear_Model Nuclear_Proofs Particle_Model Particle_Proofs Distribution_Model Distribution_Proofs Astronomy_Model Halo_Model
  Atom_Model Atom_Proofs Crystal_Model Crystal_Proofs Rates_Model Detector_Model DetectorTypes_Model Detector_Proofs DetectorSafety_Proofs Experiments_Model Configuration_Model Experiments_Proofs
  Configuration_Proofs ConfigurationRun_Proofs ConfigurationValues_Proofs.
Import ListNotations.
Local Open Scope R_scope.

(** * Which files and directories change *)
Definition same_files (f g : filesystem) : Prop := (forall p, fs_dir f p = fs_dir g p) /\ (forall p, fs_file f p = fs_file g p).
Definition results_of (E : environment) (ID : string) : string := (e_top E ++ "results/" ++ ID ++ "/")%string.
Definition copy_of (E : environment) (ID : string) : string := (e_top E ++ "results/" ++ ID ++ "/" ++ ID ++ ".cfg")%string.

Lemma other_ranks E fs w path rank : rank <> 0%Z -> same_files (fst (Configuration_ctor E fs w path rank)) fs.
Proof.
  intros N. apply Z.eqb_neq in N. unfold Configuration_ctor, Read_Config_File. destruct (fs_file fs path) as [t|]; [|split; reflexivity]. destruct (e_parse E t) as [cfg|]; [|split; reflexivity].
  unfold Initialize_Result_Folder. destruct (read_string cfg "ID"); cbn [fst]; try (split; reflexivity). unfold Copy_Config_File, Create_Result_Folder. rewrite N. split; reflexivity.
Qed.

Lemma no_ID E fs w path rank : (forall cfg ID, loaded E fs path cfg -> value_of cfg "ID" <> Some (SString ID)) -> same_files (fst (Configuration_ctor E fs w path rank)) fs.
Proof.
  intros N. unfold Configuration_ctor, Read_Config_File. destruct (fs_file fs path) as [t|] eqn:F; [|split; reflexivity]. destruct (e_parse E t) as [cfg|] eqn:P; [|split; reflexivity].
  unfold Initialize_Result_Folder. destruct (read_string cfg "ID") eqn:I; cbn [fst]; try (split; reflexivity). apply read_string_ok in I. exfalso. apply (N cfg a); [exists t; auto|exact I].
Qed.

Lemma rank_zero E fs w path cfg ID t : fs_file fs path = Some t -> e_parse E t = Some cfg -> value_of cfg "ID" = Some (SString ID) ->
  let fs' := fst (Configuration_ctor E fs w path 0) in
  (forall p, fs_dir fs' p <> fs_dir fs p -> (p = (e_top E ++ "results")%string \/ p = results_of E ID) /\ fs_dir fs' p = true) /\
  (forall p, fs_file fs' p <> fs_file fs p -> p = copy_of E ID) /\
  (path <> copy_of E ID -> fs_file fs' path = Some t /\ (fs_file fs' (copy_of E ID) = Some (e_header E ++ t)%string \/ fs_file fs' (copy_of E ID) = fs_file fs (copy_of E ID))).
Proof.
  intros F P V. cbv zeta. unfold Configuration_ctor, Read_Config_File. rewrite F, P. unfold Initialize_Result_Folder. rewrite (rd_string _ _ _ V). cbn [fst].
  unfold Copy_Config_File, Create_Result_Folder. cbn [Z.eqb]. fold (copy_of E ID). change (copy_path E ID) with (copy_of E ID). change (results_path E ID) with (results_of E ID).
  set (g := make_directory E (results_of E ID) (make_directory E (results_root E) fs)).
  assert (GF : fs_file g = fs_file fs). { unfold g, make_directory. destruct (e_mkdir E _ (results_of E ID)), (e_mkdir E _ (results_root E)); reflexivity. }
  assert (GD : forall p, fs_dir g p <> fs_dir fs p -> (p = (e_top E ++ "results")%string \/ p = results_of E ID) /\ fs_dir g p = true).
  { intros p. unfold g, make_directory. destruct (e_mkdir E _ (results_of E ID)), (e_mkdir E _ (results_root E)); cbn [fs_dir];
      destruct (String.eqb_spec p (results_of E ID)), (String.eqb_spec p (results_root E)); intros N; auto; try contradiction. }
  clearbody g. destruct (e_open E g (copy_of E ID)).
  - cbn [fs_dir put_file fs_file]. split; [exact GD|]. rewrite GF. split.
    + intros p. destruct (String.eqb_spec p (copy_of E ID)); auto. intros C; destruct (C eq_refl).
    + intros N. apply String.eqb_neq in N. rewrite N, F. split; [reflexivity|]. left. rewrite String.eqb_refl. reflexivity.
  - rewrite GF. split; [exact GD|]. split; [intros p C; destruct (C eq_refl)|]. intros _. split; [exact F|right; reflexivity].
Qed.

Lemma rank_zero_done E fs w path cfg ID t : fs_file fs path = Some t -> e_parse E t = Some cfg -> value_of cfg "ID" = Some (SString ID) ->
  (forall g p, e_mkdir E g p = negb (fs_dir g p)) -> (forall g p, e_open E g p = true) ->
  let fs' := fst (Configuration_ctor E fs w path 0) in
  fs_dir fs' (e_top E ++ "results")%string = true /\ fs_dir fs' (results_of E ID) = true /\ (path <> copy_of E ID -> fs_file fs' (copy_of E ID) = Some (e_header E ++ t)%string).
Proof.
  intros F P V MK OP. cbv zeta. unfold Configuration_ctor, Read_Config_File. rewrite F, P. unfold Initialize_Result_Folder. rewrite (rd_string _ _ _ V). cbn [fst].
  unfold Copy_Config_File, Create_Result_Folder. cbn [Z.eqb]. change (copy_path E ID) with (copy_of E ID). change (results_path E ID) with (results_of E ID). rewrite OP. cbv zeta.
  cbn [fs_dir fs_file put_file].
  assert (D : forall p g, fs_dir (make_directory E p g) p = true) by (intros p g; unfold make_directory; rewrite MK; destruct (fs_dir g p) eqn:G; cbn [negb fs_dir]; [exact G|rewrite String.eqb_refl; reflexivity]).
  assert (K : forall p q g, fs_dir g q = true -> fs_dir (make_directory E p g) q = true) by (intros p q g G; unfold make_directory; destruct (e_mkdir E g p); cbn [fs_dir]; auto; destruct (q =? p)%string; auto).
  assert (G : forall p g, fs_file (make_directory E p g) = fs_file g) by (intros p g; unfold make_directory; destruct (e_mkdir E g p); reflexivity).
  split; [apply K; apply D|]. split; [apply D|]. intros N. rewrite String.eqb_refl. apply String.eqb_neq in N. rewrite N, !G, F. reflexivity.
Qed.

Lemma own_copy E fs w cfg ID t : fs_file fs (copy_of E ID) = Some t -> e_parse E t = Some cfg -> value_of cfg "ID" = Some (SString ID) -> (forall g p, e_open E g p = true) ->
  fs_file (fst (Configuration_ctor E fs w (copy_of E ID) 0)) (copy_of E ID) = Some (e_header E ++ e_header E)%string.
Proof.
  intros F P V OP. unfold Configuration_ctor, Read_Config_File. rewrite F, P. unfold Initialize_Result_Folder. rewrite (rd_string _ _ _ V). cbn [fst].
  unfold Copy_Config_File. cbn [Z.eqb]. change (copy_path E ID) with (copy_of E ID). rewrite OP. cbv zeta. cbn [fs_file put_file]. rewrite !String.eqb_refl. reflexivity.
Qed.

(** * Where the files lie *)
(** Components of a path between slashes; the place a path leads to, read from the root: empty components and "." are skipped, ".." goes
    back. Symbolic links are not considered. *)
Fixpoint components (s : string) : list string :=
  match s with
  | EmptyString => [EmptyString]
  | String c r => match components r with
                  | h :: t => if Ascii.eqb c "/" then EmptyString :: h :: t else String c h :: t
                  | [] => []
                  end
  end.
Definition enter (place : list string) (c : string) : list string :=
  if ((c =? "") || (c =? "."))%string%bool then place else if (c =? "..")%string then removelast place else place ++ [c].
Definition leads_to (path : string) : list string := fold_left enter (components path) [].
Fixpoint slash_free (s : string) : Prop := match s with EmptyString => True | String c r => c <> "/"%char /\ slash_free r end.

Lemma components_some s : exists h t, components s = h :: t.
Proof. induction s as [|c s (h & t & E)]; [exists EmptyString, []; reflexivity|]. cbn [components]. rewrite E. destruct (Ascii.eqb c "/"); eexists _, _; reflexivity. Qed.
Lemma components_app a b : components (a ++ "/" ++ b)%string = components a ++ components b.
Proof.
  induction a as [|c a IH].
  - cbn [append]. cbn [components]. destruct (components_some b) as (h & t & E). rewrite E. reflexivity.
  - change ((String c a ++ "/" ++ b)%string) with (String c (a ++ "/" ++ b)%string). cbn [components]. rewrite IH. destruct (components_some a) as (h & t & E). rewrite E. cbn [app]. destruct (Ascii.eqb c "/"); reflexivity.
Qed.
Lemma components_plain s : slash_free s -> components s = [s].
Proof. induction s as [|c s IH]; [reflexivity|]. intros (N & H). cbn [components]. rewrite (IH H). apply Ascii.eqb_neq in N. rewrite N. reflexivity. Qed.
Lemma slash_free_app a b : slash_free a -> slash_free b -> slash_free (a ++ b).
Proof. induction a as [|c a IH]; [auto|]. intros (N & H) B. split; auto. Qed.

Lemma append_assoc a b c : ((a ++ b) ++ c)%string = (a ++ b ++ c)%string.
Proof. induction a as [|x a IH]; [reflexivity|]. cbn [append]. rewrite IH. reflexivity. Qed.
Lemma cfg_name s : (s ++ ".cfg")%string <> ""%string /\ (s ++ ".cfg")%string <> "."%string /\ (s ++ ".cfg")%string <> ".."%string.
Proof. destruct s as [|a [|b s]]; repeat split; cbn; try discriminate. destruct s; discriminate. Qed.

Lemma stays_inside E ID top : e_top E = (top ++ "/")%string -> slash_free ID -> ~ In ID [""; "."; ".."]%string ->
  leads_to (results_of E ID) = leads_to (e_top E ++ "results") ++ [ID] /\
  leads_to (copy_of E ID) = leads_to (e_top E ++ "results") ++ [ID; (ID ++ ".cfg")%string].
Proof.
  intros T S N. unfold results_of, copy_of, leads_to. rewrite T, !append_assoc.
  change ("/" ++ "results/" ++ ID ++ "/")%string with ("/" ++ ("results" ++ "/" ++ (ID ++ "/" ++ "")))%string.
  change ("/" ++ "results/" ++ ID ++ "/" ++ ID ++ ".cfg")%string with ("/" ++ ("results" ++ "/" ++ (ID ++ "/" ++ (ID ++ ".cfg"))))%string.
  rewrite !components_app, !(components_plain "results"), !(components_plain ID) by (auto; cbn; repeat split; discriminate).
  rewrite (components_plain (ID ++ ".cfg")) by (apply slash_free_app; [exact S|cbn; repeat split; discriminate]).
  rewrite !fold_left_app. set (r := fold_left enter ["results"%string] _). cbn [fold_left components].
  assert (EN : forall l, enter l ID = l ++ [ID]).
  { intros l. unfold enter. cbn [In] in N. assert (ID <> "" /\ ID <> "." /\ ID <> "..")%string as (A & B & C) by (repeat split; intros X; apply N; auto). apply String.eqb_neq in A, B, C. rewrite A, B, C. reflexivity. }
  assert (EC : forall l, enter l (ID ++ ".cfg") = l ++ [(ID ++ ".cfg")%string]).
  { intros l. unfold enter. destruct (cfg_name ID) as (A & B & C). apply String.eqb_neq in A, B, C. rewrite A, B, C. reflexivity. }
  rewrite EC, EN, <- app_assoc. split; reflexivity.
Qed.

Lemma config_kept E fs w path rank : (forall cfg ID, loaded E fs path cfg -> value_of cfg "ID" = Some (SString ID) -> path <> copy_of E ID) ->
  fs_file (fst (Configuration_ctor E fs w path rank)) path = fs_file fs path.
Proof.
  intros H. destruct (Z.eq_dec rank 0) as [-> | N]; [|apply (other_ranks E fs w path rank N)].
  destruct (fs_file fs path) as [t|] eqn:F; [|unfold Configuration_ctor, Read_Config_File; rewrite F; exact F].
  destruct (e_parse E t) as [cfg|] eqn:P; [|unfold Configuration_ctor, Read_Config_File; rewrite F, P; exact F].
  destruct (read_string cfg "ID") as [ID| | |] eqn:I; [|unfold Configuration_ctor, Read_Config_File, Initialize_Result_Folder; rewrite F, P, I; exact F..].
  apply read_string_ok in I. destruct (rank_zero E fs w path cfg ID t F P I) as (_ & _ & K). apply K. apply (H cfg ID); [exists t; auto|exact I].
Qed.
