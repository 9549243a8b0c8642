(** The nuclear data table and the lookup functions.
    Source: /repo/src/Target_Nucleus.cpp:131-192, /repo/data/Nuclear_Data.txt. *)
From Coq Require Import Reals List ZArith String.
From Verif Require Import Base Nucleus_Model.
Import ListNotations.

(** One row "name Z A abundance spin sp sn" of the data file as read by
    [f >> name >> Z >> A >> abund >> spin >> sp >> sn], /repo/src/Target_Nucleus.cpp:149.
    Simplified: the text is already split into fields. *)
Record row : Type := mkRow {
  rw_name : string; rw_Z : Z; rw_A : Z; rw_abundance : xr; rw_spin : xr; rw_sp : xr; rw_sn : xr }.

(** The reading loop of Import_Nuclear_Data and the push after it, /repo/src/Target_Nucleus.cpp:148-159. *)
Fixpoint import_loop (rows : list row) (nuclei : list Nucleus) (isotopes : list Isotope) (Zold : Z) : res (list Nucleus) :=
  match rows with
  | [] =>
      let* n := Nucleus_of_isotopes isotopes in
      Ok (nuclei ++ [n])
  | r :: t =>
      if (Zold <? rw_Z r)%Z then
        let* n := Nucleus_of_isotopes isotopes in
        let* i := Isotope_ctor (rw_Z r) (rw_A r) (rw_abundance r) (rw_spin r) (rw_sp r) (rw_sn r) in
        import_loop t (nuclei ++ [n]) [i] (rw_Z r)
      else
        let* i := Isotope_ctor (rw_Z r) (rw_A r) (rw_abundance r) (rw_spin r) (rw_sp r) (rw_sn r) in
        import_loop t nuclei (isotopes ++ [i]) Zold
  end.

(** What the lookup functions depend on: the data file (None when it cannot be opened) and the global vector
    all_nuclei, /repo/src/Target_Nucleus.cpp:133. *)
Record nuclear_world : Type := mkWorld { nw_file : option (list row); nw_all : list Nucleus }.

(** Import_Nuclear_Data, /repo/src/Target_Nucleus.cpp:134-163. *)
Definition Import_Nuclear_Data (w : nuclear_world) : res (list Nucleus) :=
  match nw_file w with
  | None => Exit
  | Some rows => import_loop rows [] [] 1
  end.

(** Get_Nucleus(unsigned int Z), /repo/src/Target_Nucleus.cpp:170-181. *)
Definition Get_Nucleus (w : nuclear_world) (z : Z) : res (Nucleus * nuclear_world) :=
  if ((z <? 1) || (92 <? z))%Z%bool then Exit
  else
    let* w' := (if (Datatypes.length (nw_all w) =? 0)%nat
                then let* l := Import_Nuclear_Data w in Ok (mkWorld (nw_file w) l)
                else Ok w) in
    let* n := at_ubZ (nw_all w') (z - 1) in
    Ok (n, w').

(** The loop of Get_Nucleus(std::string), /repo/src/Target_Nucleus.cpp:185-189; [left] counts the remaining
    iterations up to Z = 92. *)
Fixpoint name_loop (left : nat) (z : Z) (w : nuclear_world) (name : string) : res (Nucleus * nuclear_world) :=
  match left with
  | O => Exit
  | S m =>
      let* p := Get_Nucleus w z in
      if (nname (fst p) =? name)%string then Get_Nucleus (snd p) z
      else name_loop m (z + 1) (snd p) name
  end.

(** Get_Nucleus(std::string), /repo/src/Target_Nucleus.cpp:183-192. *)
Definition Get_Nucleus_by_name (w : nuclear_world) (name : string) : res (Nucleus * nuclear_world) :=
  name_loop 92 1 w name.

(** Get_Isotope(Z, A), /repo/src/Target_Nucleus.cpp:165-168. *)
Definition Get_Isotope (w : nuclear_world) (z a : Z) : res (Isotope * nuclear_world) :=
  let* p := Get_Nucleus w z in
  let* i := Nucleus_Get_Isotope (fst p) a in
  Ok (i, snd p).

(** A lookup by charge or by name, the two public queries of /repo/src/Target_Nucleus.cpp:170,183. *)
Inductive nuclear_query : Type := ByCharge (z : Z) | ByName (name : string).
Definition lookup (w : nuclear_world) (q : nuclear_query) : res (Nucleus * nuclear_world) :=
  match q with
  | ByCharge z => Get_Nucleus w z
  | ByName name => Get_Nucleus_by_name w name
  end.

(** The world at the start of the program: nothing imported yet, /repo/src/Target_Nucleus.cpp:133. *)
Definition fresh_world (rows : list row) : nuclear_world := mkWorld (Some rows) [].

(** The shipped file /repo/data/Nuclear_Data.txt, all 295 rows; a decimal number is given as (digits, number of
    decimals). *)
Inductive raw_row : Type :=
  Raw (name : string) (z a : Z) (abundance spin sp sn : Z * nat).
Definition decimal (d : Z * nat) : xr := Fin (IZR (fst d) / 10 ^ snd d).
Definition row_of_raw (r : raw_row) : row :=
  match r with Raw nm z a ab sp p n => mkRow nm z a (decimal ab) (decimal sp) (decimal p) (decimal n) end.
Local Open Scope Z_scope.
Local Open Scope string_scope.
Definition shipped_raw : list raw_row :=
  [
   Raw "H" 1 1 (99985, 5%nat) (5, 1%nat) (5, 1%nat) (0, 0%nat);
   Raw "H" 1 2 (15, 5%nat) (1, 0%nat) (0, 0%nat) (0, 0%nat);
   Raw "He" 2 3 (137, 8%nat) (5, 1%nat) ((-81)%Z, 3%nat) (552, 3%nat);
   Raw "He" 2 4 (99999863, 8%nat) (0, 0%nat) (0, 0%nat) (0, 0%nat);
   Raw "Li" 3 6 (759, 4%nat) (1, 0%nat) (0, 0%nat) (0, 0%nat);
   Raw "Li" 3 7 (9241, 4%nat) (15, 1%nat) (497, 3%nat) (4, 3%nat);
   Raw "Be" 4 9 (1, 0%nat) (15, 1%nat) (7, 3%nat) (415, 3%nat);
   Raw "B" 5 10 (198, 3%nat) (3, 0%nat) (0, 0%nat) (0, 0%nat);
   Raw "B" 5 11 (802, 3%nat) (15, 1%nat) (292, 3%nat) (8, 3%nat);
   Raw "C" 6 12 (9889, 4%nat) (0, 0%nat) (0, 0%nat) (0, 0%nat);
   Raw "C" 6 13 (111, 4%nat) (5, 1%nat) ((-9)%Z, 3%nat) ((-172)%Z, 3%nat);
   Raw "N" 7 14 (99634, 5%nat) (1, 0%nat) (0, 0%nat) (0, 0%nat);
   Raw "N" 7 15 (366, 5%nat) (5, 1%nat) ((-145)%Z, 3%nat) (37, 3%nat);
   Raw "O" 8 16 (99762, 5%nat) (0, 0%nat) (0, 0%nat) (0, 0%nat);
   Raw "O" 8 17 (38, 5%nat) (25, 1%nat) ((-36)%Z, 3%nat) (508, 3%nat);
   Raw "O" 8 18 (2, 3%nat) (0, 0%nat) (0, 0%nat) (0, 0%nat);
   Raw "F" 9 19 (1, 0%nat) (5, 1%nat) (478, 3%nat) ((-2)%Z, 3%nat);
   Raw "Ne" 10 20 (9048, 4%nat) (0, 0%nat) (0, 0%nat) (0, 0%nat);
   Raw "Ne" 10 21 (27, 4%nat) (15, 1%nat) (2, 2%nat) (294, 3%nat);
   Raw "Ne" 10 22 (925, 4%nat) (0, 0%nat) (0, 0%nat) (0, 0%nat);
   Raw "Na" 11 23 (1, 0%nat) (15, 1%nat) (224, 3%nat) (24, 3%nat);
   Raw "Mg" 12 24 (7899, 4%nat) (0, 0%nat) (0, 0%nat) (0, 0%nat);
   Raw "Mg" 12 25 (1, 1%nat) (25, 1%nat) (4, 2%nat) (376, 3%nat);
   Raw "Mg" 12 26 (1101, 4%nat) (0, 0%nat) (0, 0%nat) (0, 0%nat);
   Raw "Al" 13 27 (1, 0%nat) (25, 1%nat) (326, 3%nat) (38, 3%nat);
   Raw "Si" 14 28 (9223, 4%nat) (0, 0%nat) (0, 0%nat) (0, 0%nat);
   Raw "Si" 14 29 (4683, 5%nat) (5, 1%nat) (16, 3%nat) (156, 3%nat);
   Raw "Si" 14 30 (3087, 5%nat) (0, 0%nat) (0, 0%nat) (0, 0%nat);
   Raw "P" 15 31 (1, 0%nat) (5, 1%nat) (181, 3%nat) (32, 3%nat);
   Raw "S" 16 32 (9502, 4%nat) (0, 0%nat) (0, 0%nat) (0, 0%nat);
   Raw "S" 16 33 (75, 4%nat) (15, 1%nat) (0, 0%nat) (0, 0%nat);
   Raw "S" 16 34 (421, 4%nat) (0, 0%nat) (0, 0%nat) (0, 0%nat);
   Raw "S" 16 36 (2, 4%nat) (0, 0%nat) (0, 0%nat) (0, 0%nat);
   Raw "Cl" 17 35 (7577, 4%nat) (15, 1%nat) ((-51)%Z, 3%nat) ((-88)%Z, 4%nat);
   Raw "Cl" 17 37 (2423, 4%nat) (15, 1%nat) (0, 0%nat) (0, 0%nat);
   Raw "Ar" 18 36 (3365, 6%nat) (0, 0%nat) (0, 0%nat) (0, 0%nat);
   Raw "Ar" 18 38 (632, 6%nat) (0, 0%nat) (0, 0%nat) (0, 0%nat);
   Raw "Ar" 18 40 (996003, 6%nat) (0, 0%nat) (0, 0%nat) (0, 0%nat);
   Raw "K" 19 39 (932581, 6%nat) (15, 1%nat) ((-197)%Z, 3%nat) (51, 3%nat);
   Raw "K" 19 40 (117, 6%nat) (4, 0%nat) (0, 0%nat) (0, 0%nat);
   Raw "K" 19 41 (67302, 6%nat) (15, 1%nat) (0, 0%nat) (0, 0%nat);
   Raw "Ca" 20 40 (9694, 4%nat) (0, 0%nat) (0, 0%nat) (0, 0%nat);
   Raw "Ca" 20 42 (647, 5%nat) (0, 0%nat) (0, 0%nat) (0, 0%nat);
   Raw "Ca" 20 43 (135, 5%nat) (35, 1%nat) (0, 0%nat) (0, 0%nat);
   Raw "Ca" 20 44 (209, 4%nat) (0, 0%nat) (0, 0%nat) (0, 0%nat);
   Raw "Ca" 20 46 (4, 5%nat) (0, 0%nat) (0, 0%nat) (0, 0%nat);
   Raw "Ca" 20 48 (187, 5%nat) (0, 0%nat) (0, 0%nat) (0, 0%nat);
   Raw "Sc" 21 45 (1, 0%nat) (35, 1%nat) (0, 0%nat) (0, 0%nat);
   Raw "Ti" 22 46 (825, 4%nat) (0, 0%nat) (0, 0%nat) (0, 0%nat);
   Raw "Ti" 22 47 (744, 4%nat) (25, 1%nat) (0, 0%nat) (21, 2%nat);
   Raw "Ti" 22 48 (7372, 4%nat) (0, 0%nat) (0, 0%nat) (0, 0%nat);
   Raw "Ti" 22 49 (541, 4%nat) (35, 1%nat) (0, 0%nat) (29, 2%nat);
   Raw "Ti" 22 50 (518, 4%nat) (0, 0%nat) (0, 0%nat) (0, 0%nat);
   Raw "V" 23 50 (25, 4%nat) (6, 0%nat) (0, 0%nat) (0, 0%nat);
   Raw "V" 23 51 (9975, 4%nat) (35, 1%nat) (36, 2%nat) (0, 0%nat);
   Raw "Cr" 24 50 (4345, 5%nat) (0, 0%nat) (0, 0%nat) (0, 0%nat);
   Raw "Cr" 24 52 (83789, 5%nat) (0, 0%nat) (0, 0%nat) (0, 0%nat);
   Raw "Cr" 24 53 (9501, 5%nat) (15, 1%nat) (0, 0%nat) (0, 0%nat);
   Raw "Cr" 24 54 (2365, 5%nat) (0, 0%nat) (0, 0%nat) (0, 0%nat);
   Raw "Mn" 25 55 (1, 0%nat) (25, 1%nat) (264, 3%nat) (0, 0%nat);
   Raw "Fe" 26 54 (5845, 5%nat) (0, 0%nat) (0, 0%nat) (0, 0%nat);
   Raw "Fe" 26 56 (91754, 5%nat) (0, 0%nat) (0, 0%nat) (0, 0%nat);
   Raw "Fe" 26 57 (2119, 5%nat) (5, 1%nat) (0, 0%nat) (0, 0%nat);
   Raw "Fe" 26 58 (282, 5%nat) (0, 0%nat) (0, 0%nat) (0, 0%nat);
   Raw "Co" 27 59 (1, 0%nat) (35, 1%nat) (25, 2%nat) (0, 0%nat);
   Raw "Ni" 28 58 (68077, 5%nat) (0, 0%nat) (0, 0%nat) (0, 0%nat);
   Raw "Ni" 28 60 (26223, 5%nat) (0, 0%nat) (0, 0%nat) (0, 0%nat);
   Raw "Ni" 28 61 (114, 4%nat) (15, 1%nat) (0, 0%nat) (0, 0%nat);
   Raw "Ni" 28 62 (3634, 5%nat) (0, 0%nat) (0, 0%nat) (0, 0%nat);
   Raw "Ni" 28 64 (926, 5%nat) (0, 0%nat) (0, 0%nat) (0, 0%nat);
   Raw "Cu" 29 63 (6917, 4%nat) (15, 1%nat) (0, 0%nat) (0, 0%nat);
   Raw "Cu" 29 65 (3083, 4%nat) (15, 1%nat) (0, 0%nat) (0, 0%nat);
   Raw "Zn" 30 64 (4863, 4%nat) (0, 0%nat) (0, 0%nat) (0, 0%nat);
   Raw "Zn" 30 66 (279, 3%nat) (0, 0%nat) (0, 0%nat) (0, 0%nat);
   Raw "Zn" 30 67 (41, 3%nat) (25, 1%nat) (0, 0%nat) ((-23)%Z, 2%nat);
   Raw "Zn" 30 68 (1875, 4%nat) (0, 0%nat) (0, 0%nat) (0, 0%nat);
   Raw "Zn" 30 70 (62, 4%nat) (0, 0%nat) (0, 0%nat) (0, 0%nat);
   Raw "Ga" 31 69 (60108, 5%nat) (15, 1%nat) (11, 2%nat) (0, 0%nat);
   Raw "Ga" 31 71 (39892, 5%nat) (15, 1%nat) (23, 2%nat) (0, 0%nat);
   Raw "Ge" 32 70 (2037, 4%nat) (0, 0%nat) (0, 0%nat) (0, 0%nat);
   Raw "Ge" 32 72 (2731, 4%nat) (0, 0%nat) (0, 0%nat) (0, 0%nat);
   Raw "Ge" 32 73 (776, 4%nat) (45, 1%nat) (31, 3%nat) (439, 3%nat);
   Raw "Ge" 32 74 (3673, 4%nat) (0, 0%nat) (0, 0%nat) (0, 0%nat);
   Raw "Ge" 32 76 (783, 4%nat) (0, 0%nat) (0, 0%nat) (0, 0%nat);
   Raw "As" 33 75 (1, 0%nat) (15, 1%nat) ((-1)%Z, 2%nat) (0, 0%nat);
   Raw "Se" 34 74 (89, 4%nat) (0, 0%nat) (0, 0%nat) (0, 0%nat);
   Raw "Se" 34 76 (937, 4%nat) (0, 0%nat) (0, 0%nat) (0, 0%nat);
   Raw "Se" 34 77 (763, 4%nat) (5, 1%nat) (0, 0%nat) (0, 0%nat);
   Raw "Se" 34 78 (2377, 4%nat) (0, 0%nat) (0, 0%nat) (0, 0%nat);
   Raw "Se" 34 80 (4961, 4%nat) (0, 0%nat) (0, 0%nat) (0, 0%nat);
   Raw "Se" 34 82 (873, 4%nat) (0, 0%nat) (0, 0%nat) (0, 0%nat);
   Raw "Br" 35 79 (5069, 4%nat) (15, 1%nat) (13, 2%nat) (0, 0%nat);
   Raw "Br" 35 81 (4931, 4%nat) (15, 1%nat) (17, 2%nat) (0, 0%nat);
   Raw "Kr" 36 78 (35, 4%nat) (0, 0%nat) (0, 0%nat) (0, 0%nat);
   Raw "Kr" 36 80 (228, 4%nat) (0, 0%nat) (0, 0%nat) (0, 0%nat);
   Raw "Kr" 36 82 (1158, 4%nat) (0, 0%nat) (0, 0%nat) (0, 0%nat);
   Raw "Kr" 36 83 (1149, 4%nat) (45, 1%nat) (0, 0%nat) (0, 0%nat);
   Raw "Kr" 36 84 (57, 2%nat) (0, 0%nat) (0, 0%nat) (0, 0%nat);
   Raw "Kr" 36 86 (173, 3%nat) (0, 0%nat) (0, 0%nat) (0, 0%nat);
   Raw "Rb" 37 85 (7217, 4%nat) (25, 1%nat) (0, 0%nat) (0, 0%nat);
   Raw "Rb" 37 87 (2783, 4%nat) (15, 1%nat) (0, 0%nat) (0, 0%nat);
   Raw "Sr" 38 84 (56, 4%nat) (0, 0%nat) (0, 0%nat) (0, 0%nat);
   Raw "Sr" 38 86 (986, 4%nat) (0, 0%nat) (0, 0%nat) (0, 0%nat);
   Raw "Sr" 38 87 (7, 2%nat) (45, 1%nat) (0, 0%nat) (0, 0%nat);
   Raw "Sr" 38 88 (8258, 4%nat) (0, 0%nat) (0, 0%nat) (0, 0%nat);
   Raw "Y" 39 89 (1, 0%nat) (5, 1%nat) (0, 0%nat) (0, 0%nat);
   Raw "Zr" 40 90 (5145, 4%nat) (0, 0%nat) (0, 0%nat) (0, 0%nat);
   Raw "Zr" 40 91 (1122, 4%nat) (25, 1%nat) (0, 0%nat) (34, 2%nat);
   Raw "Zr" 40 92 (1715, 4%nat) (0, 0%nat) (0, 0%nat) (0, 0%nat);
   Raw "Zr" 40 94 (1738, 4%nat) (0, 0%nat) (0, 0%nat) (0, 0%nat);
   Raw "Zr" 40 96 (28, 3%nat) (0, 0%nat) (0, 0%nat) (0, 0%nat);
   Raw "Nb" 41 93 (1, 0%nat) (45, 1%nat) (48, 2%nat) (4, 2%nat);
   Raw "Mo" 42 100 (963, 4%nat) (0, 0%nat) (0, 0%nat) (0, 0%nat);
   Raw "Mo" 42 92 (1484, 4%nat) (0, 0%nat) (0, 0%nat) (0, 0%nat);
   Raw "Mo" 42 94 (925, 4%nat) (0, 0%nat) (0, 0%nat) (0, 0%nat);
   Raw "Mo" 42 95 (1592, 4%nat) (25, 1%nat) (0, 0%nat) (0, 0%nat);
   Raw "Mo" 42 96 (1668, 4%nat) (0, 0%nat) (0, 0%nat) (0, 0%nat);
   Raw "Mo" 42 97 (955, 4%nat) (25, 1%nat) (0, 0%nat) (0, 0%nat);
   Raw "Mo" 42 98 (2413, 4%nat) (0, 0%nat) (0, 0%nat) (0, 0%nat);
   Raw "Tc" 43 99 (0, 0%nat) (0, 0%nat) (0, 0%nat) (0, 0%nat);
   Raw "Ru" 44 100 (126, 3%nat) (0, 0%nat) (0, 0%nat) (0, 0%nat);
   Raw "Ru" 44 101 (1706, 4%nat) (25, 1%nat) (0, 0%nat) (19, 2%nat);
   Raw "Ru" 44 102 (3155, 4%nat) (0, 0%nat) (0, 0%nat) (0, 0%nat);
   Raw "Ru" 44 104 (1862, 4%nat) (0, 0%nat) (0, 0%nat) (0, 0%nat);
   Raw "Ru" 44 96 (554, 4%nat) (0, 0%nat) (0, 0%nat) (0, 0%nat);
   Raw "Ru" 44 98 (187, 4%nat) (0, 0%nat) (0, 0%nat) (0, 0%nat);
   Raw "Ru" 44 99 (1276, 4%nat) (25, 1%nat) (0, 0%nat) (17, 2%nat);
   Raw "Rh" 45 103 (1, 0%nat) (5, 1%nat) (0, 0%nat) (0, 0%nat);
   Raw "Pd" 46 102 (102, 4%nat) (0, 0%nat) (0, 0%nat) (0, 0%nat);
   Raw "Pd" 46 104 (1114, 4%nat) (0, 0%nat) (0, 0%nat) (0, 0%nat);
   Raw "Pd" 46 105 (2233, 4%nat) (25, 1%nat) (0, 0%nat) (0, 0%nat);
   Raw "Pd" 46 106 (2733, 4%nat) (0, 0%nat) (0, 0%nat) (0, 0%nat);
   Raw "Pd" 46 108 (2646, 4%nat) (0, 0%nat) (0, 0%nat) (0, 0%nat);
   Raw "Pd" 46 110 (1172, 4%nat) (0, 0%nat) (0, 0%nat) (0, 0%nat);
   Raw "Ag" 47 107 (51839, 5%nat) (5, 1%nat) ((-13)%Z, 2%nat) (0, 0%nat);
   Raw "Ag" 47 109 (48161, 5%nat) (5, 1%nat) ((-14)%Z, 2%nat) (0, 0%nat);
   Raw "Cd" 48 106 (125, 4%nat) (0, 0%nat) (0, 0%nat) (0, 0%nat);
   Raw "Cd" 48 108 (89, 4%nat) (0, 0%nat) (0, 0%nat) (0, 0%nat);
   Raw "Cd" 48 110 (1249, 4%nat) (0, 0%nat) (0, 0%nat) (0, 0%nat);
   Raw "Cd" 48 111 (128, 3%nat) (5, 1%nat) (0, 0%nat) (16, 2%nat);
   Raw "Cd" 48 112 (2413, 4%nat) (0, 0%nat) (0, 0%nat) (0, 0%nat);
   Raw "Cd" 48 113 (1222, 4%nat) (5, 1%nat) ((-1)%Z, 3%nat) (488, 3%nat);
   Raw "Cd" 48 114 (2873, 4%nat) (0, 0%nat) (0, 0%nat) (0, 0%nat);
   Raw "Cd" 48 116 (749, 4%nat) (0, 0%nat) (0, 0%nat) (0, 0%nat);
   Raw "In" 49 113 (429, 4%nat) (45, 1%nat) (0, 0%nat) (0, 0%nat);
   Raw "In" 49 115 (9571, 4%nat) (45, 1%nat) ((-1)%Z, 3%nat) (488, 3%nat);
   Raw "Sn" 50 112 (97, 4%nat) (0, 0%nat) (0, 0%nat) (0, 0%nat);
   Raw "Sn" 50 114 (66, 4%nat) (0, 0%nat) (0, 0%nat) (0, 0%nat);
   Raw "Sn" 50 115 (34, 4%nat) (5, 1%nat) (0, 0%nat) (24, 2%nat);
   Raw "Sn" 50 116 (1454, 4%nat) (0, 0%nat) (0, 0%nat) (0, 0%nat);
   Raw "Sn" 50 117 (768, 4%nat) (5, 1%nat) (0, 0%nat) (126, 3%nat);
   Raw "Sn" 50 118 (2422, 4%nat) (0, 0%nat) (0, 0%nat) (0, 0%nat);
   Raw "Sn" 50 119 (859, 4%nat) (5, 1%nat) (0, 0%nat) (0, 0%nat);
   Raw "Sn" 50 120 (3258, 4%nat) (0, 0%nat) (0, 0%nat) (0, 0%nat);
   Raw "Sn" 50 122 (463, 4%nat) (0, 0%nat) (0, 0%nat) (0, 0%nat);
   Raw "Sn" 50 124 (579, 4%nat) (0, 0%nat) (0, 0%nat) (0, 0%nat);
   Raw "Sb" 51 121 (5721, 4%nat) (25, 1%nat) (188, 3%nat) (0, 0%nat);
   Raw "Sb" 51 123 (4279, 4%nat) (35, 1%nat) ((-207)%Z, 3%nat) (0, 0%nat);
   Raw "Te" 52 120 (9, 4%nat) (0, 0%nat) (0, 0%nat) (0, 0%nat);
   Raw "Te" 52 122 (255, 4%nat) (0, 0%nat) (0, 0%nat) (0, 0%nat);
   Raw "Te" 52 123 (89, 4%nat) (5, 1%nat) (0, 0%nat) (491, 3%nat);
   Raw "Te" 52 124 (474, 4%nat) (0, 0%nat) (0, 0%nat) (0, 0%nat);
   Raw "Te" 52 125 (707, 4%nat) (5, 1%nat) ((-8)%Z, 4%nat) (499, 3%nat);
   Raw "Te" 52 126 (1884, 4%nat) (0, 0%nat) (0, 0%nat) (0, 0%nat);
   Raw "Te" 52 128 (3174, 4%nat) (0, 0%nat) (0, 0%nat) (0, 0%nat);
   Raw "Te" 52 130 (3408, 4%nat) (0, 0%nat) (0, 0%nat) (0, 0%nat);
   Raw "I" 53 127 (1, 0%nat) (25, 1%nat) (342, 3%nat) (31, 3%nat);
   Raw "Xe" 54 124 (95, 5%nat) (0, 0%nat) (0, 0%nat) (0, 0%nat);
   Raw "Xe" 54 126 (89, 5%nat) (0, 0%nat) (0, 0%nat) (0, 0%nat);
   Raw "Xe" 54 128 (191, 4%nat) (0, 0%nat) (0, 0%nat) (0, 0%nat);
   Raw "Xe" 54 129 (264, 3%nat) (5, 1%nat) (1, 2%nat) (329, 3%nat);
   Raw "Xe" 54 130 (4071, 5%nat) (0, 0%nat) (0, 0%nat) (0, 0%nat);
   Raw "Xe" 54 131 (21232, 5%nat) (15, 1%nat) ((-9)%Z, 3%nat) ((-272)%Z, 3%nat);
   Raw "Xe" 54 132 (26909, 5%nat) (0, 0%nat) (0, 0%nat) (0, 0%nat);
   Raw "Xe" 54 134 (10436, 5%nat) (0, 0%nat) (0, 0%nat) (0, 0%nat);
   Raw "Xe" 54 136 (8857, 5%nat) (0, 0%nat) (0, 0%nat) (0, 0%nat);
   Raw "Cs" 55 133 (1, 0%nat) (35, 1%nat) ((-225)%Z, 3%nat) (2, 3%nat);
   Raw "Ba" 56 130 (106, 5%nat) (0, 0%nat) (0, 0%nat) (0, 0%nat);
   Raw "Ba" 56 132 (101, 5%nat) (0, 0%nat) (0, 0%nat) (0, 0%nat);
   Raw "Ba" 56 134 (2417, 5%nat) (0, 0%nat) (0, 0%nat) (0, 0%nat);
   Raw "Ba" 56 135 (6592, 5%nat) (15, 1%nat) ((-4)%Z, 3%nat) ((-145)%Z, 3%nat);
   Raw "Ba" 56 136 (7854, 5%nat) (0, 0%nat) (0, 0%nat) (0, 0%nat);
   Raw "Ba" 56 137 (11232, 5%nat) (15, 1%nat) (0, 0%nat) (0, 0%nat);
   Raw "Ba" 56 138 (71698, 5%nat) (0, 0%nat) (0, 0%nat) (0, 0%nat);
   Raw "La" 57 138 (9, 4%nat) (5, 0%nat) (0, 0%nat) (0, 0%nat);
   Raw "La" 57 139 (9991, 4%nat) (35, 1%nat) ((-16)%Z, 2%nat) (0, 0%nat);
   Raw "Ce" 58 136 (185, 5%nat) (0, 0%nat) (0, 0%nat) (0, 0%nat);
   Raw "Ce" 58 138 (251, 5%nat) (0, 0%nat) (0, 0%nat) (0, 0%nat);
   Raw "Ce" 58 140 (8845, 4%nat) (0, 0%nat) (0, 0%nat) (0, 0%nat);
   Raw "Ce" 58 142 (11114, 5%nat) (0, 0%nat) (0, 0%nat) (0, 0%nat);
   Raw "Pr" 59 141 (1, 0%nat) (25, 1%nat) (0, 0%nat) (0, 0%nat);
   Raw "Nd" 60 142 (272, 3%nat) (0, 0%nat) (0, 0%nat) (0, 0%nat);
   Raw "Nd" 60 143 (122, 3%nat) (35, 1%nat) (0, 0%nat) (0, 0%nat);
   Raw "Nd" 60 144 (238, 3%nat) (0, 0%nat) (0, 0%nat) (0, 0%nat);
   Raw "Nd" 60 145 (83, 3%nat) (35, 1%nat) (0, 0%nat) (0, 0%nat);
   Raw "Nd" 60 146 (172, 3%nat) (0, 0%nat) (0, 0%nat) (0, 0%nat);
   Raw "Nd" 60 148 (57, 3%nat) (0, 0%nat) (0, 0%nat) (0, 0%nat);
   Raw "Nd" 60 150 (56, 3%nat) (0, 0%nat) (0, 0%nat) (0, 0%nat);
   Raw "Pm" 61 145 (0, 0%nat) (0, 0%nat) (0, 0%nat) (0, 0%nat);
   Raw "Sm" 62 144 (307, 4%nat) (0, 0%nat) (0, 0%nat) (0, 0%nat);
   Raw "Sm" 62 147 (1499, 4%nat) (35, 1%nat) (0, 0%nat) (0, 0%nat);
   Raw "Sm" 62 148 (1124, 4%nat) (0, 0%nat) (0, 0%nat) (0, 0%nat);
   Raw "Sm" 62 149 (1382, 4%nat) (35, 1%nat) (0, 0%nat) (0, 0%nat);
   Raw "Sm" 62 150 (738, 4%nat) (0, 0%nat) (0, 0%nat) (0, 0%nat);
   Raw "Sm" 62 152 (2675, 4%nat) (0, 0%nat) (0, 0%nat) (0, 0%nat);
   Raw "Sm" 62 154 (2275, 4%nat) (0, 0%nat) (0, 0%nat) (0, 0%nat);
   Raw "Eu" 63 151 (4781, 4%nat) (25, 1%nat) (0, 0%nat) (0, 0%nat);
   Raw "Eu" 63 153 (5219, 4%nat) (25, 1%nat) (0, 0%nat) (0, 0%nat);
   Raw "Gd" 64 152 (2, 3%nat) (0, 0%nat) (0, 0%nat) (0, 0%nat);
   Raw "Gd" 64 154 (218, 4%nat) (0, 0%nat) (0, 0%nat) (0, 0%nat);
   Raw "Gd" 64 155 (148, 3%nat) (15, 1%nat) (0, 0%nat) (7, 2%nat);
   Raw "Gd" 64 156 (2047, 4%nat) (0, 0%nat) (0, 0%nat) (0, 0%nat);
   Raw "Gd" 64 157 (1565, 4%nat) (15, 1%nat) (0, 0%nat) (9, 2%nat);
   Raw "Gd" 64 158 (2484, 4%nat) (0, 0%nat) (0, 0%nat) (0, 0%nat);
   Raw "Gd" 64 160 (2186, 4%nat) (0, 0%nat) (0, 0%nat) (0, 0%nat);
   Raw "Tb" 65 159 (1, 0%nat) (15, 1%nat) (0, 0%nat) (0, 0%nat);
   Raw "Dy" 66 156 (6, 4%nat) (0, 0%nat) (0, 0%nat) (0, 0%nat);
   Raw "Dy" 66 158 (1, 3%nat) (0, 0%nat) (0, 0%nat) (0, 0%nat);
   Raw "Dy" 66 160 (234, 4%nat) (0, 0%nat) (0, 0%nat) (0, 0%nat);
   Raw "Dy" 66 161 (1891, 4%nat) (25, 1%nat) (0, 0%nat) (0, 0%nat);
   Raw "Dy" 66 162 (2551, 4%nat) (0, 0%nat) (0, 0%nat) (0, 0%nat);
   Raw "Dy" 66 163 (249, 3%nat) (25, 1%nat) (0, 0%nat) (0, 0%nat);
   Raw "Dy" 66 164 (2818, 4%nat) (0, 0%nat) (0, 0%nat) (0, 0%nat);
   Raw "Ho" 67 165 (1, 0%nat) (35, 1%nat) (0, 0%nat) (0, 0%nat);
   Raw "Er" 68 162 (139, 5%nat) (0, 0%nat) (0, 0%nat) (0, 0%nat);
   Raw "Er" 68 164 (1601, 5%nat) (0, 0%nat) (0, 0%nat) (0, 0%nat);
   Raw "Er" 68 166 (33503, 5%nat) (0, 0%nat) (0, 0%nat) (0, 0%nat);
   Raw "Er" 68 167 (22869, 5%nat) (35, 1%nat) (0, 0%nat) (0, 0%nat);
   Raw "Er" 68 168 (26978, 5%nat) (0, 0%nat) (0, 0%nat) (0, 0%nat);
   Raw "Er" 68 170 (1491, 4%nat) (0, 0%nat) (0, 0%nat) (0, 0%nat);
   Raw "Tm" 69 169 (1, 0%nat) (5, 1%nat) (0, 0%nat) (0, 0%nat);
   Raw "Yb" 70 168 (13, 4%nat) (0, 0%nat) (0, 0%nat) (0, 0%nat);
   Raw "Yb" 70 170 (304, 4%nat) (0, 0%nat) (0, 0%nat) (0, 0%nat);
   Raw "Yb" 70 171 (1428, 4%nat) (5, 1%nat) (0, 0%nat) (0, 0%nat);
   Raw "Yb" 70 172 (2183, 4%nat) (0, 0%nat) (0, 0%nat) (0, 0%nat);
   Raw "Yb" 70 173 (1613, 4%nat) (25, 1%nat) (0, 0%nat) (0, 0%nat);
   Raw "Yb" 70 174 (3183, 4%nat) (0, 0%nat) (0, 0%nat) (0, 0%nat);
   Raw "Yb" 70 176 (1276, 4%nat) (0, 0%nat) (0, 0%nat) (0, 0%nat);
   Raw "Lu" 71 175 (9741, 4%nat) (35, 1%nat) (0, 0%nat) (0, 0%nat);
   Raw "Lu" 71 176 (259, 4%nat) (7, 0%nat) (0, 0%nat) (0, 0%nat);
   Raw "Hf" 72 174 (16, 4%nat) (0, 0%nat) (0, 0%nat) (0, 0%nat);
   Raw "Hf" 72 176 (526, 4%nat) (0, 0%nat) (0, 0%nat) (0, 0%nat);
   Raw "Hf" 72 177 (186, 3%nat) (35, 1%nat) (0, 0%nat) (0, 0%nat);
   Raw "Hf" 72 178 (2728, 4%nat) (0, 0%nat) (0, 0%nat) (0, 0%nat);
   Raw "Hf" 72 179 (1362, 4%nat) (45, 1%nat) (0, 0%nat) (0, 0%nat);
   Raw "Hf" 72 180 (3508, 4%nat) (0, 0%nat) (0, 0%nat) (0, 0%nat);
   Raw "Ta" 73 181 (99988, 5%nat) (35, 1%nat) (0, 0%nat) (0, 0%nat);
   Raw "W" 74 180 (12, 4%nat) (0, 0%nat) (0, 0%nat) (0, 0%nat);
   Raw "W" 74 182 (265, 3%nat) (0, 0%nat) (0, 0%nat) (0, 0%nat);
   Raw "W" 74 183 (1431, 4%nat) (5, 1%nat) (0, 0%nat) ((-3)%Z, 2%nat);
   Raw "W" 74 184 (3064, 4%nat) (0, 0%nat) (0, 0%nat) (0, 0%nat);
   Raw "W" 74 186 (2843, 4%nat) (0, 0%nat) (0, 0%nat) (0, 0%nat);
   Raw "Re" 75 185 (374, 3%nat) (25, 1%nat) (0, 0%nat) (0, 0%nat);
   Raw "Re" 75 187 (626, 3%nat) (25, 1%nat) (0, 0%nat) (0, 0%nat);
   Raw "Os" 76 184 (2, 4%nat) (0, 0%nat) (0, 0%nat) (0, 0%nat);
   Raw "Os" 76 186 (159, 4%nat) (0, 0%nat) (0, 0%nat) (0, 0%nat);
   Raw "Os" 76 187 (16, 3%nat) (5, 1%nat) (0, 0%nat) (0, 0%nat);
   Raw "Os" 76 188 (1329, 4%nat) (0, 0%nat) (0, 0%nat) (0, 0%nat);
   Raw "Os" 76 189 (1621, 4%nat) (15, 1%nat) (0, 0%nat) (0, 0%nat);
   Raw "Os" 76 190 (2636, 4%nat) (0, 0%nat) (0, 0%nat) (0, 0%nat);
   Raw "Os" 76 192 (4093, 4%nat) (0, 0%nat) (0, 0%nat) (0, 0%nat);
   Raw "Ir" 77 191 (373, 3%nat) (15, 1%nat) ((-295)%Z, 3%nat) (0, 0%nat);
   Raw "Ir" 77 193 (627, 3%nat) (15, 1%nat) ((-292)%Z, 3%nat) (0, 0%nat);
   Raw "Pt" 78 190 (14, 5%nat) (0, 0%nat) (0, 0%nat) (0, 0%nat);
   Raw "Pt" 78 192 (782, 5%nat) (0, 0%nat) (0, 0%nat) (0, 0%nat);
   Raw "Pt" 78 194 (32967, 5%nat) (0, 0%nat) (0, 0%nat) (0, 0%nat);
   Raw "Pt" 78 195 (33832, 5%nat) (5, 1%nat) (0, 0%nat) (0, 0%nat);
   Raw "Pt" 78 196 (25242, 5%nat) (0, 0%nat) (0, 0%nat) (0, 0%nat);
   Raw "Pt" 78 198 (7163, 5%nat) (0, 0%nat) (0, 0%nat) (0, 0%nat);
   Raw "Au" 79 197 (1, 0%nat) (15, 1%nat) (0, 0%nat) (0, 0%nat);
   Raw "Hg" 80 196 (15, 4%nat) (0, 0%nat) (0, 0%nat) (0, 0%nat);
   Raw "Hg" 80 198 (997, 4%nat) (0, 0%nat) (0, 0%nat) (0, 0%nat);
   Raw "Hg" 80 199 (1687, 4%nat) (5, 1%nat) (0, 0%nat) ((-13)%Z, 2%nat);
   Raw "Hg" 80 200 (231, 3%nat) (0, 0%nat) (0, 0%nat) (0, 0%nat);
   Raw "Hg" 80 201 (1318, 4%nat) (15, 1%nat) (0, 0%nat) (146, 3%nat);
   Raw "Hg" 80 202 (2986, 4%nat) (0, 0%nat) (0, 0%nat) (0, 0%nat);
   Raw "Hg" 80 204 (686, 4%nat) (0, 0%nat) (0, 0%nat) (0, 0%nat);
   Raw "Tl" 81 203 (29524, 5%nat) (5, 1%nat) (24, 2%nat) (0, 0%nat);
   Raw "Tl" 81 205 (70476, 5%nat) (5, 1%nat) (25, 2%nat) (0, 0%nat);
   Raw "Pb" 82 204 (14, 3%nat) (0, 0%nat) (0, 0%nat) (0, 0%nat);
   Raw "Pb" 82 206 (241, 3%nat) (0, 0%nat) (0, 0%nat) (0, 0%nat);
   Raw "Pb" 82 207 (221, 3%nat) (5, 1%nat) ((-1)%Z, 2%nat) ((-149)%Z, 3%nat);
   Raw "Pb" 82 208 (524, 3%nat) (0, 0%nat) (0, 0%nat) (0, 0%nat);
   Raw "Bi" 83 209 (1, 0%nat) (45, 1%nat) ((-85)%Z, 3%nat) (0, 0%nat);
   Raw "Po" 84 210 (1, 0%nat) (0, 0%nat) (0, 0%nat) (0, 0%nat);
   Raw "At" 85 210 (1, 0%nat) (0, 0%nat) (0, 0%nat) (0, 0%nat);
   Raw "Rn" 86 222 (1, 0%nat) (0, 0%nat) (0, 0%nat) (0, 0%nat);
   Raw "Fr" 87 223 (1, 0%nat) (0, 0%nat) (0, 0%nat) (0, 0%nat);
   Raw "Ra" 88 226 (1, 0%nat) (0, 0%nat) (0, 0%nat) (0, 0%nat);
   Raw "Ac" 89 227 (1, 0%nat) (0, 0%nat) (0, 0%nat) (0, 0%nat);
   Raw "Th" 90 232 (1, 0%nat) (0, 0%nat) (0, 0%nat) (0, 0%nat);
   Raw "Pa" 91 231 (1, 0%nat) (0, 0%nat) (0, 0%nat) (0, 0%nat);
   Raw "U" 92 234 (54, 6%nat) (0, 0%nat) (0, 0%nat) (0, 0%nat);
   Raw "U" 92 235 (7204, 6%nat) (35, 1%nat) (0, 0%nat) (0, 0%nat);
   Raw "U" 92 238 (992742, 6%nat) (0, 0%nat) (0, 0%nat) (0, 0%nat)].
Definition shipped_rows : list row := map row_of_raw shipped_raw.
