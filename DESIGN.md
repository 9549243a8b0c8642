# Formal model of obscura: design

Prover: Rocq/Coq 8.16.1, logical name `Verif`, all files in `rocq/theories`.
The code in `/repo` is read as text only; it is never built or run here.

## 1. What the model is

### Numbers

* `double` is modelled by `xr` (`Base.v`): `Fin r` with `r` a real number, or one of the IEEE specials
  `PInf`, `NInf`, `NaN`. Finite arithmetic is **exact real arithmetic: rounding, overflow, underflow and the
  sign of zero are not modelled**. Division by zero, square roots of negative numbers, logarithms of
  non-positive numbers, `0*inf`, `inf-inf`, and comparisons with NaN follow IEEE 754 (with +0 for every zero), so a formula that
  would divide by zero is *not* silently given a value; every theorem that concludes `= Fin r` also says that
  no NaN or infinity appears.
* Where a function contains no partial operation (coordinate rotations) plain `R` is used and the comment says so.
* `unsigned int`, `unsigned long`, `int` are `Z`/`N`/`nat`; wrap-around is written out (`mod 2^32`, `mod 2^64`)
  where a property or a branch depends on it.

### Control outcomes

`res A` (`Base.v`): `Ok a | Exit | UB | Throw`. `Exit` is `std::exit(EXIT_FAILURE)` after an error message, `UB` is
undefined behaviour (out-of-bounds `operator[]`, dereferencing `end()`, reading an indeterminate value, converting
an unrepresentable double to an integer), `Throw` is an uncaught exception (libconfig type mismatch).
Vectors are lists; `v[i]` is `at_ub v i`, which is `UB` out of range. Console output: one-shot warnings, and the summaries of the Print_* functions as lines of a label and values (`Summary_Model`; the exact text, indentation and separators are not modelled, libphysica::Round is an arbitrary function).

### Objects

A C++ object is a Coq record of its data members; a non-const member function becomes a function returning the
new record; virtual dispatch becomes an explicit vtable record (for abstract bases) or direct call.
Public mutators are collected in an inductive `op` type with `step`, and histories are lists of `op`.

### External libraries (trusted, not in /repo)

* libphysica `Integrate`: universally quantified function with the hypothesis `ideal_quadrature`: for integrands
  finite and Riemann integrable on [a,b] it returns the exact integral. (A witness satisfying the hypothesis is exhibited.)
* libphysica `Integrate_3D`: the hypothesis `ideal_quadrature_3D` (`Average_Proofs.v`, with a witness) in C99 and C101: for functions finite on
  the domain it returns the exact iterated integral with the volume element r^2, azimuth innermost.
* libphysica `Integrate_2D`: the hypothesis `ideal_quadrature_2D` (`HaloEta_Proofs.v`) in C87 and C99 only: for integrands finite on the
  rectangle whose iterated integral exists, the result is that integral. `reference_quadrature_2D` is a function with the property.
* libphysica `Find_Root`: universally quantified function with hypothesis: if the function is continuous with a sign change
  it returns a point of the interval that is a root. In the limit calculations, where the function has side effects, the hypotheses
  are `only_evaluates` (the state changes only by evaluating the function) and `accurate_search` (a point within eps of a root);
  `reference_search` satisfies both.
* `homogeneous_externals` (C45, C48, C95, C96): integrals and interpolation integrals of c*f are c times those of f (witnessed).
* `positive_externals` (C110): integrals over ordered ranges, interpolated values and probabilities of the binomial distribution are not negative when the integrated or tabulated values are not (witnessed).
* libphysica `PMF_Binomial` in C57 and C72: the hypothesis `ideal_binomial` (the binomial probabilities, 0 above n); witnessed by
  `exact_binomial`.
* libphysica `Matrix`, `Vector`, `Rotation_Matrix`, `Interpolation`, `CDF_Poisson`, `PMF_Binomial`,
  `Log_Likelihood_Poisson`, `Reduced_Mass`, `Workload`, unit constants: mathematical definitions written in the model,
  with comments saying that the source is outside /repo.
* `erf` is defined as 2/sqrt(pi) * int_0^x exp(-t^2) dt.
* libconfig (C59-C62, C74-C77): the parser is an arbitrary function from text to settings (`e_parse`); `lookup` of a missing key, a wrong index
  or a type mismatch throw, the first two are caught in the code (`Exit`), the last is not (`Throw`). Numbers in a file are exact and finite.
  What a negative integer becomes when read as unsigned is an arbitrary function (`e_negative`).
* File system: which strings are existing directories and what the files of a given path contain; `mkdir` and opening a file succeed or
  fail as given by arbitrary functions (`e_mkdir`, `e_open`). Paths are strings; C76 has its own reading of `/`, `.` and `..` (no links).
* `tame_environment` (C59, C60, C77): integrator, interpolation and importer have no undefined behaviour when the functions they are given
  have none. `total_library` (acceptance in C59): they return a number when the functions do. `readable` (C59, C62, C77): the shipped data
  files can be read and the crystal tables are complete. All witnessed (`machine`, `F0`).

### What is not modelled

Rounding errors and numerical accuracy of quadrature/interpolation/root finding; the exact text of console output and the logo, times and version printed by `main`; performance;
failing memory allocation; the libphysica sources; tabulated physics data (form factor tables, efficiency tables) except the nuclear data table (charges and mass numbers);
thread safety (the library has no threads).

## 2. Layout

`Base.v` (numbers, outcomes), `Analysis.v` (erf, integrals), then for each area three files:
`X_Model.v` (definitions only, each with the /repo lines it models), `X_Proofs.v` (lemmas),
`X_Properties.v` (only property theorems closed by `exact`, non-vacuity `Example`s, and `Print Assumptions`).

A property that the faithful model violates is settled by a theorem `..._refuted : exists ...`; the
strongest guarded version that does hold is proved next to it. In MANIFEST.json status `proved` means the question is settled
by machine-checked theorems, and the note starts with `REFUTED` when the settled answer is that the code violates the property.

## 3. Properties

| id | model | how it is settled |
|----|-------|-------------------|
| C01, C02 | `Astronomy_Model`: 3x3 matrices over R, inverse = adjugate/determinant | orthogonality of P, M, R from sin²+cos²=1; inverse = transpose; round trip and isometry for all T, v |
| C03 | Earth_Velocity with fmod as an explicit function | |uE|² = ve²(1+e²+2e cos(L-ω)) via orthonormality; bounds for all n |
| C04 | dates as Z triples; floor on reals reduced to Z division | independent spec `next_day` (Gregorian); one-step lemma by case analysis, then induction over the number of days; refuted at 2100-03-01 |
| C05, C06 | fmod specified by truncation | range |.|<1 day for all inputs; refuted non-negativity; congruence modulo a day |
| C07-C11 | `Particle_Model`: state record + op type over xr | algebra with sqrt; invariant by induction over op lists; explicit witnesses for the refuted parts |
| C12 | closed formulas over xr | fundamental theorem of calculus (Coquelicot) |
| C13, C18, C19 | same | algebra; limits |
| C14-C17 | angle functions | derivative/integral in Coquelicot, inverse by field; refutation outside [-1,1] |
| C20-C22 | `Halo_Model` with erf | derivatives of the piecewise formulas, continuity at the kink, FTC; sign analysis; witness when v_obs > v_esc |
| C23-C26 | halo objects as state machines, SHM++ caches as fields | invariant over histories; stale-cache witness |
| C63 | PDF_Velocity in an orthonormal frame along the observer velocity | fundamental theorem in the polar cosine, split at the escape cut |
| C64 | sausage density, erfi | antiderivative of the angular and of the radial integrand |
| C27-C29 | `Distribution_Model` with abstract density and quadrature | integral monotonicity, Chasles; constructor comparison |
| C65, C66 | export rows, generic eta | table lemmas on Linear_Space; integral comparison |
| C30, C31 | `Nucleus_Model`, `Atom_Model`, `Rates_Model` | sqrt/quadratic inequalities |
| C32 | Helm formula | derivative sign argument for 3(sin x - x cos x) <= x^3, positivity of r_n^2 |
| C33, C34 | `Nuclear_Model`: table of rows, grouping loop, cache | induction over rows; shipped table as a literal |
| C67 | shipped table as rationals | decision by computation over all 92 elements |
| C35, C36, C68 | `Atom_Model` | case analysis; history induction for the warning flag |
| C37-C39 | `Crystal_Model`, `Rates_Model` | floor lemmas; induction over the energy grid |
| C40-C44 | `Detector_Model`, `DetectorTypes_Model` | configuration state machines, invariants over op lists, UB witnesses |
| C45, C46, C51 | `Detector_Model` | derivative of the Poisson CDF, log inequality; the limit by monotonicity and continuity of the p-value in the interaction parameter |
| C47-C50 | `Detector_Model` (limits, scans) on top of `Particle_Model` | scaling of every rate with the couplings; particles equal up to a common sign have the same cross sections; invariants through the search and the loops; a deuterium detector for the refuted parts |
| C52 | `Detector_Model` (CDF_Maximum_Gap over xr) | differential equation of the series piece by piece (monotone, bounded), alternating tail for the truncation; NaN and UB witnesses |
| C53 | `DetectorTypes_Model` (constructors) | sums over lists; water as a counterexample |
| C54, C69, C70 | `DetectorTypes_Model` (Minimum_DM_Mass, Minimum_DM_Speed, Maximum_Energy_Deposit) | loop invariants over the isotopes; elastic kinematics solved for mass, speed and energy; H + Be and deuterium as counterexamples |
| C55, C71 | `Rates_Model` | both branches reduced to one integral with the quadrature hypothesis; the halo and the inherited eta function meet it |
| C56 | `Rates_Model`, `DetectorTypes_Model` | congruence for nuclei, independence for electrons |
| C57 | `DetectorTypes_Model` (PDF_ne, R_ne) | binomial theorem, exchange of the two sums |
| C58 | `DetectorTypes_Model` | the accepted state is computed and its prediction compared with the requested sum (`counts`, `counts_bins`) |
| C72 | `Rates_Model`, `DetectorTypes_Model` | the minimum over momenta of the minimal speed; every term of the rate is 0 below the mass; inspection of the shipped shells |
| C73 | `Crystal_Model`, `Rates_Model`, `DetectorTypes_Model` | same, the grid energies of Q pairs lie above the energy for Q |
| C59 | `Configuration_Model` | every step is free of undefined behaviour; inversion of every successful step gives the settings it read (`mandatory`); conversely a complete and `sensible` file runs through |
| C60 | `Configuration_Model` on `Particle_Model` | the configured particle is reached by the calls of C07-C11 in the order of the code; round trip and invariants of C07-C11; NaN witness |
| C61, C74-C76 | `Configuration_Model` (file system) | case analysis over the three writes; path components for C76; witnesses on a concrete disk |
| C62 | `Experiments_Model` | evaluation of the builders through the detector state machine against a table of the publications (`Experiments_Proofs`) and a table of responses (`Tuning_Proofs`, via C109) |
| C77 | `Configuration_Model`, `Experiments_Model` | inversion of the successful run, field by field |
| C78, C79 | `Astronomy_Model` | the matrices applied to unit vectors given by longitude and latitude (`Directions_Spec`); rotations keep the vector product; fmod removed by periodicity |
| C80 | same | congruence of fmod, bound on the nutation terms |
| C81-C83 | `Particle_Model`, `CrossSection_Model`, `Nucleus_Model` | closed values of total and differential cross sections; linear substitution in the integral; invariant prefactor over histories |
| C84 | `CrossSection_Model` | case analysis; explicit antiderivatives 1/x and ln x |
| C85 | `Particle_Model` | case analysis over all setters with frame lemmas |
| C86, C88 | `Halo_Model`, `Distribution_Model` | values of a table at its nodes and in between from the interpolation hypothesis, exact integrals at the nodes; mixture by the state invariant of C23 |
| C87 | same | polar coordinates, iterated integral (`ideal_quadrature_2D`), angular marginal of C63; for the halo, rotation invariance of the integral over the sphere (`Sphere_Proofs.v`) |
| C89, C90, C91 | `Rates_Model`, `DetectorTypes_Model` | sums of finite terms; the curves, resolution and flat efficiency held after any history of calls by induction over the calls against a separate fold; the folded spectrum from `ideal_quadrature`; two refutations by concrete detectors (curve imported twice; energy far below the threshold) |
| C92, C93, C94 | `Rates_Model` | each momentum term equals the speed integral from `ideal_quadrature` or from the eta function (as in C55, C71); the grid, window and weights compared with literal formulas (trapezoid rule in ln q, midpoint rule in q^2, double integral) |
| C95 | `DetectorTypes_Model` | every configuration call commutes with changing the exposure (case analysis over all calls, induction over histories); totals and bins then scale by the homogeneity lemmas used for the cross sections |
| C96 | `DetectorTypes_Model` | the spectrum scales with the flat efficiency, hence all counts; bins compared one by one with `map_res_zip` |
| C97 | `Atom_Model` | literal list of shells; constructor evaluated on arbitrary file contents; grid nodes and steps as powers |
| C98 | `DetectorTypes_Model` | Gaussian evaluated in closed form, sums over 1..100 electrons exchanged with sums over shells and atoms |
| C99 | `Average_Model` | iterated integrals in spherical coordinates; linearity and monotonicity of the volume integral, Cauchy-Schwarz |
| C100 | `Average_Model` | points of the grids in closed form; logarithm of 0 followed through the grid |
| C101 | `Halo_Model`, `Average_Model` | antiderivatives (error function and Gaussians) of the first moment below and above v_esc - v_obs; `Average_Velocity()` in its own coordinates by rotation invariance of integrals over the sphere (`Sphere_Proofs.v`: integration by parts along rotations, second order estimate, squeeze at the escape cut) |
| C102 | `Summary_Model` | case analysis on the classes; **refuted** for ionization and semiconductor detectors |
| C103 | `Summary_Model`, `Detector_Model`, `DetectorTypes_Model`, `Experiments_Model`, `Configuration_Model` | invariant on the kind of bins and on the uninitialised flag over all histories of calls; case analysis over all detectors a configuration can name; **refuted** for the six predefined semiconductor experiments and for mixed bins |
| C104 | `Summary_Model`, `Particle_Model` | named unit chosen by the mass; round trips of the setters (C01) composed with the printing; bin edges in closed form; **refuted** for the ratio of vanishing couplings |
| C105 | `Main_Model`, `Configuration_Model`, `Detector_Model` | inversion of the run of `main` composed with the frame of Upper_Limit (C47): rows of the file = limit points over the closed form of the grid |
| C106 | `Main_Model`, `Configuration_Model` | file system before and after; injectivity of the names (decimal digits and last slash); **refuted** for certainties with the same rounded percentage |
| C107 | `Main_Model` | ends as the curve does; **refuted** by the missing argument, six crystal experiments, divergent interactions with nuclear recoils, photoelectron experiments |
| C108 | `Detector_Model`, `DetectorTypes_Model` | the p-value as a function of the parameter is continuous and decreasing (`LimitValue_Proofs`); the search returns its crossing; comparison by monotonicity; exposure via C95 (`LimitClasses_Proofs`) |
| C109 | `Detector_Model`, `DetectorTypes_Model` | induction over the calls against a specification that remembers the last value given (`Settings_Proofs`) |
| C110 | `Rates_Model`, `Detector_Model`, `DetectorTypes_Model`, `CrossSection_Model`, `Halo_Model` | a sign invariant pushed through every rate and kept by induction over the calls (`Positivity_Proofs`), established for the particles, halos, nuclei, atoms and crystals of the library (`PositivityLibrary_Proofs`, `PositivityWitness_Proofs`); a reversed window refutes it beyond sensible calls |
| C111 | `Summary_Model`, `Detector_Model`, `DetectorTypes_Model` | what was told last is folded over the calls and related to the state by induction, then the printed lines are read off (`DetectorSummary_Proofs`, `DetectorSummaryWitness_Proofs`); a stale total refutes the last sentence |
| C112 | `Summary_Model`, `Halo_Model`, `Average_Model`, `Nuclear_Model`, `Atom_Model` | the state after a history is the one a constructor with the last parameters gives; the printed lines are read off it, with the averages of C27 and C101 (`HaloSummary_Proofs`) |
| C113 | `Nuclear_Model` (the shipped table as data) | look-ups return the rows of the table for every history (C33); the sums are computed in integers by the kernel for all 92 elements (`Abundances_Proofs`) |
| C114 | `DetectorTypes_Model`, `Crystal_Model`, `Detector_Model` | sums over ranges split into three sums of numbers that are not negative (C110); a pair threshold is the sum of the pair numbers above it (`partition_bins`, C39); nested integrals of a spectrum that is not negative (`Windows_Proofs`) |
| C115 | `Configuration_Model`, `Summary_Model` | inversion of the constructor and of the printing, for every file (`ConfigurationSummary_Proofs`); found missing by a seeded bug (mass range swapped) |
| C116 | `Halo_Model`, `Rates_Model` | induction over both call histories, then equality of what the rate functions see of the halo (`Direction_Proofs`); SHM++ is anisotropic by design and left out |

## 4. Trusted base

* The Coq 8.16.1 kernel.
* Stdlib axioms (the only ones allowed to appear under `Print Assumptions`): `ClassicalDedekindReals.sig_forall_dec`,
  `ClassicalDedekindReals.sig_not_dec`, `FunctionalExtensionality.functional_extensionality_dep` (all from the stdlib real
  numbers), and `Classical_Prop.classic` where Coquelicot/stdlib analysis lemmas use it. The list per theorem is printed in the build
  log by the `Print Assumptions` under each theorem and summarised in section 5.
* The reading of the C++ source recorded in the comments of the `*_Model.v` files and the simplifications named there.
* The external-library assumptions listed in section 1, which appear as explicit hypotheses of the theorems that use them.

## 5. Per-theorem assumptions

Output of `Print Assumptions`, grouped. D = `ClassicalDedekindReals.sig_forall_dec`, N = `ClassicalDedekindReals.sig_not_dec`, F = `FunctionalExtensionality.functional_extensionality_dep`, C = `Classical_Prop.classic`.
All four are standard library axioms.

* **none (closed under the global context)**: `C04_every_date_counted`, `C07_electron_round_trip`, `C68_electron`, `C76_inside`
* **D**: `C58_refused`
* **D F**: `C04_days_since_J2000`, `C04_julian_all_years`, `C04_all_gregorian_dates_refuted`, `C13_electron`, `C13_ionization`, `C13_crystal`, `C19_normalised`, `C19_general_between`, `C19_long_range`, `C19_massless_is_long_range`, `C19_heavy_is_contact`, `C19_form_factor_names`, `C29_same_queries`, `C29_same_success`, `C29_rate_formula`, `C65_export_import`, `C33_lookup_by_charge`, `C33_history_independent`, `C33_other_charges_rejected`, `C33_shipped_table`, `C33_short_table_refuted`, `C34_by_name`, `C34_unknown_name_rejected`, `C34_isotope`, `C67_positive_mass_refuted`, `C67_positive_mass`, `C68_lowest_binding_energy`, `C68_xenon`, `C30_energy_increasing`, `C37_zero_outside`, `C37_stays_inside`, `C37_construction`, `C37_unknown_crystal`, `C37_warns_once`, `C38_unique_pairs`, `C38_pairs_exist`, `C38_below_gap`, `C38_largest_pairs`, `C38_threshold_energy`, `C39_step`, `C39_bins`, `C39_nothing_above`, `C39_bin_content`, `C39_bin_is_pair_number`, `C40_nuclear`, `C40_ionization`, `C40_semiconductor`, `C40_setters`, `C41_observed_total`, `C41_any_total`, `C41_refuted`, `C42_semiconductor`, `C43_semiconductor`, `C43_fresh_crystal_refuted`, `C52_instance_data`, `C47_nuclear`, `C47_semiconductor`, `C53_nuclear_default`, `C53_ionization_default`, `C53_ionization_length`, `C53_small`, `C53_small_ionization`, `C53_half_refuted`, `C69_maximum_deposit`, `C57_probabilities`, `C57_overflow`, `C58_bins_refused`, `C58_bins_twice`, `C72_attained`, `C72_gap`, `C73_spectrum`, `C73_pairs`, `C73_total`, `C73_bins`, `C73_attained`, `C73_shipped`, `C62_labels`, `C62_Migdal_labels`, `C62_twins`, `C81_free_electron`, `C83_free_electrons`, `C83_ionization`, `C83_crystal`, `C83_spin_dependent`, `C88_density`, `C90_history`, `C93_zero`, `C96_bins_semiconductor`, `C102_ionization`, `C102_semiconductor`, `C102_refuted`, `C103_nuclear`, `C103_ionization`, `C103_semiconductor`, `C103_no_threshold`, `C103_mixed_refuted`, `C104_bins`, `C104_edges`, `C106_names`, `C106_same_refuted`, `C109_nuclear`, `C109_semiconductor`, `C62_tuned_names`, `C110_semiconductor`, `C111_nuclear`, `C111_semiconductor`, `C111_stale_refuted`, `C113_totals`, `C113_refuted`, `C112_nucleus`, `C112_percent`, `C114_pairs`
* **D F N**: `C01_equat_gal_equat`, `C01_gal_equat_gal`, `C02_isometries`, `C02_heliocentric_is_minus_geocentric`, `C03_earth_orbital_speed`, `C03_earth_vs_sun_speed`, `C05_sidereal_time_of_day_refuted`, `C05_within_one_day`, `C05_nonnegative_after_J2000`, `C06_longitude_shift`, `C06_full_turns`, `C07_proton_round_trip`, `C07_neutron_round_trip`, `C07_interaction_parameter_round_trip`, `C07_unknown_target_rejected`, `C08_set_mass_keeps_settings`, `C08_set_mass_keeps_cross_sections`, `C08_every_reachable_state_refuted`, `C09_fixed_ratio_pattern_kept`, `C09_free_same_sign_pattern_kept`, `C09_free_couplings_refuted`, `C10_coupling_ratio_kept`, `C10_fn_over_fp_kept`, `C10_fp_over_fn_kept`, `C10_any_history_refuted`, `C11_fixing_keeps_interaction`, `C11_interaction_lost_refuted`, `C11_not_a_number_refuted`, `C16_generic_density`, `C16_generic_outside`, `C23_history_is_fresh`, `C23_domain`, `C23_default_refuted`, `C23_default_repaired`, `C27_generic_cdf`, `C28_flux`, `C28_mean_above_cut`, `C29_rate_formula_refuted`, `C36_zero_outside`, `C36_reads_within_tolerance`, `C36_negative_energy`, `C36_low_momentum`, `C36_warns_once`, `C36_history_independent`, `C30_speed_round_trip`, `C30_energy_round_trip`, `C30_speed_increasing`, `C30_possible_recoils`, `C30_spectrum_cut`, `C31_electron_window`, `C31_migdal_window`, `C31_migdal_rate`, `C42_Q_threshold_refuted`, `C42_Q_bins_refuted`, `C43_short_abundances_refuted`, `C43_Q_bins_refuted`, `C44_energy_bins`, `C44_semiconductor`, `C46_no_bins`, `C52_single`, `C52_single_refuted`, `C48_any`, `C54_minimum_mass`, `C54_undefined`, `C55_isotope`, `C55_nucleus`, `C70_minimum_speed`, `C71_crystal`, `C72_speed`, `C73_speed`, `C78_galactic_pole`, `C78_celestial_pole`, `C78_pole_of_date`, `C78_pole_of_J2000`, `C78_not_mirrored`, `C79_ecliptic_to_equatorial`, `C79_ecliptic_pole`, `C79_earth_velocity`, `C80_sidereal_rate`, `C80_epoch`, `C85_nothing_else_changes`, `C85_takes_effect`, `C85_released`, `C85_form_factor`, `C85_mediator`, `C88_eta`, `C89_isotopes`, `C89_isotope_order`, `C89_detector`, `C90_twice_refuted`, `C91_smeared`, `C91_nonnegative`, `C93_sum`, `C94_isotope`, `C94_atom`, `C96_bins_nuclear`, `C104_mass`, `C104_mediator`, `C104_sigma_p`, `C104_sigma_n`, `C104_sigma_e`, `C104_ratio`, `C104_ratio_refuted`, `C110_reversed_refuted`, `C114_semiconductor_energies`, `C116_speeds`, `C116_velocities`
* **C D F**: `C53_nuclear`, `C53_ionization`, `C53_water_refuted`
* **C D F N**: `C12_light_nuclei`, `C12_electrons`, `C12_spin_dependent`, `C12_closed_equals_generic`, `C13_nucleus`, `C14_light_nuclei`, `C14_electrons`, `C14_matches_cross_section`, `C14_massless_mediator_refuted`, `C15_nuclei`, `C15_electrons`, `C16_heavy_nuclei`, `C17_heavy_nuclei_clamped`, `C17_inside`, `C17_closed_forms_refuted`, `C18_flag_truthful`, `C32_bounded`, `C32_one_at_zero`, `C20_cdf_is_integral`, `C21_nonnegative`, `C21_fast_observer`, `C21_default_refuted`, `C22_eta`, `C24_stale_eta`, `C24_rest_follows`, `C24_stale_eta_refuted`, `C25_dispersions`, `C26_mixture`, `C26_mixture_speed`, `C26_mixture_cdf`, `C26_isotropic`, `C26_isotropic_refuted`, `C63_angular_marginal`, `C64_sausage_normalised`, `C27_halo_agrees`, `C66_generic_eta`, `C66_halo_agrees`, `C35_advertised_names_refuted`, `C35_full_names_terminate`, `C35_xenon`, `C35_argon`, `C35_others_rejected`, `C36_strict_domain_refuted`, `C36_continuous`, `C42_nuclear`, `C42_ionization`, `C42_energy_threshold_refuted`, `C42_electron_bins_refuted`, `C42_gap_total`, `C43_nuclear`, `C43_ionization`, `C43_library_particles`, `C43_photoelectron_threshold`, `C43_photoelectron_refuted`, `C44_nuclear`, `C44_nuclear_threshold`, `C44_ionization`, `C44_ionization_upper_end`, `C44_ionization_refuted`, `C46_counts`, `C46_background`, `C46_smallest_bin`, `C46_bins`, `C46_nuclear`, `C46_ionization`, `C46_semiconductor`, `C51_best`, `C51_best_binned`, `C51_nominal`, `C51_tiny_background`, `C52_number`, `C52_equal_gaps`, `C52_nan_refuted`, `C45_decreasing`, `C45_limit`, `C45_nuclear`, `C45_ionization`, `C45_semiconductor`, `C47_limit`, `C47_curve`, `C47_scan`, `C47_detector`, `C47_ionization`, `C47_limit_free`, `C47_curve_free`, `C47_scan_free`, `C47_limit_refuted`, `C47_curve_refuted`, `C47_scan_refuted`, `C48_nuclear`, `C48_ionization`, `C48_semiconductor`, `C48_free_refuted`, `C48_neutron_refuted`, `C49_points`, `C50_rows`, `C54_contact`, `C54_negative_refuted`, `C54_undefined_refuted`, `C54_long_range`, `C55_library`, `C55_halo`, `C55_inherited`, `C55_low_speed_refuted`, `C56_nuclear`, `C56_ionization`, `C56_semiconductor`, `C56_ignored_refuted`, `C70_resolution_refuted`, `C71_atom_shell`, `C71_library_shell`, `C71_library_crystal`, `C57_rates`, `C58_range`, `C58_default`, `C58_other_range`, `C58_single_refuted`, `C58_empty_refuted`, `C58_endless`, `C58_bins`, `C58_bins_none_refuted`, `C72_electrons`, `C72_total`, `C72_spectrum`, `C72_shipped`, `C72_secondary_refuted`, `C59_all_or_nothing`, `C59_mandatory_missing`, `C59_complete_accepted`, `C60_values`, `C60_opposite_refuted`, `C61_other_ranks`, `C61_rank_zero`, `C61_rank_zero_done`, `C62_realised`, `C62_unknown`, `C62_predictions`, `C62_LZ_refuted`, `C62_label_refuted`, `C62_prediction_refuted`, `C74_unread`, `C74_trace_refuted`, `C75_kept`, `C75_own_copy_refuted`, `C76_outside_refuted`, `C77_parts`, `C77_no_targets_refuted`, `C81_free_nucleons`, `C81_coherent`, `C81_spin`, `C81_spinless`, `C82_heavy_particles`, `C82_spin_dependent`, `C82_helm_formula`, `C82_recoil_spectrum_SI`, `C82_recoil_spectrum_SD`, `C83_migdal`, `C84_refused`, `C84_nuclei_diverge`, `C84_electrons_diverge`, `C86_mixture`, `C86_outside`, `C86_sausage_integral`, `C87_isotropic`, `C87_axial`, `C87_standard_halo`, `C91_negative_refuted`, `C92_zero`, `C92_sum`, `C92_trapezoid`, `C92_atom`, `C95_nuclear`, `C95_ionization`, `C95_semiconductor`, `C96_flat_nuclear`, `C96_flat_ionization`, `C96_flat_semiconductor`, `C96_bins_ionization`, `C97_xenon`, `C97_argon`, `C98_shell`, `C98_atom`, `C98_detector`, `C98_given`, `C98_short_spectrum`, `C99_axial`, `C99_isotropic`, `C99_below_speed`, `C99_imported`, `C99_imported_marginal_refuted`, `C101_mean`, `C101_average_velocity`, `C100_speed_density`, `C100_eta`, `C100_log_refuted`, `C102_silent`, `C103_configured`, `C103_configuration`, `C103_predefined_refuted`, `C105_table`, `C105_grid`, `C106_files`, `C107_ends`, `C107_not_loaded`, `C107_no_argument`, `C107_crystals`, `C107_crystals_refuted`, `C107_divergent`, `C107_divergent_refuted`, `C107_photoelectrons`, `C107_photoelectrons_refuted`, `C108_nuclear`, `C108_ionization`, `C108_semiconductor`, `C108_order`, `C108_background_free`, `C108_nuclear_exposure`, `C108_ionization_exposure`, `C108_semiconductor_exposure`, `C109_ionization`, `C62_tuned`, `C110_nuclear`, `C110_ionization`, `C110_halo`, `C110_particle`, `C110_particle_nuclear`, `C110_particle_crystal`, `C110_nuclei`, `C110_atoms`, `C111_ionization`, `C112_halo`, `C112_plus_plus`, `C112_atom`, `C114_electrons`, `C114_nuclear_energies`, `C114_single_refuted`, `C115_configuration`, `C116_rates`
