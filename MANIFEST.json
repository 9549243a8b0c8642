{
 "claims": [
  {
   "property": "C01",
   "status": "proved",
   "theorems": [
    "C01_equat_gal_equat",
    "C01_gal_equat_gal"
   ],
   "note": "Exact real arithmetic; matrix inverse shown to exist (determinant 1)."
  },
  {
   "property": "C02",
   "status": "proved",
   "theorems": [
    "C02_isometries",
    "C02_heliocentric_is_minus_geocentric"
   ],
   "note": "All four transforms, all epochs."
  },
  {
   "property": "C03",
   "status": "proved",
   "theorems": [
    "C03_earth_orbital_speed",
    "C03_earth_vs_sun_speed"
   ],
   "note": "fmod modelled; bounds hold for all real times."
  },
  {
   "property": "C04",
   "status": "proved",
   "theorems": [
    "C04_days_since_J2000",
    "C04_every_date_counted",
    "C04_julian_all_years",
    "C04_all_gregorian_dates_refuted"
   ],
   "note": "Proved on the stated range (1900-03-01 to 2100-02-28) against a one-day-step calendar; the unrestricted Gregorian claim is refuted at 2100-02-28/03-01; the Julian version holds for all years."
  },
  {
   "property": "C05",
   "status": "proved",
   "theorems": [
    "C05_sidereal_time_of_day_refuted",
    "C05_within_one_day",
    "C05_nonnegative_after_J2000"
   ],
   "note": "REFUTED: negative results before J2000 (fmod keeps the sign). Proved: always within one day in absolute value, and in [0,24h) for n>=0 and longitude>=-pi."
  },
  {
   "property": "C06",
   "status": "proved",
   "theorems": [
    "C06_longitude_shift",
    "C06_full_turns"
   ],
   "note": ""
  },
  {
   "property": "C07",
   "status": "proved",
   "theorems": [
    "C07_proton_round_trip",
    "C07_neutron_round_trip",
    "C07_electron_round_trip",
    "C07_interaction_parameter_round_trip",
    "C07_unknown_target_rejected"
   ],
   "note": "Proton, neutron, electron and interaction-parameter round trips, for both interaction types; unknown target terminates the program."
  },
  {
   "property": "C08",
   "status": "proved",
   "theorems": [
    "C08_set_mass_keeps_settings",
    "C08_set_mass_keeps_cross_sections",
    "C08_every_reachable_state_refuted"
   ],
   "note": "REFUTED for arbitrary reachable states: if fixing left the couplings off the fixed ratio, Set_Mass can switch the interaction off. Proved: whenever the fixed ratio is respected, and for every safe history, Set_Mass keeps every setting and all three reported cross sections."
  },
  {
   "property": "C09",
   "status": "proved",
   "theorems": [
    "C09_fixed_ratio_pattern_kept",
    "C09_free_same_sign_pattern_kept",
    "C09_free_couplings_refuted"
   ],
   "note": "REFUTED for free couplings of opposite sign: Set_Mass drops the sign. Proved for fixed ratios and for free couplings of equal sign."
  },
  {
   "property": "C10",
   "status": "proved",
   "theorems": [
    "C10_coupling_ratio_kept",
    "C10_fn_over_fp_kept",
    "C10_fp_over_fn_kept",
    "C10_any_history_refuted"
   ],
   "note": "REFUTED for arbitrary histories; proved for the histories described in the theorem."
  },
  {
   "property": "C11",
   "status": "proved",
   "theorems": [
    "C11_fixing_keeps_interaction",
    "C11_interaction_lost_refuted",
    "C11_not_a_number_refuted"
   ],
   "note": "REFUTED: fixing a ratio can set both couplings to zero, or produce not-a-number. Proved under the stated condition."
  },
  {
   "property": "C12",
   "status": "proved",
   "theorems": [
    "C12_light_nuclei",
    "C12_electrons",
    "C12_spin_dependent",
    "C12_closed_equals_generic"
   ],
   "note": "Light nuclei, electrons and spin-dependent scattering; the closed forms also equal the generic integration under ideal quadrature."
  },
  {
   "property": "C13",
   "status": "proved",
   "theorems": [
    "C13_nucleus",
    "C13_electron",
    "C13_ionization",
    "C13_crystal"
   ],
   "note": "Nucleus, electron, ionization and crystal; any particle state, any momentum."
  },
  {
   "property": "C14",
   "status": "proved",
   "theorems": [
    "C14_light_nuclei",
    "C14_electrons",
    "C14_matches_cross_section",
    "C14_massless_mediator_refuted"
   ],
   "note": "REFUTED for the general form factor selected without a mediator mass (massless): density 0, cumulative function NaN at 1. Proved for every other state."
  },
  {
   "property": "C15",
   "status": "proved",
   "theorems": [
    "C15_nuclei",
    "C15_electrons"
   ],
   "note": "Closed forms for electrons and light nuclei; heavy nuclei through an ideal quadrature and an ideal root finder."
  },
  {
   "property": "C16",
   "status": "proved",
   "theorems": [
    "C16_generic_density",
    "C16_generic_outside",
    "C16_heavy_nuclei"
   ],
   "note": "Any differential cross section; heavy nuclei with the Helm form factor shown to satisfy the hypotheses."
  },
  {
   "property": "C17",
   "status": "proved",
   "theorems": [
    "C17_heavy_nuclei_clamped",
    "C17_inside",
    "C17_closed_forms_refuted"
   ],
   "note": "REFUTED for the closed forms outside [-1,1]. Proved: clamping for heavy nuclei; in [0,1] and non-decreasing inside [-1,1] in every case."
  },
  {
   "property": "C18",
   "status": "proved",
   "theorems": [
    "C18_flag_truthful"
   ],
   "note": ""
  },
  {
   "property": "C19",
   "status": "proved",
   "theorems": [
    "C19_normalised",
    "C19_general_between",
    "C19_long_range",
    "C19_massless_is_long_range",
    "C19_heavy_is_contact",
    "C19_form_factor_names"
   ],
   "note": ""
  },
  {
   "property": "C20",
   "status": "proved",
   "theorems": [
    "C20_cdf_is_integral"
   ],
   "note": "Every reachable halo with observer speed up to the escape speed, including an observer at rest."
  },
  {
   "property": "C21",
   "status": "proved",
   "theorems": [
    "C21_nonnegative",
    "C21_fast_observer",
    "C21_default_refuted"
   ],
   "note": "REFUTED: negative for every observer faster than the escape speed, and for the default-constructed halo. Proved non-negative for all other reachable halos."
  },
  {
   "property": "C22",
   "status": "proved",
   "theorems": [
    "C22_eta"
   ],
   "note": "With the code's 1e-8 cut-off made explicit and bounded."
  },
  {
   "property": "C23",
   "status": "proved",
   "theorems": [
    "C23_history_is_fresh",
    "C23_domain",
    "C23_default_refuted",
    "C23_default_repaired"
   ],
   "note": "REFUTED for the default constructor (domain differs from v_esc+v_obs until a setter touches it). Proved for the parametrised constructors and every history."
  },
  {
   "property": "C24",
   "status": "proved",
   "theorems": [
    "C24_stale_eta",
    "C24_rest_follows",
    "C24_stale_eta_refuted"
   ],
   "note": "REFUTED: the tabulated eta function is not refreshed by setters. Proved: everything else follows the parameters."
  },
  {
   "property": "C25",
   "status": "proved",
   "theorems": [
    "C25_dispersions"
   ],
   "note": "Every history, every beta < 1."
  },
  {
   "property": "C26",
   "status": "proved",
   "theorems": [
    "C26_mixture",
    "C26_mixture_speed",
    "C26_mixture_cdf",
    "C26_isotropic",
    "C26_isotropic_refuted"
   ],
   "note": "REFUTED for beta = 0 (not-a-number even for eta = 0). Proved for beta in (0,1): velocity density, speed density, cumulative function."
  },
  {
   "property": "C27",
   "status": "proved",
   "theorems": [
    "C27_generic_cdf",
    "C27_halo_agrees"
   ],
   "note": "Any continuous normalised density, ideal quadrature; the standard halo shown to be an instance and its closed formula to agree."
  },
  {
   "property": "C28",
   "status": "proved",
   "theorems": [
    "C28_flux",
    "C28_mean_above_cut"
   ],
   "note": "Ideal quadrature; the cut must leave some density above it."
  },
  {
   "property": "C29",
   "status": "proved",
   "theorems": [
    "C29_same_queries",
    "C29_same_success",
    "C29_rate_formula",
    "C29_rate_formula_refuted"
   ],
   "note": "REFUTED: the flag that selects the rate formula differs between the two constructors, for every table. Proved: all other queries agree, and both constructors succeed on the same tables."
  },
  {
   "property": "C30",
   "status": "proved",
   "theorems": [
    "C30_speed_round_trip",
    "C30_energy_round_trip",
    "C30_speed_increasing",
    "C30_energy_increasing",
    "C30_possible_recoils",
    "C30_spectrum_cut"
   ],
   "note": "Including the cut of the recoil spectrum at the largest recoil of the fastest particle."
  },
  {
   "property": "C31",
   "status": "proved",
   "theorems": [
    "C31_electron_window",
    "C31_migdal_window",
    "C31_migdal_rate"
   ],
   "note": "Momenta between q_max and 1.000001 q_max of the response table, which the table itself tolerates, are outside the window."
  },
  {
   "property": "C32",
   "status": "proved",
   "theorems": [
    "C32_bounded",
    "C32_one_at_zero"
   ],
   "note": "Every isotope and every q>=0."
  },
  {
   "property": "C33",
   "status": "proved",
   "theorems": [
    "C33_lookup_by_charge",
    "C33_history_independent",
    "C33_other_charges_rejected",
    "C33_shipped_table",
    "C33_short_table_refuted"
   ],
   "note": "Tables shorter than 92 elements make in-range charges undefined behaviour (C33_short_table_refuted); the shipped table is complete."
  },
  {
   "property": "C34",
   "status": "proved",
   "theorems": [
    "C34_by_name",
    "C34_unknown_name_rejected",
    "C34_isotope"
   ],
   "note": ""
  },
  {
   "property": "C35",
   "status": "proved",
   "theorems": [
    "C35_advertised_names_refuted",
    "C35_full_names_terminate",
    "C35_xenon",
    "C35_argon",
    "C35_others_rejected"
   ],
   "note": "REFUTED for the full names \"Xenon\" and \"Argon\": the nucleus lookup terminates first. The symbols work."
  },
  {
   "property": "C36",
   "status": "proved",
   "theorems": [
    "C36_zero_outside",
    "C36_reads_within_tolerance",
    "C36_strict_domain_refuted",
    "C36_negative_energy",
    "C36_low_momentum",
    "C36_continuous",
    "C36_warns_once",
    "C36_history_independent"
   ],
   "note": "REFUTED for the exact domain: arguments up to one part in a million outside, and the NaN momentum of a negative energy, are handed to the interpolation. Holds with that tolerance for energies >= 0."
  },
  {
   "property": "C37",
   "status": "proved",
   "theorems": [
    "C37_zero_outside",
    "C37_stays_inside",
    "C37_construction",
    "C37_unknown_crystal",
    "C37_warns_once"
   ],
   "note": "The lookup of libphysica inside the table is an oracle; nothing outside the rectangle is asked of it. A data file with fewer than 450000 numbers makes the constructor read past the end."
  },
  {
   "property": "C38",
   "status": "proved",
   "theorems": [
    "C38_unique_pairs",
    "C38_pairs_exist",
    "C38_below_gap",
    "C38_largest_pairs",
    "C38_threshold_energy"
   ],
   "note": "Below gap - epsilon the conversion to unsigned is undefined behaviour (C38_below_gap)."
  },
  {
   "property": "C39",
   "status": "proved",
   "theorems": [
    "C39_step",
    "C39_bins",
    "C39_nothing_above",
    "C39_bin_content",
    "C39_bin_is_pair_number"
   ],
   "note": "Exact energy grid (rounding of Emin/dE not modelled). Bin Q=0 of a crystal with gap < epsilon starts at negative grid energies; the partition law still holds."
  },
  {
   "property": "C40",
   "status": "proved",
   "theorems": [
    "C40_nuclear",
    "C40_ionization",
    "C40_semiconductor",
    "C40_setters"
   ],
   "note": "All three detector classes, every history."
  },
  {
   "property": "C41",
   "status": "proved",
   "theorems": [
    "C41_observed_total",
    "C41_any_total",
    "C41_refuted"
   ],
   "note": "REFUTED from 2^31 events on (int accumulator). Proved below, and exact value given for every list."
  },
  {
   "property": "C42",
   "status": "proved",
   "theorems": [
    "C42_nuclear",
    "C42_ionization",
    "C42_semiconductor",
    "C42_energy_threshold_refuted",
    "C42_electron_bins_refuted",
    "C42_Q_threshold_refuted",
    "C42_Q_bins_refuted",
    "C42_gap_total"
   ],
   "note": "REFUTED: four orders of calls for ionization and crystal detectors in which the last call is ignored. Proved for nuclear detectors, and for the others when no call that takes precedence was made before."
  },
  {
   "property": "C43",
   "status": "proved",
   "theorems": [
    "C43_nuclear",
    "C43_ionization",
    "C43_semiconductor",
    "C43_library_particles",
    "C43_short_abundances_refuted",
    "C43_photoelectron_threshold",
    "C43_photoelectron_refuted",
    "C43_Q_bins_refuted",
    "C43_fresh_crystal_refuted"
   ],
   "note": "REFUTED: too few abundances, every photoelectron analysis, pair bins not starting at 1, fresh crystal detectors, mixed bins. Proved safe for all other histories, all library particles."
  },
  {
   "property": "C44",
   "status": "proved",
   "theorems": [
    "C44_energy_bins",
    "C44_nuclear",
    "C44_nuclear_threshold",
    "C44_ionization",
    "C44_semiconductor",
    "C44_ionization_upper_end",
    "C44_ionization_refuted"
   ],
   "note": "REFUTED for ionization detectors in threshold mode (upper end ignored). Proved for bins of every detector, and for the threshold mode of crystals. For nuclear detectors the threshold mode differs by the error of an interpolation through 200 points, which is external."
  },
  {
   "property": "C45",
   "status": "proved",
   "theorems": [
    "C45_decreasing",
    "C45_limit",
    "C45_nuclear",
    "C45_ionization",
    "C45_semiconductor"
   ],
   "note": "Single-bin Poisson analysis; libphysica's distribution function taken as exact, its root search as accurate to the requested 1e-4 in log10, its integrals as homogeneous (all witnessed). The limit part needs couplings with a fixed ratio for nuclear targets; see C48 for free couplings."
  },
  {
   "property": "C46",
   "status": "proved",
   "theorems": [
    "C46_counts",
    "C46_background",
    "C46_smallest_bin",
    "C46_bins",
    "C46_no_bins",
    "C46_nuclear",
    "C46_ionization",
    "C46_semiconductor"
   ],
   "note": "Single-bin and binned analyses, all three detector classes; the Poisson distribution function of libphysica is taken as exact (ideal_statistics)."
  },
  {
   "property": "C47",
   "status": "proved",
   "theorems": [
    "C47_limit",
    "C47_curve",
    "C47_scan",
    "C47_detector",
    "C47_nuclear",
    "C47_ionization",
    "C47_semiconductor",
    "C47_limit_free",
    "C47_curve_free",
    "C47_scan_free",
    "C47_limit_refuted",
    "C47_curve_refuted",
    "C47_scan_refuted"
   ],
   "note": "REFUTED for free couplings with a negative sign: all three calls make couplings positive (a ninefold change for deuterium in the witness). Proved for a fixed ratio that is respected, and for free non-negative couplings. Partial correctness: states are compared after a call that returns."
  },
  {
   "property": "C48",
   "status": "proved",
   "theorems": [
    "C48_any",
    "C48_nuclear",
    "C48_ionization",
    "C48_semiconductor",
    "C48_free_refuted",
    "C48_neutron_refuted"
   ],
   "note": "REFUTED for free couplings (only the proton coupling is varied, the signal is not proportional; infinite signal if the proton coupling is 0). Proved for a fixed ratio and for electron targets, all detector classes and configuration histories."
  },
  {
   "property": "C49",
   "status": "proved",
   "theorems": [
    "C49_points"
   ],
   "note": "For finite couplings that respect a fixed ratio; statements about runs that return."
  },
  {
   "property": "C50",
   "status": "proved",
   "theorems": [
    "C50_rows"
   ],
   "note": "For finite couplings that respect a fixed ratio; statements about runs that return."
  },
  {
   "property": "C51",
   "status": "proved",
   "theorems": [
    "C51_best",
    "C51_best_binned",
    "C51_nominal",
    "C51_tiny_background"
   ],
   "note": "Holds whenever the code takes the background from the data and when the nominal background is 0; with a nominal background strictly between 0 and 1e-4 and too few events the nominal value is kept, which is not the maximum (C51_tiny_background)."
  },
  {
   "property": "C52",
   "status": "proved",
   "theorems": [
    "C52_number",
    "C52_equal_gaps",
    "C52_nan_refuted",
    "C52_single",
    "C52_single_refuted",
    "C52_instance_data"
   ],
   "note": "REFUTED: a single event is undefined behaviour, equal gaps give not-a-number. Proved for two or more events when the expected total is not an integer multiple (2 or more) of the largest gap, up to the 1e-20 truncation."
  },
  {
   "property": "C53",
   "status": "proved",
   "theorems": [
    "C53_nuclear",
    "C53_nuclear_default",
    "C53_ionization",
    "C53_ionization_default",
    "C53_ionization_length",
    "C53_small",
    "C53_small_ionization",
    "C53_water_refuted",
    "C53_half_refuted"
   ],
   "note": "REFUTED for amounts adding up to at most 1: they are taken for mass fractions and not normalised, so one composition gives different fractions depending on how it is scaled. Proved for larger totals and for the default."
  },
  {
   "property": "C54",
   "status": "proved",
   "theorems": [
    "C54_minimum_mass",
    "C54_contact",
    "C54_negative_refuted",
    "C54_undefined",
    "C54_undefined_refuted",
    "C54_long_range"
   ],
   "note": "REFUTED: negative minimum mass if a light scattering isotope can never reach the threshold (H + Be), undefined behaviour if no isotope scatters, program exit for long range forces. Proved exact when every scattering isotope can reach the threshold."
  },
  {
   "property": "C55",
   "status": "proved",
   "theorems": [
    "C55_isotope",
    "C55_nucleus",
    "C55_library",
    "C55_halo",
    "C55_inherited",
    "C55_low_speed_refuted"
   ],
   "note": "REFUTED below the slowest speed of a distribution with the inherited eta function (program ends). Proved elsewhere, with libphysica's quadrature taken as exact; in the standard halo except within 1e-8 v0 of the maximum speed, where its eta function is cut to 0."
  },
  {
   "property": "C56",
   "status": "proved",
   "theorems": [
    "C56_nuclear",
    "C56_ionization",
    "C56_semiconductor",
    "C56_ignored_refuted"
   ],
   "note": "REFUTED for electron recoils, Migdal scattering and crystals: the fraction is ignored. Proved for nuclear recoils (integrals and interpolation taken as homogeneous)."
  },
  {
   "property": "C57",
   "status": "proved",
   "theorems": [
    "C57_probabilities",
    "C57_rates",
    "C57_overflow"
   ],
   "note": "For an exact binomial (ideal_binomial). Undefined beyond 2^31 quanta."
  },
  {
   "property": "C58",
   "status": "proved",
   "theorems": [
    "C58_range",
    "C58_default",
    "C58_refused",
    "C58_other_range",
    "C58_single_refuted",
    "C58_empty_refuted",
    "C58_endless",
    "C58_bins",
    "C58_bins_refused",
    "C58_bins_twice",
    "C58_bins_none_refuted"
   ],
   "note": "REFUTED for t = m and m < t: both are read as t..100 instead of t..t and a refusal; zero bins from 0 are accepted. Everything else is proved as stated."
  },
  {
   "property": "C59",
   "status": "proved",
   "theorems": [
    "C59_all_or_nothing",
    "C59_mandatory_missing",
    "C59_complete_accepted"
   ],
   "note": "For libraries and data files without undefined behaviour of their own (tame_environment). A setting of the wrong type ends the program by an uncaught exception. Conversely every complete configuration with sensible values is accepted."
  },
  {
   "property": "C60",
   "status": "proved",
   "theorems": [
    "C60_values",
    "C60_opposite_refuted"
   ],
   "note": "REFUTED for relative couplings p : -p, e.g. (1.0, -1.0): accepted, but the neutron coupling is NaN. Proved for positive mass, non-negative cross section and p + n not 0."
  },
  {
   "property": "C61",
   "status": "proved",
   "theorems": [
    "C61_other_ranks",
    "C61_rank_zero",
    "C61_rank_zero_done"
   ],
   "note": "Paths are strings; success of mkdir and open is arbitrary."
  },
  {
   "property": "C62",
   "status": "proved",
   "theorems": [
    "C62_realised",
    "C62_unknown",
    "C62_labels",
    "C62_Migdal_labels",
    "C62_twins",
    "C62_predictions",
    "C62_LZ_refuted",
    "C62_label_refuted",
    "C62_prediction_refuted",
    "C62_tuned",
    "C62_tuned_names"
   ],
   "note": "REFUTED: the LZ experiments always end the program, Migdal experiments carry the label of another experiment, and no prediction for XENON10 or XENON100 succeeds. All other experiments are built as published, including efficiencies, resolutions and mass shares (C62_tuned)."
  },
  {
   "property": "C63",
   "status": "proved",
   "theorems": [
    "C63_angular_marginal"
   ],
   "note": ""
  },
  {
   "property": "C64",
   "status": "proved",
   "theorems": [
    "C64_sausage_normalised"
   ],
   "note": ""
  },
  {
   "property": "C65",
   "status": "proved",
   "theorems": [
    "C65_export_import"
   ],
   "note": "Numbers written exactly (text rounding is not modelled)."
  },
  {
   "property": "C66",
   "status": "proved",
   "theorems": [
    "C66_generic_eta",
    "C66_halo_agrees"
   ],
   "note": ""
  },
  {
   "property": "C67",
   "status": "proved",
   "theorems": [
    "C67_positive_mass_refuted",
    "C67_positive_mass"
   ],
   "note": "REFUTED for technetium (43) and promethium (61), whose rows have abundance 0; all others are positive."
  },
  {
   "property": "C68",
   "status": "proved",
   "theorems": [
    "C68_lowest_binding_energy",
    "C68_xenon",
    "C68_electron"
   ],
   "note": ""
  },
  {
   "property": "C69",
   "status": "proved",
   "theorems": [
    "C69_maximum_deposit"
   ],
   "note": "For particles with a finite total cross section at the given speed."
  },
  {
   "property": "C70",
   "status": "proved",
   "theorems": [
    "C70_minimum_speed",
    "C70_resolution_refuted"
   ],
   "note": "REFUTED for thresholds below twice the resolution (speed of light reported although every recoil counts). Proved otherwise; which isotopes scatter is decided at speed 1e-3 as in the code."
  },
  {
   "property": "C71",
   "status": "proved",
   "theorems": [
    "C71_atom_shell",
    "C71_crystal",
    "C71_library_shell",
    "C71_library_crystal"
   ],
   "note": "Atomic shells and crystals; quadrature taken as exact. Migdal rates are not covered (double integral with a momentum cut)."
  },
  {
   "property": "C72",
   "status": "proved",
   "theorems": [
    "C72_electrons",
    "C72_total",
    "C72_spectrum",
    "C72_attained",
    "C72_speed",
    "C72_gap",
    "C72_shipped",
    "C72_secondary_refuted"
   ],
   "note": "Premise: a shell with n secondary electrons is bound by at least gap + n W; proved for the shipped xenon and argon; without it a violation is exhibited (C72_secondary_refuted). Rates on the momentum grid are assumed finite."
  },
  {
   "property": "C73",
   "status": "proved",
   "theorems": [
    "C73_spectrum",
    "C73_pairs",
    "C73_total",
    "C73_bins",
    "C73_attained",
    "C73_speed",
    "C73_shipped"
   ],
   "note": "For crystals with positive steps, gap and pair energy; proved for the shipped silicon and germanium."
  },
  {
   "property": "C74",
   "status": "proved",
   "theorems": [
    "C74_unread",
    "C74_trace_refuted"
   ],
   "note": "REFUTED: result folder and copy are made before the settings are checked. True when the file cannot be parsed or has no ID."
  },
  {
   "property": "C75",
   "status": "proved",
   "theorems": [
    "C75_kept",
    "C75_own_copy_refuted"
   ],
   "note": "REFUTED when the configuration is the copy in the result folder of the same ID: it is overwritten by the header. True for all other paths."
  },
  {
   "property": "C76",
   "status": "proved",
   "theorems": [
    "C76_inside",
    "C76_outside_refuted"
   ],
   "note": "REFUTED for IDs with a slash such as ../x. True for every ID that is a folder name."
  },
  {
   "property": "C77",
   "status": "proved",
   "theorems": [
    "C77_parts",
    "C77_no_targets_refuted"
   ],
   "note": "REFUTED in one point: nuclear targets that are not a list are accepted as no targets. Everything else holds."
  },
  {
   "property": "C78",
   "status": "proved",
   "theorems": [
    "C78_galactic_pole",
    "C78_celestial_pole",
    "C78_pole_of_date",
    "C78_pole_of_J2000",
    "C78_not_mirrored"
   ],
   "note": "Added after seeded bugs: angles and constants of the matrices are checked against fixed directions."
  },
  {
   "property": "C79",
   "status": "proved",
   "theorems": [
    "C79_ecliptic_to_equatorial",
    "C79_ecliptic_pole",
    "C79_earth_velocity"
   ],
   "note": "Added after seeded bugs."
  },
  {
   "property": "C80",
   "status": "proved",
   "theorems": [
    "C80_sidereal_rate",
    "C80_epoch"
   ],
   "note": "For the century after J2000 (forward in time)."
  },
  {
   "property": "C81",
   "status": "proved",
   "theorems": [
    "C81_free_nucleons",
    "C81_coherent",
    "C81_spin",
    "C81_spinless",
    "C81_free_electron"
   ],
   "note": "For particles with finite couplings; the proton mass is used for neutrons as in the code."
  },
  {
   "property": "C82",
   "status": "proved",
   "theorems": [
    "C82_heavy_particles",
    "C82_spin_dependent",
    "C82_helm_formula",
    "C82_recoil_spectrum_SI",
    "C82_recoil_spectrum_SD"
   ],
   "note": "Recoil spectra for contact and massive mediator interactions in low mass mode and for spin-dependent ones."
  },
  {
   "property": "C83",
   "status": "proved",
   "theorems": [
    "C83_free_electrons",
    "C83_ionization",
    "C83_crystal",
    "C83_migdal",
    "C83_spin_dependent"
   ],
   "note": "Form factor tables are arguments."
  },
  {
   "property": "C84",
   "status": "proved",
   "theorems": [
    "C84_refused",
    "C84_nuclei_diverge",
    "C84_electrons_diverge"
   ],
   "note": ""
  },
  {
   "property": "C85",
   "status": "proved",
   "theorems": [
    "C85_nothing_else_changes",
    "C85_takes_effect",
    "C85_released",
    "C85_form_factor",
    "C85_mediator"
   ],
   "note": ""
  },
  {
   "property": "C86",
   "status": "proved",
   "theorems": [
    "C86_mixture",
    "C86_outside",
    "C86_sausage_integral"
   ],
   "note": "Added after seeded bugs. Observer slower than the escape velocity; libphysica quadrature and interpolation idealised. The table keeps the parameters of the construction (C24)."
  },
  {
   "property": "C87",
   "status": "proved",
   "theorems": [
    "C87_isotropic",
    "C87_axial",
    "C87_standard_halo"
   ],
   "note": "Added after seeded bugs. Two dimensional quadrature idealised (ideal_quadrature_2D); for the standard halo the observer may move in any direction."
  },
  {
   "property": "C88",
   "status": "proved",
   "theorems": [
    "C88_density",
    "C88_eta"
   ],
   "note": "Added after seeded bugs. Quadrature and interpolation idealised."
  },
  {
   "property": "C89",
   "status": "proved",
   "theorems": [
    "C89_isotopes",
    "C89_isotope_order",
    "C89_detector"
   ],
   "note": "Finite isotope rates assumed; resolution below 1e-6 eV."
  },
  {
   "property": "C90",
   "status": "proved",
   "theorems": [
    "C90_history",
    "C90_twice_refuted"
   ],
   "note": "REFUTED: any number of imported curves other than one or the number of targets is silently ignored (C90_twice_refuted); otherwise the curves are applied as stated (C89_detector, C90_history)."
  },
  {
   "property": "C91",
   "status": "proved",
   "theorems": [
    "C91_smeared",
    "C91_nonnegative",
    "C91_negative_refuted"
   ],
   "note": "REFUTED for detected energies more than nine widths below the threshold, where the integration limits are reversed (C91_negative_refuted); the folding itself and the sign elsewhere are proved. Quadrature idealised."
  },
  {
   "property": "C92",
   "status": "proved",
   "theorems": [
    "C92_zero",
    "C92_sum",
    "C92_trapezoid",
    "C92_atom"
   ],
   "note": "Quadrature idealised, cross sections 1/v^2 (all library particles, C13/C71) and eta function the mean inverse speed. When the table ends within the kinematic range the last momentum has full instead of half weight: stated exactly in C92_trapezoid."
  },
  {
   "property": "C93",
   "status": "proved",
   "theorems": [
    "C93_sum",
    "C93_zero"
   ],
   "note": "Quadrature idealised, cross sections 1/v^2."
  },
  {
   "property": "C94",
   "status": "proved",
   "theorems": [
    "C94_isotope",
    "C94_atom"
   ],
   "note": "Quadrature idealised, cross sections 1/v^2."
  },
  {
   "property": "C95",
   "status": "proved",
   "theorems": [
    "C95_nuclear",
    "C95_ionization",
    "C95_semiconductor"
   ],
   "note": "All results scale, including ends of the program and values that are not finite. For ionization detectors with an energy threshold the exposure is inside the integrand, so the integration routine is assumed homogeneous."
  },
  {
   "property": "C96",
   "status": "proved",
   "theorems": [
    "C96_flat_nuclear",
    "C96_flat_ionization",
    "C96_flat_semiconductor",
    "C96_bins_nuclear",
    "C96_bins_ionization",
    "C96_bins_semiconductor"
   ],
   "note": "Integration and interpolation assumed homogeneous for the flat efficiency. Semiconductor charge bins: with a charge threshold of 1; for larger ones the efficiency of the wrong bin is used (C43_Q_bins_refuted)."
  },
  {
   "property": "C97",
   "status": "proved",
   "theorems": [
    "C97_xenon",
    "C97_argon"
   ],
   "note": "The published values are written out in the specification; libphysica::Log_Space is the exact logarithmic grid."
  },
  {
   "property": "C98",
   "status": "proved",
   "theorems": [
    "C98_shell",
    "C98_atom",
    "C98_detector",
    "C98_given",
    "C98_short_spectrum"
   ],
   "note": "A spectrum of 1 to 99 entries is undefined behaviour (C98_short_spectrum)."
  },
  {
   "property": "C99",
   "status": "proved",
   "theorems": [
    "C99_axial",
    "C99_isotropic",
    "C99_below_speed",
    "C99_imported",
    "C99_imported_marginal_refuted"
   ],
   "note": "Quadrature idealised, including libphysica::Integrate_3D with the volume element r^2. REFUTED for imported distributions that the velocity and speed densities belong together: the velocity density stays 0."
  },
  {
   "property": "C100",
   "status": "proved",
   "theorems": [
    "C100_speed_density",
    "C100_eta",
    "C100_log_refuted"
   ],
   "note": "REFUTED on a logarithmic scale for distributions whose speeds start at 0, such as the standard halo: all rows are NaN. At least two rows."
  },
  {
   "property": "C101",
   "status": "proved",
   "theorems": [
    "C101_mean",
    "C101_average_velocity"
   ],
   "note": "All directions of the observer, after any setters; three dimensional quadrature idealised (ideal_quadrature_3D)."
  },
  {
   "property": "C102",
   "status": "proved",
   "theorems": [
    "C102_silent",
    "C102_ionization",
    "C102_semiconductor",
    "C102_refuted"
   ],
   "note": "REFUTED for ionization and semiconductor detectors, which print part of their summary on every process (C102_refuted); for everything else only process 0 prints (C102_silent). Lines are a label and values, not the exact text."
  },
  {
   "property": "C103",
   "status": "proved",
   "theorems": [
    "C103_nuclear",
    "C103_ionization",
    "C103_semiconductor",
    "C103_no_threshold",
    "C103_configured",
    "C103_configuration",
    "C103_predefined_refuted",
    "C103_mixed_refuted"
   ],
   "note": "REFUTED: the six predefined semiconductor experiments never set the flag of the pair number threshold, so that their summary reads an uninitialised value (C103_configured, C103_predefined_refuted), and bins of two kinds make it read edges that do not exist (C103_mixed_refuted). Proved for everything else."
  },
  {
   "property": "C104",
   "status": "proved",
   "theorems": [
    "C104_mass",
    "C104_mediator",
    "C104_sigma_p",
    "C104_sigma_n",
    "C104_sigma_e",
    "C104_ratio",
    "C104_ratio_refuted",
    "C104_bins",
    "C104_edges"
   ],
   "note": "REFUTED for the fixed ratio of a particle whose couplings vanish (C104_ratio_refuted). libphysica::Round is an arbitrary function."
  },
  {
   "property": "C105",
   "status": "proved",
   "theorems": [
    "C105_table",
    "C105_grid"
   ],
   "note": "At least two masses; the root finder is assumed only to evaluate the function it is given. libphysica::Export_Table writes every column in its unit."
  },
  {
   "property": "C106",
   "status": "proved",
   "theorems": [
    "C106_files",
    "C106_names",
    "C106_same_refuted"
   ],
   "note": "REFUTED: certainties rounded to the same percentage share a table (C106_same_refuted). The files touched, and distinct names for distinct identifiers and for certainties more than one percent apart, are proved."
  },
  {
   "property": "C107",
   "status": "proved",
   "theorems": [
    "C107_ends",
    "C107_not_loaded",
    "C107_no_argument",
    "C107_crystals",
    "C107_crystals_refuted",
    "C107_divergent",
    "C107_divergent_refuted",
    "C107_photoelectrons",
    "C107_photoelectrons_refuted"
   ],
   "note": "REFUTED: without an argument (C107_no_argument), for the predefined semiconductor experiments (C107_crystals), for long range and electric dipole interactions with nuclear recoil experiments (C107_divergent) and for experiments counting photoelectrons (C107_photoelectrons). Otherwise the program ends as the computation of the limits does (C107_ends)."
  },
  {
   "property": "C108",
   "status": "proved",
   "theorems": [
    "C108_nuclear",
    "C108_ionization",
    "C108_semiconductor",
    "C108_order",
    "C108_background_free",
    "C108_nuclear_exposure",
    "C108_ionization_exposure",
    "C108_semiconductor_exposure"
   ],
   "note": "The signal must be proportional to the parameter, as it is for the particles of the library with a fixed ratio of couplings; root finder accurate, statistics exact. Maximum gap limits are not covered."
  },
  {
   "property": "C109",
   "status": "proved",
   "theorems": [
    "C109_nuclear",
    "C109_ionization",
    "C109_semiconductor"
   ],
   "note": "By induction over the calls, for the three detector classes."
  },
  {
   "property": "C110",
   "status": "proved",
   "theorems": [
    "C110_nuclear",
    "C110_ionization",
    "C110_semiconductor",
    "C110_halo",
    "C110_particle",
    "C110_particle_nuclear",
    "C110_particle_crystal",
    "C110_nuclei",
    "C110_atoms",
    "C110_reversed_refuted"
   ],
   "note": "Integrals and interpolations of functions that are not negative are assumed not negative (positive_externals); values returned only, not that one is returned. Sensible calls: ordered windows, efficiencies not negative, numbers of pairs between 1 and the largest of the crystal. A larger number of pairs after an energy threshold gives a negative total (C110_reversed_refuted)."
  },
  {
   "property": "C111",
   "status": "proved",
   "theorems": [
    "C111_nuclear",
    "C111_ionization",
    "C111_semiconductor",
    "C111_stale_refuted"
   ],
   "note": "REFUTED for the total: selecting bins keeps the total entered before (C111_stale_refuted). What is shown is proved for the three detector classes after every history; the rounding of numbers is arbitrary; event numbers per bin must add up to less than 2^31."
  },
  {
   "property": "C112",
   "status": "proved",
   "theorems": [
    "C112_halo",
    "C112_plus_plus",
    "C112_nucleus",
    "C112_percent",
    "C112_atom"
   ],
   "note": "Quadrature exact for the averages; the rounding of numbers is arbitrary. For the refined halo only the parameters, not the averages."
  },
  {
   "property": "C113",
   "status": "proved",
   "theorems": [
    "C113_totals",
    "C113_refuted"
   ],
   "note": "REFUTED: the shipped abundances of calcium, xenon, tantalum and mercury miss 1 by up to 0.00012 and those of technetium and promethium are all 0 (C113_refuted for xenon); exact for all other elements (C113_totals)."
  },
  {
   "property": "C114",
   "status": "proved",
   "theorems": [
    "C114_electrons",
    "C114_pairs",
    "C114_semiconductor_energies",
    "C114_nuclear_energies",
    "C114_single_refuted"
   ],
   "note": "REFUTED for a single electron number t..t, which is read as t..100 (C114_single_refuted). Proved for ranges of at least two electron numbers, pair thresholds up to 100, and energy windows with exact quadrature; nuclear energy windows are the binned ones without resolution (the threshold mode integrates an interpolation, C44)."
  },
  {
   "property": "C115",
   "status": "proved",
   "theorems": [
    "C115_configuration"
   ],
   "note": "Whenever a summary is printed at all (C103 says when). A negative number of masses in the file is left open, as the conversion to unsigned is external."
  },
  {
   "property": "C116",
   "status": "proved",
   "theorems": [
    "C116_speeds",
    "C116_velocities",
    "C116_rates"
   ],
   "note": "For Standard_Halo_Model objects. SHM_Plus_Plus is anisotropic by design and is left out. The rates are exactly equal as outcomes, with any quadrature."
  }
 ]
}