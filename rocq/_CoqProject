-Q theories Verif
theories/Base.v
theories/XrFacts.v
theories/Analysis.v
theories/Quadrature.v
theories/Astronomy_Model.v
theories/Astronomy_Proofs.v
theories/Calendar_Spec.v
theories/Calendar_Proofs.v
theories/Astronomy_Properties.v
theories/Nucleus_Model.v
theories/Particle_Model.v
theories/Particle_Proofs.v
theories/Particle_Properties.v
theories/CrossSection_Model.v
theories/CrossSection_Proofs.v
theories/Helm_Proofs.v
theories/Angle_Proofs.v
theories/CrossSection_Properties.v
theories/Erf.v
theories/Distribution_Model.v
theories/Halo_Model.v
theories/Interpolation.v
theories/Halo_Proofs.v
theories/Eta_Proofs.v
theories/HaloState_Proofs.v
theories/HaloShape_Proofs.v
theories/HaloMarginal_Proofs.v
theories/HaloFinal_Proofs.v
theories/Halo_Properties.v
theories/Distribution_Proofs.v
theories/Distribution_Properties.v
theories/Nuclear_Model.v
theories/Nuclear_Proofs.v
theories/Nuclear_Properties.v
theories/Atom_Model.v
theories/Atom_Proofs.v
theories/Atom_Properties.v
theories/Crystal_Model.v
theories/Rates_Model.v
theories/Kinematics_Proofs.v
theories/Kinematics_Properties.v
theories/Crystal_Proofs.v
theories/Crystal_Properties.v
theories/Detector_Model.v
theories/DetectorTypes_Model.v
theories/Detector_Proofs.v
theories/DetectorModes_Proofs.v
theories/DetectorWitness_Proofs.v
theories/DetectorSafety_Proofs.v
theories/DetectorBins_Proofs.v
theories/Detector_Properties.v
theories/Poisson_Proofs.v
theories/MaxGap_Proofs.v
theories/Statistics_Properties.v
theories/Scaling_Proofs.v
theories/Couplings_Proofs.v
theories/Limits_Proofs.v
theories/Fiducial_Proofs.v
theories/LimitsWitness_Proofs.v
theories/Limits_Properties.v
theories/Fractions_Proofs.v
theories/Reach_Proofs.v
theories/ReachWitness_Proofs.v
theories/Formulas_Proofs.v
theories/FormulasHalo_Proofs.v
theories/FormulasWitness_Proofs.v
theories/DensityFraction_Proofs.v
theories/Rates_Properties.v
theories/Electrons_Proofs.v
theories/ElectronBins_Proofs.v
theories/IonizationReach_Proofs.v
theories/SemiconductorReach_Proofs.v
theories/Electrons_Properties.v
theories/Experiments_Model.v
theories/Configuration_Model.v
theories/Experiments_Proofs.v
theories/Configuration_Proofs.v
theories/ConfigurationRun_Proofs.v
theories/ConfigurationValues_Proofs.v
theories/ConfigurationFiles_Proofs.v
theories/ConfigurationWitness_Proofs.v
theories/Configuration_Properties.v
theories/Directions_Spec.v
theories/Directions_Proofs.v
theories/Directions_Properties.v
theories/Normalisation_Proofs.v
theories/Setters_Proofs.v
theories/Normalisation_Properties.v
theories/HaloEta_Proofs.v
theories/HaloEta_Properties.v
theories/Spectra_Proofs.v
theories/ElectronSpectra_Proofs.v
theories/ElectronSpectraWitness_Proofs.v
theories/Spectra_Properties.v
theories/Exposure_Proofs.v
theories/Efficiency_Proofs.v
theories/AtomTables_Proofs.v
theories/ExposureWitness_Proofs.v
theories/Exposure_Properties.v
theories/S2_Proofs.v
theories/S2Witness_Proofs.v
theories/S2_Properties.v
theories/Average_Model.v
theories/Average_Proofs.v
theories/Export_Proofs.v
theories/Average_Properties.v
theories/Summary_Model.v
theories/Summary_Proofs.v
theories/SummaryValues_Proofs.v
theories/Summary_Properties.v
theories/Main_Model.v
theories/Main_Proofs.v
theories/MainEnds_Proofs.v
theories/MainWitness_Proofs.v
theories/Main_Properties.v
theories/Sphere_Proofs.v
theories/AverageHalo_Proofs.v
theories/LimitValue_Proofs.v
theories/LimitClasses_Proofs.v
theories/LimitValue_Properties.v
theories/Settings_Proofs.v
theories/Tuning_Proofs.v
theories/SettingsWitness_Proofs.v
theories/Settings_Properties.v
theories/Positivity_Proofs.v
theories/PositivityLibrary_Proofs.v
theories/PositivityWitness_Proofs.v
theories/Positivity_Properties.v
theories/DetectorSummary_Proofs.v
theories/DetectorSummaryWitness_Proofs.v
theories/DetectorSummary_Properties.v
theories/Abundances_Proofs.v
theories/Abundances_Properties.v
theories/HaloSummary_Proofs.v
theories/HaloSummary_Properties.v
theories/Windows_Proofs.v
theories/WindowsWitness_Proofs.v
theories/Windows_Properties.v
theories/ConfigurationSummary_Proofs.v
theories/ConfigurationSummary_Properties.v
theories/Direction_Proofs.v
theories/Direction_Properties.v
