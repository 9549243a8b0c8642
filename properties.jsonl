{"id": "C01", "title": "Galactic/equatorial coordinate round trip", "statement": "Transforming any vector from equatorial to galactic coordinates and back at the same epoch, or from galactic to equatorial and back, returns exactly the starting vector, and the matrix inverse taken on the way always exists.", "quantifier": "every real epoch T and every 3-vector", "why_tests_cant": "T and the vector range over the reals; tests sample a few epochs", "anchors": ["src/Astronomy.cpp: Transform_Equat_to_Gal, Transform_Gal_to_Equat, Transformation_Matrix_P, Transformation_Matrix_M"]}
{"id": "C02", "title": "Coordinate transforms are isometries", "statement": "Each of the four coordinate transforms preserves lengths and angles (inner products), at every epoch; the heliocentric transform is exactly the negative of the geocentric one.", "quantifier": "every real epoch T and every pair of 3-vectors", "why_tests_cant": "continuum of epochs and vectors", "anchors": ["src/Astronomy.cpp: Transform_Equat_to_Gal, Transform_GeoEcl_to_Gal, Transform_HelEcl_to_Gal, Transform_Gal_to_Equat"]}
{"id": "C03", "title": "Earth's orbital speed bounds", "statement": "The Earth's velocity minus the Sun's velocity has a length between 29.79*(1-e) km/s and 29.79*(1+e) km/s with e = 0.01671, whatever the time, so the galactic-frame speed of the Earth never differs from the Sun's speed by more than 29.79*(1+e) km/s.", "quantifier": "every real number of days since J2000 (past and future)", "why_tests_cant": "time is unbounded; a test evaluates a handful of dates", "anchors": ["src/Astronomy.cpp: Earth_Velocity, Sun_Velocity"]}
{"id": "C04", "title": "Calendar arithmetic counts days", "statement": "For every valid civil date from 1 March 1900 to 28 February 2100, Fractional_Days_since_J2000 at 12:00 equals the number of days between that date and 1 January 2000 counted by stepping one calendar day at a time with the Gregorian leap-year rule; hours, minutes and seconds add h/24 + m/1440 + s/86400. Outside that range the full claim fails.", "quantifier": "every valid date in the range, and every time of day", "why_tests_cant": "about 73 000 dates times a continuum of times; an off-by-one at a month or leap boundary hits isolated days", "anchors": ["src/Astronomy.cpp: Fractional_Days_since_J2000"]}
{"id": "C05", "title": "Sidereal time is a time of day", "statement": "Local_Apparent_Sidereal_Time always lies in [0, 24 h).", "quantifier": "every real time and longitude", "why_tests_cant": "reals in both arguments; sign errors appear only for a half-line of inputs", "anchors": ["src/Astronomy.cpp: Local_Apparent_Sidereal_Time"]}
{"id": "C06", "title": "Sidereal time moves with longitude", "statement": "Changing the longitude by an angle d changes the local apparent sidereal time by d/(2 pi) of a day, up to whole days; a full turn changes it by whole days only.", "quantifier": "every time, longitude and shift", "why_tests_cant": "continuum of inputs", "anchors": ["src/Astronomy.cpp: Local_Apparent_Sidereal_Time"]}
{"id": "C07", "title": "Cross sections round-trip through the couplings", "statement": "After setting the proton, neutron or electron reference cross section to a value s >= 0, reading the same cross section back returns s; the same for Set/Get_Interaction_Parameter with target \"Nuclei\" or \"Electrons\"; no other target string is accepted.", "quantifier": "every mass > 0, every s >= 0, every particle state reached by public setters with a non-degenerate coupling relation", "why_tests_cant": "state and value range over the reals and over all setter histories", "anchors": ["src/DM_Particle_Standard.cpp: Set_Sigma_Proton, Set_Sigma_Neutron, Set_Sigma_Electron, Sigma_Proton, Sigma_Neutron, Set_Interaction_Parameter, Get_Interaction_Parameter"]}
{"id": "C08", "title": "Changing the mass keeps the reference cross sections", "statement": "Set_Mass changes the mass and nothing a user configured: the proton, neutron and electron reference cross sections read the same before and after, in fixed-ratio and in free-coupling mode.", "quantifier": "every state reachable by public setters that respects the fixed ratio, every new mass > 0", "why_tests_cant": "all histories of setters times a continuum of masses", "anchors": ["src/DM_Particle_Standard.cpp: DM_Particle_Standard::Set_Mass", "src/DM_Particle.cpp: DM_Particle::Set_Mass"]}
{"id": "C09", "title": "Changing the mass keeps the isotope cross section pattern", "statement": "Set_Mass does not change the ratio of the couplings to protons and neutrons, including its sign, so the relative strength of the interaction with different isotopes is unchanged.", "quantifier": "every reachable state, fixed or free couplings", "why_tests_cant": "sign loss needs a particular history (negative ratio, then unfix, then a mass change)", "anchors": ["src/DM_Particle_Standard.cpp: DM_Particle_Standard::Set_Mass, Unfix_Coupling_Ratios, Fix_fn_over_fp"]}
{"id": "C10", "title": "A fixed coupling ratio is what was asked for", "statement": "After Fix_Coupling_Ratio(p,n), Fix_fn_over_fp(r) or Fix_fp_over_fn(r) the couplings are in the requested ratio, and stay so under every later mass or cross section change until the relation is changed or released.", "quantifier": "every prior history of public calls and every requested ratio", "why_tests_cant": "depends on history: only some previous ratios break the next request", "anchors": ["src/DM_Particle_Standard.cpp: Fix_Coupling_Ratio, Fix_fn_over_fp, Fix_fp_over_fn"]}
{"id": "C11", "title": "Fixing a ratio never switches the interaction off", "statement": "If the particle couples to nucleons before Fix_Coupling_Ratio, Fix_fn_over_fp or Fix_fp_over_fn is called with a non-zero ratio pair, it still couples to nucleons (finite, not NaN) afterwards.", "quantifier": "every prior history and requested ratio", "why_tests_cant": "needs repeated calls or special ratios", "anchors": ["src/DM_Particle_Standard.cpp: Fix_Coupling_Ratio, Fix_fn_over_fp, Fix_fp_over_fn"]}
{"id": "C12", "title": "Analytic total cross sections equal the integral of the differential ones", "statement": "For light dark matter on nuclei, for dark matter on electrons, and for spin-dependent scattering, wherever the code uses a closed formula for the total cross section it equals the integral of its own dSigma/dq2 from q2=0 to q2max.", "quantifier": "every mass, speed, coupling, mediator mass and target isotope", "why_tests_cant": "formulas over several real parameters", "anchors": ["src/DM_Particle_Standard.cpp: Sigma_Total_Nucleus, Sigma_Total_Electron, dSigma_dq2_Nucleus, dSigma_dq2_Electron"]}
{"id": "C13", "title": "Speed dependence of cross sections is exactly 1/v^2", "statement": "v^2 * dSigma/dq2 (nucleus, electron, ionization, crystal) does not depend on v, so evaluating rates at the fixed reference speed 1e-3 with the eta function is legitimate.", "quantifier": "every q, every pair of non-zero speeds, every state and target", "why_tests_cant": "continuum", "anchors": ["src/DM_Particle_Standard.cpp: dSigma_dq2_Nucleus, dSigma_dq2_Electron, d2Sigma_dq2_dEe_Ionization, d2Sigma_dq2_dEe_Crystal", "src/DM_Particle.cpp: dSigma_dER_Nucleus"]}
{"id": "C14", "title": "Scattering-angle distributions are probability distributions", "statement": "In every closed form (contact and general mediator; electrons; light nuclei; spin-dependent) the angular density is non-negative, the cumulative function is its integral from -1, and reaches exactly 1 at cos(alpha)=1.", "quantifier": "every mediator mass, dark matter mass, speed > 0 and every cosine in [-1,1]", "why_tests_cant": "continuum; a normalisation error can hide at tested points", "anchors": ["src/DM_Particle_Standard.cpp: PDF_Scattering_Angle_Nucleus, CDF_Scattering_Angle_Nucleus, PDF_Scattering_Angle_Electron, CDF_Scattering_Angle_Electron"]}
{"id": "C15", "title": "Sampled scattering angles follow the distribution", "statement": "The sampled cosine lies in [-1,1], is increasing in the random number, and the cumulative function of the sample is the random number itself (inverse transform sampling is exact).", "quantifier": "every random number in [0,1] and every parameter choice", "why_tests_cant": "sampling can only be tested statistically", "anchors": ["src/DM_Particle_Standard.cpp: Sample_Scattering_Angle_Nucleus, Sample_Scattering_Angle_Electron"]}
{"id": "C16", "title": "Generic angular density integrates to one", "statement": "The default angular density built from any differential cross section integrates to 1 over [-1,1] whenever the total cross section is the non-zero integral of the differential one, and the default cumulative function is 0 below -1 and 1 above 1.", "quantifier": "every integrable differential cross section, every mass and speed", "why_tests_cant": "quantifies over all user-defined particles", "anchors": ["src/DM_Particle.cpp: PDF_Scattering_Angle_Nucleus_Base, CDF_Scattering_Angle_Nucleus_Base, PDF_Scattering_Angle_Electron_Base"]}
{"id": "C17", "title": "Cumulative functions stay between 0 and 1", "statement": "The cumulative distribution of the scattering angle returns 0 for cosines below -1 and 1 for cosines above 1, for every interaction.", "quantifier": "every real cosine", "why_tests_cant": "inputs just outside the physical range", "anchors": ["src/DM_Particle_Standard.cpp: CDF_Scattering_Angle_Nucleus, CDF_Scattering_Angle_Electron", "src/DM_Particle.cpp: CDF_Scattering_Angle_Nucleus_Base"]}
{"id": "C18", "title": "Speed-independence flag is truthful", "statement": "Whenever the particle reports that its total cross section does not depend on the speed, the total nuclear cross section is the same for any two speeds.", "quantifier": "every particle state, isotope and pair of speeds > 0", "why_tests_cant": "continuum of speeds and states", "anchors": ["src/DM_Particle_Standard.cpp: Is_Sigma_Total_V_Dependent, Sigma_Total_Nucleus"]}
{"id": "C19", "title": "Form factors are normalised at the reference momentum and bounded by the limits", "statement": "Every mediator form factor equals 1 at q = alpha*m_e; the general form factor with mediator mass m lies between the contact (1) and long-range forms, equals the long-range form at m = 0 and tends to the contact form as m grows.", "quantifier": "every q > 0 and mediator mass", "why_tests_cant": "continuum", "anchors": ["src/DM_Particle_Standard.cpp: FormFactor2_DM, Set_FormFactor_DM"]}
{"id": "C20", "title": "Halo speed CDF is the integral of the speed PDF", "statement": "For the standard halo model, CDF_Speed(v) equals the integral of PDF_Speed from 0 to v for every v up to the maximum speed, and CDF_Speed(v_max)=1.", "quantifier": "every v0 > 0, escape speed > 0, observer speed in (0, v_esc], every v", "why_tests_cant": "four real parameters; piecewise formula with a kink", "anchors": ["src/DM_Halo_Models.cpp: PDF_Speed_SHM, CDF_Speed_SHM, Normalize_PDF"]}
{"id": "C21", "title": "Halo speed PDF is non-negative", "statement": "PDF_Speed never returns a negative number.", "quantifier": "every halo configuration reachable through constructors and setters, every speed", "why_tests_cant": "negative values occur only in a corner of parameter space", "anchors": ["src/DM_Halo_Models.cpp: PDF_Speed_SHM"]}
{"id": "C22", "title": "Eta function is the mean inverse speed", "statement": "Eta_Function(vMin) of the standard halo equals the integral of PDF_Speed(v)/v from vMin to the maximum speed; it is non-negative, non-increasing and zero above the maximum speed.", "quantifier": "every halo configuration with 0 < v_obs <= v_esc and every vMin >= 0 (up to the code's 1e-8 cut-off)", "why_tests_cant": "continuum with two kinks", "anchors": ["src/DM_Halo_Models.cpp: Eta_Function_SHM, Eta_Function", "src/DM_Distribution.cpp: Eta_Function_Base"]}
{"id": "C23", "title": "Halo configuration stays consistent under setters", "statement": "After any sequence of Set_Speed_Dispersion, Set_Escape_Velocity, Set_Observer_Velocity calls the maximum speed is v_esc + |v_obs| and the normalisation constant is that of the current v0 and v_esc, exactly as if the object had been constructed with the final parameters.", "quantifier": "every sequence of setter calls from every constructor", "why_tests_cant": "unbounded histories", "anchors": ["src/DM_Halo_Models.cpp: Standard_Halo_Model constructors, Set_Speed_Dispersion, Set_Escape_Velocity, Set_Observer_Velocity, Normalize_PDF"]}
{"id": "C24", "title": "SHM++ eta function follows the current parameters", "statement": "After any sequence of setter calls on an SHM++ halo, Eta_Function reflects the current parameters, i.e. equals that of a freshly constructed halo with those parameters.", "quantifier": "every sequence of setter calls", "why_tests_cant": "stale-cache bugs need a history", "anchors": ["src/DM_Halo_Models.cpp: SHM_Plus_Plus constructors, Set_Eta, Set_Beta, Interpolate_Eta, Eta_Function"]}
{"id": "C25", "title": "SHM++ anisotropy parameters", "statement": "For every speed dispersion v0 and anisotropy beta in (0,1), the three SHM++ dispersions satisfy sigma_theta = sigma_phi, 1 - sigma_theta^2/sigma_r^2 = beta and sigma_r^2+sigma_theta^2+sigma_phi^2 = 3/2 v0^2, after any setter history.", "quantifier": "every setter history", "why_tests_cant": "unbounded histories over reals", "anchors": ["src/DM_Halo_Models.cpp: Compute_Sigmas, Set_Beta, Set_Speed_Dispersion"]}
{"id": "C26", "title": "SHM++ is a convex mixture", "statement": "For every substructure fraction eta in [0,1] the SHM++ velocity density, speed density and cumulative function are the (1-eta, eta) mixture of the round halo and the sausage component, and coincide with the standard halo for eta = 0.", "quantifier": "every velocity / speed and configuration", "why_tests_cant": "continuum", "anchors": ["src/DM_Halo_Models.cpp: SHM_Plus_Plus::PDF_Velocity, PDF_Speed, CDF_Speed, Eta_Function"]}
{"id": "C27", "title": "Generic speed CDF is a CDF", "statement": "For any distribution with a non-negative speed density that integrates to 1 over its domain, the default CDF_Speed is 0 below the domain, 1 above it, non-decreasing and within [0,1].", "quantifier": "every density and every speed", "why_tests_cant": "quantifies over all distributions", "anchors": ["src/DM_Distribution.cpp: CDF_Speed, PDF_Norm"]}
{"id": "C28", "title": "Flux and mean speed are consistent", "statement": "The total dark matter flux is (rho/m) times the mean speed and equals the integral of the differential flux over the speed domain; the mean speed above a cut lies between the cut and the maximum speed.", "quantifier": "every distribution, mass > 0, cut within the domain", "why_tests_cant": "quantifies over all distributions", "anchors": ["src/DM_Distribution.cpp: Differential_DM_Flux, Total_DM_Flux, Average_Speed"]}
{"id": "C29", "title": "Imported halo tables behave the same from file and from memory", "statement": "Constructing an imported distribution from a file and from the same table in memory gives objects that behave identically in every query, including which rate formula the detectors use.", "quantifier": "every table", "why_tests_cant": "needs comparing two construction paths for all tables", "anchors": ["src/DM_Distribution.cpp: Imported_DM_Distribution constructors"]}
{"id": "C30", "title": "Recoil kinematics are mutually inverse", "statement": "The minimal speed for a recoil energy and the maximal recoil energy for a speed are inverse, strictly increasing functions, so a recoil E is possible at speed v exactly when vMin(E) <= v.", "quantifier": "every dark matter mass, nuclear mass, energy and speed > 0", "why_tests_cant": "continuum", "anchors": ["src/Target_Nucleus.cpp: vMinimal_Nucleus, Maximum_Nuclear_Recoil_Energy"]}
{"id": "C31", "title": "Electron and Migdal kinematic cuts lose nothing", "statement": "The momentum-transfer window used for electron recoils and the recoil-energy window used for Migdal events contain every kinematically allowed configuration: outside the window the required speed is at least the maximum halo speed.", "quantifier": "every mass, binding energy, electron energy, momentum", "why_tests_cant": "continuum", "anchors": ["src/Direct_Detection_ER.cpp: dRdEe_Ionization_ER", "src/Direct_Detection_Migdal.cpp: dRdEe_Ionization_Migdal, vMinimal_Migdal", "src/Target_Atom.cpp: vMinimal_Electrons"]}
{"id": "C32", "title": "Nuclear form factor is a suppression", "statement": "The Helm form factor is 1 at zero momentum transfer and never exceeds 1 in absolute value, for every isotope and momentum.", "quantifier": "every mass number A >= 1, every q >= 0", "why_tests_cant": "continuum of q", "anchors": ["src/Target_Nucleus.cpp: Isotope::Helm_Form_Factor"]}
{"id": "C33", "title": "Nuclear data lookup by charge", "statement": "After importing a nuclear data table whose charges run consecutively from 1, Get_Nucleus(Z) returns the nucleus whose isotopes are exactly the table rows with that Z, in order, for every Z in the table; other Z are rejected; the shipped table has Z = 1..92.", "quantifier": "every well-formed table of any length", "why_tests_cant": "all tables, not only the shipped one", "anchors": ["src/Target_Nucleus.cpp: Import_Nuclear_Data, Get_Nucleus", "data/Nuclear_Data.txt"]}
{"id": "C34", "title": "Nucleus lookup by name agrees with lookup by charge", "statement": "Looking a nucleus up by its element symbol gives the same nucleus as looking it up by its charge, and an unknown name is rejected.", "quantifier": "every symbol", "why_tests_cant": "string input space", "anchors": ["src/Target_Nucleus.cpp: Get_Nucleus(std::string)", "src/Target_Nucleus.cpp: Nucleus::Get_Isotope"]}
{"id": "C35", "title": "Atoms can be requested by every advertised name", "statement": "Every element name tested for in the Atom constructor (\"Xe\", \"Xenon\", \"Ar\", \"Argon\") yields that atom.", "quantifier": "all strings", "why_tests_cant": "constructor order makes branches unreachable", "anchors": ["src/Target_Atom.cpp: Atom::Atom(const std::string&)"]}
{"id": "C36", "title": "Atomic response lookups stay inside the tables", "statement": "Atomic_Response_Function evaluates the tables only inside their domain; outside it returns 0 (and warns at most once per shell over any history), and for response 1 below q_min it continues continuously with q^2.", "quantifier": "every k', q, response number and call history", "why_tests_cant": "histories and reals", "anchors": ["src/Target_Atom.cpp: Atomic_Electron::Atomic_Response_Function"]}
{"id": "C37", "title": "Crystal form factor lookups stay inside the table", "statement": "Crystal_Form_Factor never reads outside the N_E x N_q table and returns 0 exactly outside the tabulated energy or momentum range.", "quantifier": "every real q and E", "why_tests_cant": "index arithmetic on real inputs", "anchors": ["src/Target_Crystal.cpp: Crystal_Form_Factor, Crystal::Crystal"]}
{"id": "C38", "title": "Electron-hole pair counting", "statement": "The number of electron-hole pairs for a deposited energy E is the unique Q with Emin(Q) <= E < Emin(Q+1), and the largest Q the crystal supports is the number of pairs at E_max.", "quantifier": "every energy at or above the gap minus one pair energy", "why_tests_cant": "floor arithmetic on reals", "anchors": ["src/Direct_Detection_Crystal.cpp: Minimum_Electron_Energy, Electron_Hole_Pairs", "src/Target_Crystal.cpp: Crystal::Crystal"]}
{"id": "C39", "title": "Q bins partition the crystal rate", "statement": "The total rate above Q pairs equals the rate in bin Q plus the total rate above Q+1; summed over bins no energy is lost or double counted.", "quantifier": "every halo, particle, crystal and threshold", "why_tests_cant": "grid/floor boundaries", "anchors": ["src/Direct_Detection_Crystal.cpp: R_Q_Crystal, R_total_Crystal"]}
{"id": "C40", "title": "Binned analyses keep their tables the same length", "statement": "In every state reached by any sequence of configuration calls, a detector in binned mode has exactly one observed count, one background and one efficiency per bin, and setters given a different length refuse.", "quantifier": "every sequence of configuration calls", "why_tests_cant": "unbounded histories", "anchors": ["src/Direct_Detection.cpp: Initialize_Binned_Poisson, Set_Observed_Events, Set_Bin_Efficiencies, Set_Expected_Background, Use_Energy_Bins"]}
{"id": "C41", "title": "Total of observed events", "statement": "After setting per-bin observed events the total number of observed events is their sum.", "quantifier": "every list of unsigned counts", "why_tests_cant": "needs sums beyond 2^31", "anchors": ["src/Direct_Detection.cpp: Set_Observed_Events(std::vector<unsigned long int>)"]}
{"id": "C42", "title": "The last configured analysis is the one used", "statement": "After any configuration history the signal prediction uses the spectrum type (energy, electrons, photo-electrons, electron-hole pairs) chosen by the most recent Use_* call.", "quantifier": "every configuration history, every detector class", "why_tests_cant": "flags left over from earlier calls", "anchors": ["src/Direct_Detection.cpp: Use_Energy_Threshold, Use_Energy_Bins", "src/Direct_Detection_Ionization.cpp: DM_Signals_Total, DM_Signals_Binned", "src/Direct_Detection_Crystal.cpp: DM_Signals_Total"]}
{"id": "C43", "title": "Signal prediction never reads out of bounds", "statement": "In every configured state, predicting the binned or total signal reads only existing vector entries and initialised fields.", "quantifier": "every configuration history, every detector class", "why_tests_cant": "undefined behaviour is invisible to assertions", "anchors": ["src/Direct_Detection_Ionization.cpp: R_S2_Bin, DM_Signals_PE_Bins, R_S2_aux", "src/Direct_Detection_Crystal.cpp: DM_Signals_Q_Bins, DM_Detector_Crystal", "src/Direct_Detection.cpp: DM_Signals_Energy_Bins"]}
{"id": "C44", "title": "Energy bins add up to the threshold count", "statement": "With unit bin efficiencies the per-bin signals of an energy-binned detector add up to the signal of the same detector with one threshold bin over the same energy range.", "quantifier": "every number of bins, range and spectrum", "why_tests_cant": "unbounded number of bins", "anchors": ["src/Direct_Detection.cpp: Use_Energy_Bins, DM_Signals_Energy_Bins, DM_Signals_Total"]}
{"id": "C45", "title": "Poisson p-value decreases with the cross section", "statement": "For fixed data the Poisson p-value is a strictly decreasing function of the expected signal, hence every cross section above the reported upper limit is excluded at the requested confidence and every one below is not.", "quantifier": "every observed count, background >= 0, signal", "why_tests_cant": "unbounded counts and continuum of signals", "anchors": ["src/Direct_Detection.cpp: P_Value, Upper_Limit"]}
{"id": "C46", "title": "Upper limits weaken with more observed events", "statement": "With the same expected background, observing more events never makes the p-value smaller; more background never makes it larger; the binned p-value is the smallest over the bins.", "quantifier": "every pair of counts, every background", "why_tests_cant": "unbounded", "anchors": ["src/Direct_Detection.cpp: P_Value"]}
{"id": "C47", "title": "Limit and scan calls leave the particle as it was", "statement": "After Upper_Limit, Upper_Limit_Curve or Log_Likelihood_Scan the dark matter particle has the same mass, cross sections and differential cross sections as before, and the detector is not left in fiducial-value mode.", "quantifier": "every particle state and every mass/coupling grid", "why_tests_cant": "needs comparing full observable state after arbitrary call sequences", "anchors": ["src/Direct_Detection.cpp: Upper_Limit, Upper_Limit_Curve, Log_Likelihood_Scan"]}
{"id": "C48", "title": "Fiducial rescaling equals recomputation", "statement": "While searching for the limit the code rescales one fiducial signal instead of recomputing it; the rescaled prediction equals the recomputed one for every trial cross section.", "quantifier": "every trial cross section, particle state and target", "why_tests_cant": "false only for particular coupling modes", "anchors": ["src/Direct_Detection.cpp: Upper_Limit, P_Value, DM_Signals_Total"]}
{"id": "C49", "title": "Limit curve shape", "statement": "Upper_Limit_Curve returns one point per requested mass that is kinematically allowed and has a limit, in order, and no others.", "quantifier": "every mass list", "why_tests_cant": "unbounded lists", "anchors": ["src/Direct_Detection.cpp: Upper_Limit_Curve"]}
{"id": "C50", "title": "Likelihood scan covers the grid", "statement": "Log_Likelihood_Scan returns exactly one row per (mass, coupling) pair, in row-major order, holding the log likelihood the detector reports for a particle with that mass and coupling.", "quantifier": "every pair of grids", "why_tests_cant": "unbounded grids", "anchors": ["src/Direct_Detection.cpp: Log_Likelihood_Scan"]}
{"id": "C51", "title": "Background profiling maximises the likelihood", "statement": "When the background is taken from data, the likelihood used is the largest over all non-negative backgrounds.", "quantifier": "every count, signal and alternative background", "why_tests_cant": "continuum optimisation", "anchors": ["src/Direct_Detection.cpp: Log_Likelihood"]}
{"id": "C52", "title": "Maximum-gap p-value is a number between 0 and 1", "statement": "For every non-empty event list and every non-negative spectrum the maximum-gap p-value is defined (not NaN) and lies in [0,1].", "quantifier": "every event list and spectrum", "why_tests_cant": "ties between gaps occur on measure-zero inputs", "anchors": ["src/Direct_Detection.cpp: CDF_Maximum_Gap, P_Value_Maximum_Gap, Use_Maximum_Gap"]}
{"id": "C53", "title": "Mass fractions are normalised", "statement": "For every target composition given as relative amounts, the mass fractions used in the rate are positive, proportional to amount times nuclear mass, and sum to 1.", "quantifier": "every list of nuclei and amounts", "why_tests_cant": "lists of any length", "anchors": ["src/Direct_Detection_Nucleus.cpp: DM_Detector_Nucleus::DM_Detector_Nucleus", "src/Direct_Detection_Ionization.cpp: DM_Detector_Ionization::DM_Detector_Ionization"]}
{"id": "C54", "title": "Minimum detectable mass is correct for nuclear recoils", "statement": "For every dark matter mass below the reported minimum mass no isotope with a non-zero cross section can produce a recoil above the effective threshold at any speed of the halo, and at or above it some isotope can; the reported mass is positive and always defined.", "quantifier": "every detector, threshold, halo maximum speed and particle", "why_tests_cant": "continuum plus empty-list corner", "anchors": ["src/Direct_Detection_Nucleus.cpp: Minimum_DM_Mass, Maximum_Energy_Deposit, Minimum_DM_Speed"]}
{"id": "C55", "title": "Both rate formulas agree", "statement": "The differential nuclear recoil rate from the eta function equals the rate from integrating over the speed distribution.", "quantifier": "every particle with 1/v^2 cross section, every halo whose eta function is the mean inverse speed, every energy", "why_tests_cant": "quantifies over particles and halos", "anchors": ["src/Direct_Detection_Nucleus.cpp: dRdER_Nucleus"]}
{"id": "C56", "title": "Rates scale with the local density fraction", "statement": "If a particle makes up a fraction f of the dark matter, every predicted rate is f times the rate for f = 1, for all detector types.", "quantifier": "every detector class and particle", "why_tests_cant": "metamorphic property over all inputs", "anchors": ["src/Direct_Detection_Nucleus.cpp: dRdER_Nucleus", "src/Direct_Detection_ER.cpp: dRdEe_Ionization_ER", "src/Direct_Detection_Migdal.cpp: dRdEe_Ionization_Migdal", "src/Direct_Detection_Crystal.cpp: dRdEe_Crystal"]}
{"id": "C57", "title": "Electron number distribution loses no events", "statement": "The probabilities of producing 1, 2, ... electrons from a given primary energy are non-negative and sum to 1.", "quantifier": "every work function choice and primary electron count", "why_tests_cant": "infinite sums / all counts", "anchors": ["src/Direct_Detection_Ionization.cpp: PDF_ne, R_ne"]}
{"id": "C58", "title": "Electron threshold and bin requests are honoured", "statement": "Use_Electron_Threshold(t, m) makes the detector count exactly the electron numbers t..m (t..100 when m is 0), and Use_Electron_Bins(t, N) makes bin i count exactly t+i electrons; impossible requests are refused.", "quantifier": "every t, m, N", "why_tests_cant": "corner values such as m = t or N = 0", "anchors": ["src/Direct_Detection_Ionization.cpp: Use_Electron_Threshold, Use_Electron_Bins, DM_Signals_Electron_Bins, DM_Signals_Total"]}
{"id": "C59", "title": "Configuration is all or nothing", "statement": "Reading a configuration either terminates the program or produces a particle, a halo and a detector; a missing mandatory key always terminates.", "quantifier": "every configuration file content", "why_tests_cant": "all subsets of keys", "anchors": ["src/Configuration.cpp: Configuration::Configuration and Construct_* functions"]}
{"id": "C60", "title": "Configured values are what the particle reports", "statement": "After reading a configuration for a standard particle, the particle's mass, spin, density fraction, interaction parameter, and coupling ratio are the ones in the file, in spite of the order in which they are applied.", "quantifier": "every configuration with valid values", "why_tests_cant": "order of mass / ratio / cross section setters matters for some values only", "anchors": ["src/Configuration.cpp: Construct_DM_Particle_Standard, Construct_DM_Particle_SI, Construct_DM_Particle_SD"]}
{"id": "C61", "title": "Only rank zero touches the file system", "statement": "A process with MPI rank other than zero creates and modifies no file or directory while reading its configuration; rank zero only creates the result folder and writes the copied configuration inside it.", "quantifier": "every initial file system content and rank", "why_tests_cant": "all initial states", "anchors": ["src/Configuration.cpp: Initialize_Result_Folder, Copy_Config_File"]}
{"id": "C62", "title": "Predefined experiments are consistently configured", "statement": "Every predefined experiment builds without aborting and ends in a state in which tables match the number of bins; experiment names in the configuration select the detector of that name.", "quantifier": "every predefined experiment name and every other string", "why_tests_cant": "string input space; constructor side effects", "anchors": ["src/Experiments.cpp", "src/Configuration.cpp: Construct_DM_Detector"]}
{"id": "C63", "title": "Speed density is the angular marginal of the velocity density", "statement": "For the standard halo, integrating PDF_Velocity over all directions (with the factor v^2) gives PDF_Speed, for any direction of the observer; PDF_Speed integrates to one over the speed domain.", "quantifier": "every reachable halo with observer speed at most the escape speed, every speed, every orthonormal frame aligned with the observer", "why_tests_cant": "equality of two functions of continuous arguments", "anchors": ["src/DM_Halo_Models.cpp: Standard_Halo_Model::PDF_Velocity, PDF_Speed"]}
{"id": "C64", "title": "SHM++ anisotropic component is normalised", "statement": "The anisotropic (sausage) component of the SHM++ velocity density is non-negative, vanishes above the escape speed and integrates to one over velocity space.", "quantifier": "every setter history with v0 > 0, v_esc > 0 and beta in (0,1)", "why_tests_cant": "an integral identity for a continuum of parameters", "anchors": ["src/DM_Halo_Models.cpp: SHM_Plus_Plus::PDF_Velocity_S, Normalize_PDF"]}
{"id": "C65", "title": "Exported speed distributions can be imported again", "statement": "Writing the speed density of any distribution to a file and importing that file gives a distribution with the same speed domain and the same density at every exported speed, bounded in between by the extrema of the original density.", "quantifier": "every density, every number of points >= 2", "why_tests_cant": "unbounded family of densities and grids", "anchors": ["src/DM_Distribution.cpp: DM_Distribution::Export_PDF_Speed, Imported_DM_Distribution::Imported_DM_Distribution"]}
{"id": "C66", "title": "Default eta function is the mean inverse speed of any distribution", "statement": "For any distribution with a normalised speed density the default Eta_Function terminates below the domain, is the integral of PDF_Speed(v)/v above, is non-negative and non-increasing, zero from the maximum speed on, and never exceeds (1-CDF_Speed(v))/v; for the standard halo it agrees with the closed formula.", "quantifier": "every density, every minimal speed > 0", "why_tests_cant": "a function of a function; quantifies over all densities", "anchors": ["src/DM_Distribution.cpp: DM_Distribution::Eta_Function_Base"]}
{"id": "C67", "title": "Every nucleus of the shipped data has a positive average nuclear mass", "statement": "For every element that Get_Nucleus returns from the shipped nuclear data, the abundance weighted Average_Nuclear_Mass is positive, so that number densities and mass fractions can be computed from it.", "quantifier": "every element and every call history", "why_tests_cant": "depends on the table and on every call history", "anchors": ["src/Target_Nucleus.cpp: Nucleus::Average_Nuclear_Mass, Get_Nucleus, Import_Nuclear_Data", "data/Nuclear_Data.txt"]}
{"id": "C68", "title": "Shell queries of an atom", "statement": "Lowest_Binding_Energy is the smallest binding energy of the atom's shells (at most 1 GeV), and Electron(n,l) returns a shell with exactly these quantum numbers or terminates when the atom has none.", "quantifier": "every list of shells, every n and l", "why_tests_cant": "ranges over all atoms a user can construct", "anchors": ["src/Target_Atom.cpp: Atom::Lowest_Binding_Energy, Atom::Electron"]}
{"id": "C69", "title": "Maximum energy deposit is exact for nuclear recoils", "statement": "The maximum energy deposit reported for a particle mass and halo speed is six energy resolutions above the largest recoil energy any target isotope with a non-zero cross section can receive at any speed up to the given one; no larger recoil is possible and that recoil is attained.", "quantifier": "every detector, particle and maximum speed", "why_tests_cant": "maximum over a continuum of speeds and over all isotope lists", "anchors": ["src/Direct_Detection_Nucleus.cpp: DM_Detector_Nucleus::Maximum_Energy_Deposit"]}
{"id": "C70", "title": "Minimum detectable speed is exact for nuclear recoils", "statement": "For every speed below the reported minimum speed no target isotope with a non-zero cross section can produce a recoil above the effective threshold (threshold minus two resolutions), and at the reported speed, if below the speed of light, some isotope can.", "quantifier": "every detector, threshold, resolution and particle mass", "why_tests_cant": "minimum over a continuum of speeds and over all isotope lists", "anchors": ["src/Direct_Detection_Nucleus.cpp: DM_Detector_Nucleus::Minimum_DM_Speed"]}
{"id": "C71", "title": "Both rate formulas agree for electron targets", "statement": "The electron recoil rates of an atomic shell and of a crystal from the eta function equal the rates from integrating over the speed distribution, whichever of the two switches (particle or distribution) turns the eta function off.", "quantifier": "every particle with 1/v^2 cross section, every halo whose eta function is the mean inverse speed, every energy", "why_tests_cant": "quantifies over particles and halos", "anchors": ["src/Direct_Detection_ER.cpp: dRdEe_Ionization_ER", "src/Direct_Detection_Crystal.cpp: dRdEe_Crystal"]}
{"id": "C72", "title": "Minimum mass and speed of ionization detectors are exact", "statement": "Below the minimum mass reported by an ionization detector with an electron threshold no event with that many electrons is predicted (and with an energy threshold, or none, the predicted spectrum vanishes where the detector looks), in electron recoils and in Migdal scattering alike; from that mass on the energy needed can be transferred to an electron; below the minimum speed no electron can be freed.", "quantifier": "every atom list, halo, particle, threshold and momentum transfer", "why_tests_cant": "minimum over a continuum of speeds and momenta and over all atoms", "anchors": ["src/Direct_Detection_Ionization.cpp: DM_Detector_Ionization::Minimum_DM_Mass, Minimum_DM_Speed, Energy_Gap, Lowest_W, R_ne", "src/Direct_Detection_ER.cpp", "src/Direct_Detection_Migdal.cpp"]}
{"id": "C73", "title": "Minimum mass and speed of semiconductor detectors are exact", "statement": "Below the minimum mass reported by a semiconductor detector the predicted spectrum vanishes above its threshold, and with a threshold in electron hole pairs no event with that many pairs is predicted; from that mass on the threshold energy can be transferred; the minimum speed is the least at which it can.", "quantifier": "every crystal, halo, particle, threshold and momentum transfer", "why_tests_cant": "minimum over a continuum of speeds and momenta", "anchors": ["src/Direct_Detection_Crystal.cpp: DM_Detector_Crystal::Minimum_DM_Mass, Minimum_DM_Speed, Use_Q_Threshold, Use_Q_Bins, R_Q_Crystal, R_total_Crystal"]}
{"id": "C74", "title": "A rejected configuration leaves no trace", "statement": "When reading a configuration file ends the program, no file or directory has been created or changed.", "quantifier": "every file, file system and reason for the rejection", "why_tests_cant": "needs all orders of validation and file system effects", "anchors": ["src/Configuration.cpp: Configuration::Configuration, Initialize_Result_Folder, Create_Result_Folder, Copy_Config_File"]}
{"id": "C75", "title": "Reading a configuration does not change it", "statement": "The configuration file has the same contents after it has been read, whichever path it lies at.", "quantifier": "every path, contents, rank and file system", "why_tests_cant": "depends on coincidence of the path with the path of the copy", "anchors": ["src/Configuration.cpp: Configuration::Copy_Config_File"]}
{"id": "C76", "title": "Results stay in the results folder", "statement": "For every ID in the configuration file, the directory and the copy that are made lie inside the results folder.", "quantifier": "every ID string", "why_tests_cant": "ranges over all strings", "anchors": ["src/Configuration.cpp: Configuration::Initialize_Result_Folder, Create_Result_Folder, Copy_Config_File"]}
{"id": "C77", "title": "Configured halo, detector and parameters hold the configured values", "statement": "After a configuration is accepted, the halo has the configured density, speeds and anisotropy; a user-defined detector has the configured name, exposure, efficiency, observed events, background, targets, thresholds and resolution, a predefined one is the experiment asked for; certainty, masses and ID are those of the file; unusable values are refused.", "quantifier": "every configuration file that is accepted", "why_tests_cant": "ranges over all combinations of settings", "anchors": ["src/Configuration.cpp: Configuration::Construct_DM_Distribution, Construct_DM_Halo_Model, Construct_Imported_Distribution, Construct_DM_Detector, Construct_DM_Detector_Nuclear, Construct_DM_Detector_Ionization, Construct_DM_Detector_Crystal, Initialize_Parameters"]}
{"id": "C78", "title": "Coordinate systems point in the documented directions", "statement": "Transform_Equat_to_Gal maps the documented galactic pole to the galactic z axis and the celestial pole to the documented galactic longitude and latitude; for other epochs the poles are shifted by exactly the documented precession angles, and the transformation never mirrors space.", "quantifier": "every epoch and every vector", "why_tests_cant": "a rotation by a wrong angle is still an isometry; fixing it needs exact trigonometric identities for all epochs", "anchors": ["src/Astronomy.cpp: Transformation_Matrix_P, Transformation_Matrix_M, Transform_Equat_to_Gal"]}
{"id": "C79", "title": "Ecliptic coordinates and the Earth's orbit", "statement": "Geocentric ecliptic coordinates are equatorial coordinates turned about the equinox by the obliquity of the epoch; the Earth's velocity relative to the Sun lies in the ecliptic plane of the epoch with the components given by mean longitude and perihelion at any time.", "quantifier": "every time and every vector", "why_tests_cant": "holds for a continuum of times; tests look at single dates", "anchors": ["src/Astronomy.cpp: Transformation_Matrix_R, Transform_GeoEcl_to_Gal, Transform_HelEcl_to_Gal, Earth_Velocity"]}
{"id": "C80", "title": "Sidereal time runs at the sidereal rate", "statement": "Between any two times in the century after J2000 local apparent sidereal time advances 1.00273790935 times as fast as solar time, up to nutation (2.6 seconds) and whole days, and starts at 18 h 41 min 50.55 s at Greenwich.", "quantifier": "every pair of times within a century after J2000, every longitude", "why_tests_cant": "ranges over all pairs of times; the remainder by whole days hides errors in examples", "anchors": ["src/Astronomy.cpp: Local_Apparent_Sidereal_Time"]}
{"id": "C81", "title": "Cross sections on nuclei are normalised to the nucleon cross sections", "statement": "On a free proton or neutron the total cross section equals Sigma_Proton or Sigma_Neutron for both interaction types; on nuclei it scales coherently with the squared number of nucleons (or with the spin content and (J+1)/J) and the squared ratio of reduced masses; spinless nuclei are invisible to spin-dependent interactions; on free electrons it equals Sigma_Electron.", "quantifier": "every particle reachable by public calls, every isotope and speed", "why_tests_cant": "quantifies over call histories and isotopes", "anchors": ["src/DM_Particle_Standard.cpp: Sigma_Proton, Sigma_Neutron, Sigma_Electron, DM_Particle_SI::Sigma_Total_Nucleus, DM_Particle_SD::Sigma_Total_Nucleus, Sigma_Total_Electron"]}
{"id": "C82", "title": "Nuclear form factor and recoil spectra", "statement": "Without low mass mode the differential cross section is the one of low mass mode times the squared Helm form factor, which is the documented formula; expressed in the recoil energy it integrates to the total cross section up to the largest recoil energy.", "quantifier": "every particle, isotope, momentum transfer and speed", "why_tests_cant": "integral identities over a continuum", "anchors": ["src/DM_Particle.cpp: DM_Particle::dSigma_dER_Nucleus", "src/DM_Particle_Standard.cpp: dSigma_dq2_Nucleus", "src/Target_Nucleus.cpp: Isotope::Helm_Form_Factor, Maximum_Nuclear_Recoil_Energy"]}
{"id": "C83", "title": "Electron cross sections are normalised", "statement": "Differential cross sections for free electrons, atomic electrons, crystals and the Migdal effect are the free cross section times the target's form factor with the documented kinematic factors; in the Migdal effect the electron receives its mass times the speed of the recoiling nucleus; spin-dependent particles excite no bound electrons.", "quantifier": "every particle, momentum transfer, energy and speed", "why_tests_cant": "quantifies over continuous arguments and particles", "anchors": ["src/DM_Particle_Standard.cpp: dSigma_dq2_Electron, d2Sigma_dq2_dEe_Ionization, d2Sigma_dq2_dEe_Crystal", "src/DM_Particle.cpp: d2Sigma_dER_dEe_Migdal"]}
{"id": "C84", "title": "Divergent interactions are refused, and rightly", "statement": "For long range and electric dipole interactions total cross sections, scattering angle distributions and samples end the program, whatever the target and speed; the cross section above a momentum cut indeed exceeds every bound as the cut is lowered.", "quantifier": "every such particle, target, speed and bound", "why_tests_cant": "divergence is a statement about all cuts", "anchors": ["src/DM_Particle_Standard.cpp: DM_Particle_SI::Sigma_Total_Nucleus, Sigma_Total_Electron, PDF_Scattering_Angle_Nucleus, CDF_Scattering_Angle_Nucleus, Sample_Scattering_Angle_Nucleus and the electron versions"]}
{"id": "C85", "title": "Setters change what they name and nothing else", "statement": "Every public setter of a particle gives the named quantity the value passed and leaves all other observable quantities (mass, cross sections, form factor, low mass mode, fractional density) as they were; releasing the coupling ratio makes the nucleon cross sections independent; only the four documented form factors are accepted.", "quantifier": "every particle state, every call", "why_tests_cant": "all states and all pairs of setter and observable", "anchors": ["src/DM_Particle.cpp: Set_Low_Mass_Mode, Set_Fractional_Density", "src/DM_Particle_Standard.cpp: Set_Mass, Set_Sigma_Proton, Set_Sigma_Neutron, Set_Sigma_Electron, Unfix_Coupling_Ratios, Set_FormFactor_DM, Set_Mediator_Mass"]}
{"id": "C86", "title": "The eta function of the SHM++ is the mixture of its components", "statement": "After any sequence of setter calls the eta function of the SHM++ is (1 - eta) times that of the standard halo with the current parameters plus eta times that of the pure sausage; it is zero above the current maximum speed, refuses negative speeds, and the sausage part of a new object is, at the tabulated speeds, the integral of the sausage speed density divided by the speed.", "quantifier": "every history of setters, every speed", "why_tests_cant": "ranges over all histories and a continuum of speeds", "anchors": ["src/DM_Halo_Models.cpp: SHM_Plus_Plus::Eta_Function, Eta_Function_S, Interpolate_Eta_Function_S"]}
{"id": "C87", "title": "The default speed density is the angular integral of the velocity density", "statement": "For a distribution that only defines PDF_Velocity, PDF_Speed is the integral of v^2 times the density over all directions: 4 pi v^2 f(v) for an isotropic density, and the closed formula of the standard halo for its density.", "quantifier": "every velocity density, every speed", "why_tests_cant": "an identity between integrals for all densities", "anchors": ["src/DM_Distribution.cpp: DM_Distribution::PDF_Speed", "src/DM_Halo_Models.cpp: Standard_Halo_Model::PDF_Velocity, PDF_Speed_SHM"]}
{"id": "C88", "title": "Imported distributions reproduce their table and its eta function", "statement": "An imported distribution reproduces the table at its nodes, stays within the range of its values in between and is zero outside; its eta function ends the program below the table, is zero above, is the integral of density over speed at its own nodes, and lies between zero and the integral over the whole table everywhere.", "quantifier": "every table, every speed", "why_tests_cant": "ranges over all tables and a continuum of speeds", "anchors": ["src/DM_Distribution.cpp: Imported_DM_Distribution constructors, Interpolate_Eta, PDF_Speed, Eta_Function"]}
{"id": "C89", "title": "Recoil spectra of composite targets", "statement": "The recoil spectrum of an element is the sum over its isotopes of abundance times isotope spectrum, in whatever order they are listed; a nuclear recoil detector without energy resolution reports at each energy the sum over its targets of efficiency, flat efficiency, mass fraction and target spectrum.", "quantifier": "every element, mixture of targets, configuration history, particle, halo and energy", "why_tests_cant": "all mixtures, histories and energies", "anchors": ["src/Direct_Detection_Nucleus.cpp: dRdER_Nucleus, DM_Detector_Nucleus::dRdE"]}
{"id": "C90", "title": "Imported efficiency curves are applied", "statement": "Every efficiency curve imported into a nuclear recoil detector is applied: one curve to all targets, or one curve to each target.", "quantifier": "every history of configuration calls, every energy", "why_tests_cant": "the number of imported curves depends on the whole history of calls", "anchors": ["src/Direct_Detection_Nucleus.cpp: Import_Efficiency (both), dRdE"]}
{"id": "C91", "title": "Energy resolution folds the spectrum with a Gaussian", "statement": "A nuclear recoil detector with a finite energy resolution reports the true spectrum folded with a Gaussian of that width (cut at six widths and at the documented lower ends), with efficiencies taken at the detected energy; the reported spectrum is never negative.", "quantifier": "every configuration history, spectrum and detected energy", "why_tests_cant": "an integral identity and a sign for all energies", "anchors": ["src/Direct_Detection_Nucleus.cpp: DM_Detector_Nucleus::dRdE, Set_Resolution"]}
{"id": "C92", "title": "Electron recoil spectrum of a shell and an atom", "statement": "The electron spectrum of an atomic shell is the integral over momentum squared of the speed integral of flux times cross section, over exactly the momenta that can be transferred (or are tabulated), evaluated by the trapezoid rule in ln q with 99 intervals, divided by the nuclear mass; it vanishes when the shell cannot be ionized; an atom is the sum of its shells.", "quantifier": "every shell, particle, halo and electron energy", "why_tests_cant": "an identity for all inputs, including where the momentum window is cut", "anchors": ["src/Direct_Detection_ER.cpp: dRdEe_Ionization_ER (both)"]}
{"id": "C93", "title": "Electron spectrum of a crystal", "statement": "The electron spectrum of a crystal is the integral over momentum squared of the speed integral of flux times cross section, by the midpoint rule over the tabulated momenta, divided by the mass of the cell; it is zero above the tabulated energies.", "quantifier": "every crystal, particle, halo and energy", "why_tests_cant": "an identity for all inputs", "anchors": ["src/Direct_Detection_Crystal.cpp: dRdEe_Crystal"]}
{"id": "C94", "title": "Migdal spectrum", "statement": "The Migdal spectrum is the double integral over nuclear recoil energies and over the speeds that allow them of flux times nuclear cross section times ionization form factor over 4 E_e, divided by the nuclear mass, summed over isotopes with their abundances and over shells, whichever of the two rate formulas is selected.", "quantifier": "every atom, particle, halo and electron energy", "why_tests_cant": "an identity of integrals for all inputs", "anchors": ["src/Direct_Detection_Migdal.cpp: dRdEe_Ionization_Migdal (three), vMinimal_Migdal"]}
{"id": "C95", "title": "Expected counts are proportional to the exposure", "statement": "Built with c times the exposure and configured by the same calls, a detector has the same spectrum and the same rate per exposure, and c times the expected events in total and in every bin; configuration calls that succeed for one exposure succeed for every other.", "quantifier": "every detector type, configuration history, particle, halo and positive factor", "why_tests_cant": "ranges over all histories of configuration calls and all exposures", "anchors": ["include/obscura/Direct_Detection.hpp: DM_Detector constructors", "src/Direct_Detection.cpp: DM_Signals_Total, DM_Signals_Binned, DM_Signals_Energy_Bins, DM_Signal_Rate_Total", "src/Direct_Detection_Ionization.cpp: DM_Signals_Total, DM_Signals_Binned", "src/Direct_Detection_Crystal.cpp: DM_Signals_Total, DM_Signals_Binned"]}
{"id": "C96", "title": "Expected counts are proportional to the efficiencies", "statement": "Multiplying the flat efficiency by c multiplies the spectrum, the expected total and every bin by c; multiplying the efficiency of each bin by a number of its own multiplies the expected events of that bin by this number and no other bin.", "quantifier": "every detector type, state reached by configuration calls, particle, halo and positive factors", "why_tests_cant": "ranges over all states and factors", "anchors": ["src/Direct_Detection.cpp: Set_Flat_Efficiency, Set_Bin_Efficiencies, DM_Signals_Energy_Bins", "src/Direct_Detection_Nucleus.cpp: dRdE", "src/Direct_Detection_Ionization.cpp: dRdE_Ionization, DM_Signals_Electron_Bins, DM_Signals_PE_Bins", "src/Direct_Detection_Crystal.cpp: dRdE, DM_Signals_Q_Bins"]}
{"id": "C97", "title": "The shells of xenon and argon", "statement": "Atom(\"Xe\") and Atom(\"Ar\") have exactly the published shells, outermost first, with their names, quantum numbers, binding energies and secondary electrons; each of the four response functions of a shell holds the numbers of the file named after that shell and response over logarithmic momentum grids with the documented ranges, and the recorded grid steps are the steps of these grids.", "quantifier": "every content of the data files and every history of nuclear data requests", "why_tests_cant": "ranges over all file contents and all earlier calls", "anchors": ["src/Target_Atom.cpp: Atomic_Electron::Atomic_Electron, Atom::Atom(const std::string&)"]}
{"id": "C98", "title": "Photoelectron spectra of shells, atoms and detectors", "statement": "The photoelectron spectrum of a shell is its electron spectrum for 1 to 100 electrons spread by Gaussians of mean mu ne and variance sigma^2 ne; an atom is the sum of its shells and a detector the sum of its atoms weighted by mass fractions; an electron spectrum of 100 entries handed over is used instead.", "quantifier": "every target, particle, halo, number of photoelectrons and electron spectrum", "why_tests_cant": "an identity for all inputs, and an out-of-bounds read for short spectra", "anchors": ["src/Direct_Detection_Ionization.cpp: R_S2 (three), R_S2_aux"]}
{"id": "C99", "title": "Average velocity", "statement": "The average velocity vanishes for isotropic distributions, has no component across an axis of symmetry, and is never longer than the average speed.", "quantifier": "every distribution", "why_tests_cant": "an identity of integrals for all parameters", "anchors": ["src/DM_Distribution.cpp: DM_Distribution::Average_Velocity, Average_Speed", "include/obscura/DM_Distribution.hpp: DM_Distribution::PDF_Velocity"]}
{"id": "C100", "title": "Exported tables cover the speeds of the distribution", "statement": "Exporting the speed density or the eta function writes the requested number of rows, from the lowest to the highest speed of the distribution, evenly spaced linearly or logarithmically, each with the speed in km/s and the value there in s/km.", "quantifier": "every distribution, number of rows and scale", "why_tests_cant": "ranges over all functions and all speed domains, including those starting at 0", "anchors": ["src/DM_Distribution.cpp: DM_Distribution::Export_PDF_Speed, Export_Eta_Function"]}
{"id": "C101", "title": "Mean velocity in the standard halo", "statement": "The mean of the velocity density of the standard halo, and with it the reported average velocity, is minus the velocity of the observer.", "quantifier": "every halo, observer velocity below the escape speed and history of setter calls", "why_tests_cant": "an identity of integrals for all parameters", "anchors": ["src/DM_Halo_Models.cpp: Standard_Halo_Model::PDF_Velocity", "src/DM_Distribution.cpp: DM_Distribution::Average_Velocity"]}
{"id": "C102", "title": "Only the first process prints", "statement": "In a run with several processes only process 0 writes the summaries of particles, distributions, detectors and configurations; all other processes stay silent.", "quantifier": "every process number, object and configuration", "why_tests_cant": "ranges over all process numbers and all objects", "anchors": ["src/DM_Particle.cpp: DM_Particle::Print_Summary_Base", "src/DM_Particle_Standard.cpp: DM_Particle_SI::Print_Summary, DM_Particle_SD::Print_Summary", "src/DM_Distribution.cpp: DM_Distribution::Print_Summary_Base", "src/Direct_Detection.cpp: DM_Detector::Print_Summary_Base", "src/Direct_Detection_Nucleus.cpp: DM_Detector_Nucleus::Print_Summary", "src/Direct_Detection_Ionization.cpp: DM_Detector_Ionization::Print_Summary", "src/Direct_Detection_Crystal.cpp: DM_Detector_Crystal::Print_Summary", "src/Configuration.cpp: Configuration::Print_Summary"]}
{"id": "C103", "title": "Printing a summary is always possible", "statement": "Whatever calls configured a detector, and for every detector that a configuration file can ask for, its summary can be printed without undefined behaviour.", "quantifier": "every detector, every sequence of configuration calls, every configuration file that was accepted", "why_tests_cant": "an uninitialised flag is read only after certain histories, and reading it usually looks harmless in a test", "anchors": ["src/Direct_Detection.cpp: DM_Detector::Print_Summary_Base", "src/Direct_Detection_Crystal.cpp: DM_Detector_Crystal::Print_Summary", "include/obscura/Direct_Detection_Crystal.hpp: DM_Detector_Crystal", "src/Configuration.cpp: Configuration::Print_Summary"]}
{"id": "C104", "title": "Summaries show the values of the object", "statement": "The summary of a particle shows its mass with a unit that fits, the cross sections given to the setters and the fixed ratio of couplings; the summary of a binned detector shows the requested number of bins with evenly spaced edges from the lowest to the highest energy.", "quantifier": "every particle reached by setter calls, every mass, every binned detector", "why_tests_cant": "ranges over all histories of setter calls and all masses", "anchors": ["src/DM_Particle.cpp: DM_Particle::Print_Summary_Base", "src/DM_Particle_Standard.cpp: DM_Particle_Standard::Print_Summary_Standard", "src/Direct_Detection.cpp: DM_Detector::Print_Summary_Base"]}
{"id": "C105", "title": "The program writes the limit curve", "statement": "When the program ends normally, its table and its progress lines hold, for the particle, halo and detector of the configuration file, one row for every mass of the requested logarithmic grid that the detector can see and that has an upper limit: the mass in GeV and the limit in cm^2 that the detector computes at that mass. The grid runs from the lowest to the highest requested mass.", "quantifier": "every configuration file, every library behaviour, every run that ends normally", "why_tests_cant": "composes parsing, construction, the curve and the export for all configurations at once", "anchors": ["src/main.cpp: main", "src/Configuration.cpp: Configuration", "src/Direct_Detection.cpp: DM_Detector::Upper_Limit_Curve"]}
{"id": "C106", "title": "Files of a run", "statement": "A run of the program touches nothing but its directory of results: it makes the directories, writes the copy of the configuration, and when it ends normally one table named after the certainty in percent. Runs with different identifiers or certainties write different tables.", "quantifier": "every file system, configuration and outcome", "why_tests_cant": "ranges over all states of the disk and all outcomes of the run", "anchors": ["src/main.cpp: main", "src/Configuration.cpp: Configuration::Initialize_Result_Folder, Copy_Config_File"]}
{"id": "C107", "title": "The program completes for every valid configuration", "statement": "For every complete configuration file with documented values the program ends normally.", "quantifier": "every configuration file, experiment and interaction", "why_tests_cant": "needs the joint behaviour of all parts for every choice of experiment and interaction", "anchors": ["src/main.cpp: main", "src/Direct_Detection_Nucleus.cpp: DM_Detector_Nucleus::Minimum_DM_Mass", "src/DM_Particle_Standard.cpp: DM_Particle_SI::Sigma_Total_Nucleus", "src/Direct_Detection_Crystal.cpp: DM_Detector_Crystal::Print_Summary", "src/Direct_Detection_Ionization.cpp: DM_Detector_Ionization::DM_Signals_PE_Bins"]}
{"id": "C108", "title": "Which parameter an upper limit reports", "statement": "For a detector counting events, in one window or in bins, the upper limit is the interaction parameter at which the smallest chance, over the bins, of seeing at most the observed number of events equals one minus the certainty, to 1e-4 in its logarithm; -1 is reported only if no parameter between 1e-30 and 1e10 does this. Hence limits do not grow with more signal or background or with fewer observed events or a lower certainty, c times the exposure gives a c times stronger limit, and without events and background the limit is where -ln(1 - certainty) events are expected.", "quantifier": "every detector class and configuration, particle, data, background and certainty", "why_tests_cant": "quantifies over all data and compares limits of different experiments", "anchors": ["src/Direct_Detection.cpp: DM_Detector::Upper_Limit, P_Value"]}
{"id": "C109", "title": "Detector settings are the ones given last", "statement": "After any history of configuration calls, every setting of a detector (flat efficiency, bin efficiencies, bin backgrounds, observed numbers per bin, and for photoelectron analyses the gain, width, trigger and acceptance) has the value given in the last call that sets it. Setting up bins anew returns the per-bin lists to their defaults; no other call changes them.", "quantifier": "every detector class and every finite sequence of configuration calls", "why_tests_cant": "the state space of call histories is infinite", "anchors": ["src/Direct_Detection.cpp: DM_Detector::Set_Flat_Efficiency, Set_Bin_Efficiencies, Set_Expected_Background, Set_Observed_Events, Initialize_Binned_Poisson", "src/Direct_Detection_Ionization.cpp: Use_PE_Bins, Use_PE_Threshold, Import_Trigger_Efficiency_PE, Import_Acceptance_Efficiency_PE", "src/Direct_Detection_Crystal.cpp: Use_Q_Bins"]}
{"id": "C110", "title": "Predicted spectra and event numbers are never negative", "statement": "For every detector class, after any history of configuration calls with sensible arguments, the energy spectrum, the events per bin and the total number of events that are returned are finite and not negative.", "quantifier": "every detector class, history of calls, target, particle of the library, interaction and halo", "why_tests_cant": "quantifies over all particles, halos, targets and configuration histories", "anchors": ["src/Direct_Detection_Nucleus.cpp: dRdER_Nucleus, DM_Detector_Nucleus::dRdE, DM_Signals_Binned", "src/Direct_Detection_ER.cpp: dRdEe_Ionization_ER", "src/Direct_Detection_Migdal.cpp: dRdEe_Ionization_Migdal", "src/Direct_Detection_Ionization.cpp: DM_Detector_Ionization::dRdE, R_ne, R_S2, DM_Signals_Total, DM_Signals_Binned", "src/Direct_Detection_Crystal.cpp: dRdEe_Crystal, R_Q_Crystal, R_total_Crystal, DM_Detector_Crystal::DM_Signals_Total, Use_Q_Threshold"]}
{"id": "C111", "title": "Detector summaries show what was set", "statement": "After any history of configuration calls the printed summary of a detector shows its name, its exposure in kg yr, its flat efficiency in percent, the number of events and the background given last, for binned analyses the efficiency, events and background of every bin as given last, and the further settings of its class: resolution and targets with their shares, gain and width or electron numbers, pair number. The total number of events agrees with the bins.", "quantifier": "every detector class and every finite sequence of configuration calls", "why_tests_cant": "the state space of call histories is infinite", "anchors": ["src/Direct_Detection.cpp: DM_Detector::Print_Summary_Base, Initialize_Binned_Poisson", "src/Direct_Detection_Nucleus.cpp: DM_Detector_Nucleus::Print_Summary", "src/Direct_Detection_Ionization.cpp: DM_Detector_Ionization::Print_Summary", "src/Direct_Detection_Crystal.cpp: DM_Detector_Crystal::Print_Summary"]}
{"id": "C112", "title": "Summaries of halos, nuclei and atoms show what was set", "statement": "After any history of setter calls the summary of a halo shows its density, speed domain, dispersion, escape velocity and observer velocity in the units named, the average velocity (opposite to the observer's) and the average speed. The summary of an element shows one line per row of the data table with the abundance in percent and their sum; that of an atom shows all its shells with binding energies in eV.", "quantifier": "every halo and history of setters, every element of every well formed table, every atom", "why_tests_cant": "the state space of call histories and tables is infinite", "anchors": ["src/DM_Distribution.cpp: DM_Distribution::Print_Summary_Base", "src/DM_Halo_Models.cpp: Standard_Halo_Model::Print_Summary_SHM, SHM_Plus_Plus::Print_Summary", "src/Target_Nucleus.cpp: Isotope::Print_Summary, Nucleus::Print_Summary", "src/Target_Atom.cpp: Atomic_Electron::Print_Summary, Atom::Print_Summary"]}
{"id": "C113", "title": "Natural abundances add up to one", "statement": "For every element the abundances of its isotopes add up to one, so that a sum over isotopes is an average.", "quantifier": "every element and every history of look-ups", "why_tests_cant": "ranges over all elements and look-up histories; rates of single elements do not reveal a missing share", "anchors": ["data/Nuclear_Data.txt", "src/Target_Nucleus.cpp: Import_Nuclear_Data, Get_Nucleus, Nucleus::Average_Nuclear_Mass"]}
{"id": "C114", "title": "A wider window never has fewer events", "statement": "If one event window contains another, the predicted number of events in the wider one is at least that in the narrower one: for ranges of electron numbers, thresholds on electron-hole pairs, energy windows of semiconductor detectors and binned energy ranges of nuclear recoil detectors, after any history of sensible configuration calls.", "quantifier": "every pair of nested windows, history of calls, target, particle and halo", "why_tests_cant": "compares two predictions for all pairs of windows and all histories", "anchors": ["src/Direct_Detection_Ionization.cpp: DM_Detector_Ionization::Use_Electron_Threshold, DM_Signals_Total, R_ne", "src/Direct_Detection_Crystal.cpp: R_total_Crystal, DM_Detector_Crystal::Use_Q_Threshold, DM_Signals_Total", "src/Direct_Detection.cpp: DM_Detector::Use_Energy_Threshold, Use_Energy_Bins", "src/Direct_Detection_Nucleus.cpp: DM_Detector_Nucleus::dRdE"]}
{"id": "C115", "title": "The summary of a configuration shows the file", "statement": "The summary printed for a configuration names the configuration file and its ID, contains the summaries of the particle, the halo and the detector that were set up, and shows the certainty level in percent, the lowest and highest mass and the number of masses that are in the file.", "quantifier": "every configuration file that is accepted, rounding and state of the nuclear data", "why_tests_cant": "ranges over all configuration files", "anchors": ["src/Configuration.cpp: Configuration::Configuration, Initialize_Parameters, Print_Summary_Base"]}
{"id": "C116", "title": "Standard halo predictions do not depend on the observer's direction", "statement": "For the standard halo model the speed distribution, its cumulative distribution, the eta function, the speed domain and all predicted rates depend on the observer's velocity only through the observer's speed, whatever calls led to that velocity; the velocity distribution depends only on the speed in the galactic frame.", "quantifier": "every pair of call histories ending in equal dispersion, escape velocity, density and observer speed; every target, particle and energy", "why_tests_cant": "compares all pairs of call histories and observer directions", "anchors": ["src/DM_Halo_Models.cpp: Standard_Halo_Model::Standard_Halo_Model, Set_Observer_Velocity, PDF_Velocity_SHM, PDF_Speed_SHM, CDF_Speed_SHM, Eta_Function_SHM", "src/Direct_Detection_Nucleus.cpp: dRdER_Nucleus", "src/Direct_Detection_ER.cpp: dRdEe_Ionization_ER", "src/Direct_Detection_Migdal.cpp: dRdEe_Ionization_Migdal", "src/Direct_Detection_Crystal.cpp: dRdEe_Crystal, R_Q_Crystal, R_total_Crystal"]}
