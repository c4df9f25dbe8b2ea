{"id": "C01", "title": "source_type is a canonical set of channels", "statement": "TokamakNeutronSource(...).source_type contains exactly the requested reactions, plus the aneutronic D-D channel whenever neutronic D-D was requested, each once, in the fixed order D-T, D-D(n), D-D(p), T-T, D-He3; source_type=None means {D-D, D-T, T-T}. It raises ReactivityError exactly when some item (or the argument itself) is not a recognised reaction, and never KeyError.", "quantifier": "every source_type argument: None, a string, a reaction, a list of any length mixing strings, reactions and junk", "why_tests_cant": "Tests sample a few inputs; the claim is over an infinite (real- or list-valued) input space.", "anchors": ["tokamak_neutron_source/main.py:_parse_source_type", "tokamak_neutron_source/main.py:CUSTOM_ORDER", "tokamak_neutron_source/reactions.py:_parse_reaction"]}
{"id": "C02", "title": "source selection depends only on the requested set", "statement": "Two requests naming the same set of reactions (any order, any repetition, any accepted spelling) give the same source_type, and passing a source_type back in returns it unchanged.", "quantifier": "all pairs of list arguments", "why_tests_cant": "Tests sample a few inputs; the claim is over an infinite (real- or list-valued) input space.", "anchors": ["tokamak_neutron_source/main.py:_parse_source_type"]}
{"id": "C03", "title": "reaction names", "statement": "A string names a reaction exactly when, after '-' is replaced by '_', it is D_T, D_D, T_T or D_He3; 'D-D' always means the neutronic channel, so no string selects D-D -> T+p; every other string raises ReactivityError.", "quantifier": "every string", "why_tests_cant": "Tests sample a few inputs; the claim is over an infinite (real- or list-valued) input space.", "anchors": ["tokamak_neutron_source/reactions.py:_parse_reaction"]}
{"id": "C04", "title": "reaction table is physically consistent", "statement": "For each reaction, the reactants and products on its label conserve charge and nucleon number; num_neutrons is the number of neutrons on the right-hand side; it is zero exactly for members of AneutronicReactions.", "quantifier": "all five reaction members", "why_tests_cant": "The check ties four independent tables together (labels, num_neutrons, enum class, density weighting).", "anchors": ["tokamak_neutron_source/reactions.py:Reactions", "tokamak_neutron_source/reactions.py:AneutronicReactions"]}
{"id": "C05", "title": "fusion energies obey mass-energy balance for any mass table", "statement": "Whatever isotope masses the libraries supply, E(D-D->T+p)+E(D-T) = E(D-D->3He+n)+E(D-3He) (both routes turn 3 D into 4He+n+p); each energy is positive exactly when its reactants outweigh its products; the neutron energy of D-T and D-D lies strictly between 0 and the total and is the one of energy and momentum conservation; the two T-T neutrons together carry less than the total, but a thirtieth of the first Q value less than sequential ejection from a moving 5He would give.", "quantifier": "all isotope mass tables", "why_tests_cant": "The masses come from third-party tables that change between releases.", "anchors": ["tokamak_neutron_source/constants.py:E_DT_FUSION", "tokamak_neutron_source/constants.py:E_DD_TP_FUSION", "tokamak_neutron_source/constants.py:E_DHE3_FUSION", "tokamak_neutron_source/constants.py:E_DT_NEUTRON", "tokamak_neutron_source/constants.py:E_TT_NEUTRON"]}
{"id": "C06", "title": "source strength formula", "statement": "For each channel in source_type and each sampled cell, strength = n1*n2/(1+delta)*<sigma v>(T)*dV with the densities and temperature of the profiles at that cell's own psi_norm; all arrays have one entry per cell; strengths are >= 0 when densities and reactivities are.", "quantifier": "every transport information, flux map, cell grid and reaction set", "why_tests_cant": "Tests sample a few inputs; the claim is over an infinite (real- or list-valued) input space.", "anchors": ["tokamak_neutron_source/main.py:TokamakNeutronSource.__init__", "tokamak_neutron_source/reactivity.py:density_weighted_reactivity"]}
{"id": "C07", "title": "rates always agree with strengths", "statement": "After construction and any sequence of normalise_fusion_power calls, num_reactions_per_second[r] is the sum of strength[r], num_neutrons_per_second[r] is num_neutrons(r) times it, source_rate is the sum of the latter, and the three dictionaries have exactly the keys of source_type.", "quantifier": "every reachable state: all constructor inputs and all finite histories of normalise calls", "why_tests_cant": "Histories are unbounded.", "anchors": ["tokamak_neutron_source/main.py:TokamakNeutronSource", "tokamak_neutron_source/main.py:source_rate"]}
{"id": "C08", "title": "normalise_fusion_power reaches its target", "statement": "After normalise_fusion_power(P), calculate_total_fusion_power() equals P whenever the power before was non-zero; the same holds for total_fusion_power given to the constructor.", "quantifier": "all sources with non-zero power, all P", "why_tests_cant": "Tests sample a few inputs; the claim is over an infinite (real- or list-valued) input space.", "anchors": ["tokamak_neutron_source/main.py:normalise_fusion_power", "tokamak_neutron_source/main.py:calculate_total_fusion_power"]}
{"id": "C09", "title": "normalisation only rescales", "statement": "Any sequence of normalise_fusion_power calls with non-zero targets leaves positions, volumes, temperatures, source_type and maps untouched and multiplies every strength and rate by one common factor P_last/P_first; the result depends only on the last target, and relative shares of cells and channels never change.", "quantifier": "all histories of normalise calls of any length", "why_tests_cant": "Histories are unbounded.", "anchors": ["tokamak_neutron_source/main.py:normalise_fusion_power"]}
{"id": "C10", "title": "tritium burn rate", "statement": "source_T_rate is the number of tritons on the left-hand side of each channel's label times its reaction rate, summed over channels; it equals source_rate for a T-T-only source, is 0 for D-D or D-3He only, and never exceeds source_rate.", "quantifier": "all reachable sources", "why_tests_cant": "Tests sample a few inputs; the claim is over an infinite (real- or list-valued) input space.", "anchors": ["tokamak_neutron_source/main.py:source_T_rate"]}
{"id": "C11", "title": "degenerate normalisation is not silently finite", "statement": "If the unnormalised power is zero, normalise_fusion_power never yields a finite source: it raises ZeroDivisionError for a source with no channels, and otherwise yields non-finite strengths.", "quantifier": "all sources with zero power, all targets", "why_tests_cant": "Needs the exact degenerate set, not a sample.", "anchors": ["tokamak_neutron_source/main.py:normalise_fusion_power"]}
{"id": "C12", "title": "plot draws exactly the available requested reactions", "statement": "plot(reactions) draws, in request order, exactly the requested reactions that are in the source, one axis each, warns once per missing one, and raises TNSError exactly when none is available; plot() draws all.", "quantifier": "all sources and request lists", "why_tests_cant": "Tests sample a few inputs; the claim is over an infinite (real- or list-valued) input space.", "anchors": ["tokamak_neutron_source/main.py:plot"]}
{"id": "C13", "title": "density weighting", "statement": "density_weighted_reactivity multiplies <sigma v> by n_D n_T, n_D^2/2, n_T^2/2 or n_D n_He3 according to the reactants on the reaction's label (the 1/(1+delta_XY) rule), so scaling all densities by k scales the result by k^2, and for a fixed fuel density the D-T rate is largest at 50:50.", "quantifier": "all densities, temperatures, reactions and methods", "why_tests_cant": "Tests sample a few inputs; the claim is over an infinite (real- or list-valued) input space.", "anchors": ["tokamak_neutron_source/reactivity.py:density_weighted_reactivity"]}
{"id": "C14", "title": "Bosch-Hale reactivity on its validity range", "statement": "With the Bosch-Hale method the reactivity equals the published fit, elementwise; it is 0 for T <= 0 and finite and strictly positive for every 0 < T <= 100 keV in all three channels; a warning is logged exactly when some temperature is outside [0.2, 100] keV.", "quantifier": "all temperature arrays of any length", "why_tests_cant": "Tests sample a few inputs; the claim is over an infinite (real- or list-valued) input space.", "anchors": ["tokamak_neutron_source/reactivity.py:_reactivity_channel_bosch_hale", "tokamak_neutron_source/reactivity_data.py:BOSCH_HALE_DT_4HEN"]}
{"id": "C15", "title": "Bosch-Hale beyond its range", "statement": "D-T and D-D(p) reactivities stay finite and positive for every T > 100 keV too, but D-D(n) does not: some out-of-range temperatures only warn and then give a non-finite value.", "quantifier": "all T > 100 keV", "why_tests_cant": "Tests sample a few inputs; the claim is over an infinite (real- or list-valued) input space.", "anchors": ["tokamak_neutron_source/reactivity.py:_reactivity_channel_bosch_hale", "tokamak_neutron_source/reactivity_data.py:BOSCH_HALE_DD_3HEN"]}
{"id": "C16", "title": "cross-section reactivity", "statement": "With the cross-section method the reactivity is finite and strictly positive for every T > 0 for all five shipped cross-section files, every tabulated energy 1..1000 keV the integration needs lies inside the shipped table, it is linear in the cross-section, and at T = 0 it is non-finite (unlike Bosch-Hale's 0).", "quantifier": "all T, all cross-section tables", "why_tests_cant": "Tests sample a few inputs; the claim is over an infinite (real- or list-valued) input space.", "anchors": ["tokamak_neutron_source/reactivity.py:_reactivity_from_xs", "tokamak_neutron_source/reactivity_data.py:ReactionCrossSection"]}
{"id": "C17", "title": "reactivity method dispatch", "statement": "AUTO and BOSCH_HALE use the Bosch-Hale fit exactly for the reactions that have coefficients and the cross section otherwise (BOSCH_HALE then warns once); XS always uses the cross section; ReactivityError is raised exactly for unrecognised reactions.", "quantifier": "all methods and reaction arguments", "why_tests_cant": "Full decision table incl. invalid inputs.", "anchors": ["tokamak_neutron_source/reactivity.py:reactivity"]}
{"id": "C18", "title": "profiles clamp the radius", "statement": "For every profile class, value(rho) = value(min(max(rho,0),1)), elementwise for arrays.", "quantifier": "all profiles and radii", "why_tests_cant": "Tests sample a few inputs; the claim is over an infinite (real- or list-valued) input space.", "anchors": ["tokamak_neutron_source/profile.py:DataProfile.value", "tokamak_neutron_source/profile.py:ParabolicProfile.value", "tokamak_neutron_source/profile.py:ParabolicPedestalProfile.value"]}
{"id": "C19", "title": "set_scale is multiplicative", "statement": "After any sequence of set_scale calls, value(rho) is the product of all scales times the unscaled value, independent of order; errors are unaffected by scaling.", "quantifier": "all profiles and all finite sequences of scales", "why_tests_cant": "Histories are unbounded.", "anchors": ["tokamak_neutron_source/profile.py:PlasmaProfile.set_scale"]}
{"id": "C20", "title": "parabolic profile shape", "statement": "ParabolicProfile.value equals core*(1-rho^beta)^alpha on [0,1] for alpha, beta > 0: core value at 0, 0 at 1, never increasing, always between 0 and the core value.", "quantifier": "all core >= 0, alpha, beta > 0 and rho", "why_tests_cant": "Tests sample a few inputs; the claim is over an infinite (real- or list-valued) input space.", "anchors": ["tokamak_neutron_source/profile.py:ParabolicProfile"]}
{"id": "C21", "title": "pedestal profile shape", "statement": "ParabolicPedestalProfile.value is core at 0 (rho_ped > 0), sep at 1, ped at rho_ped (rho_ped < 1), continuous there, between the smallest and largest of the three values, non-increasing when core >= ped >= sep; for rho_ped clipped to 1 there is a jump from ped to sep at rho = 1, for rho_ped clipped to 0 the core value is never used, and with rho_ped clipped to 1 and ped = sep = 0 it is the parabolic profile.", "quantifier": "all parameters (alpha, beta > 0) and all rho", "why_tests_cant": "Tests sample a few inputs; the claim is over an infinite (real- or list-valued) input space.", "anchors": ["tokamak_neutron_source/profile.py:ParabolicPedestalProfile"]}
{"id": "C22", "title": "data profile interpolation", "statement": "DataProfile.value reproduces the table at its nodes, is the straight line between neighbouring nodes, stays between the smallest and largest tabulated value, is monotone when the table is, does not depend on the order in which the table rows are given, and raises ValueError exactly when the clamped radius is outside the tabulated range.", "quantifier": "all tables with distinct radii, all radii", "why_tests_cant": "Tests sample a few inputs; the claim is over an infinite (real- or list-valued) input space.", "anchors": ["tokamak_neutron_source/profile.py:DataProfile"]}
{"id": "C23", "title": "fuel fractions are renormalised", "statement": "FractionalFuelComposition keeps fractions that sum to 1, otherwise divides each by the sum: afterwards they sum to 1 (exact arithmetic), keep their ratios and signs, and constructing again from the result changes nothing; a warning is logged exactly when they were changed; fractions (Python floats) summing to 0 raise ZeroDivisionError, nothing else fails.", "quantifier": "all triples of fractions", "why_tests_cant": "Tests sample a few inputs; the claim is over an infinite (real- or list-valued) input space.", "anchors": ["tokamak_neutron_source/transport.py:FractionalFuelComposition"]}
{"id": "C24", "title": "fuel fractions in binary64", "statement": "In IEEE binary64 the renormalised fractions need not sum to exactly 1.0 (the docstring's 'Force fractions to sum to 1.0' fails by rounding) and constructing again can change them, but for non-negative fractions each result lies in [0,1], is within 2^-50 of the exact fraction of the exact total (for totals up to 2^1022), and fractions already summing to 1.0 are kept bit for bit. Fractions whose sum overflows are all stored as 0.", "quantifier": "all binary64 triples", "why_tests_cant": "Rounding: exceptional triples are rare and tests pick round numbers.", "anchors": ["tokamak_neutron_source/transport.py:FractionalFuelComposition.__post_init__"]}
{"id": "C25", "title": "species densities add up to the fuel density", "statement": "TransportInformation.from_parameterisations and from_profiles give D, T and He3 densities equal to the composition fractions times the fuel density at every rho, hence summing to it when fractions sum to 1; temperatures are the given profile.", "quantifier": "all profiles, compositions, radii", "why_tests_cant": "Tests sample a few inputs; the claim is over an infinite (real- or list-valued) input space.", "anchors": ["tokamak_neutron_source/transport.py:TransportInformation.from_profiles", "tokamak_neutron_source/transport.py:TransportInformation.from_parameterisations"]}
{"id": "C26", "title": "building transport information does not disturb the caller's profiles", "statement": "from_parameterisations leaves the caller's density profile unchanged, and no later sequence of set_scale calls on it changes the stored densities, nor do set_scale calls on one stored density profile change another; the temperature profile, however, is shared: rescaling it later changes the transport information.", "quantifier": "all heaps of profile objects and all later call sequences", "why_tests_cant": "Aliasing over unbounded histories.", "anchors": ["tokamak_neutron_source/transport.py:TransportInformation.from_parameterisations"]}
{"id": "C27", "title": "JETTO frame selection", "statement": "load_jsp(file, n) reads exactly frame n (last frame for -1), raises ValueError exactly for n < -1 or n >= number of frames, prepends rho = 0 with the innermost values, converts temperature from eV to keV, sets He3 to zero, and returns arrays of one common length.", "quantifier": "all files and frame numbers", "why_tests_cant": "Tests sample a few inputs; the claim is over an infinite (real- or list-valued) input space.", "anchors": ["tokamak_neutron_source/tools.py:load_jsp"]}
{"id": "C28", "title": "sampled cells are distinct lattice cells inside the plasma", "statement": "Every sampled point lies inside the LCFS polygon and at O-point + integer multiples of cell_side_length in both directions; no point is sampled twice.", "quantifier": "all polygons, O-points and positive cell sizes", "why_tests_cant": "Tests sample a few inputs; the claim is over an infinite (real- or list-valued) input space.", "anchors": ["tokamak_neutron_source/space.py:sample_space_2d"]}
{"id": "C29", "title": "no cell is missed", "statement": "Every lattice point O-point + (i,j)*cell_side_length that is inside the LCFS polygon is sampled; in particular the O-point itself when it is inside. Shifting the whole geometry shifts the samples.", "quantifier": "all polygons, O-points, positive cell sizes and all integers i, j", "why_tests_cant": "Tests sample a few inputs; the claim is over an infinite (real- or list-valued) input space.", "anchors": ["tokamak_neutron_source/space.py:sample_space_2d"]}
{"id": "C30", "title": "sampling order", "statement": "Samples are ordered by increasing x and, within one x, by strictly increasing z (the MCNP writer depends on this).", "quantifier": "all inputs", "why_tests_cant": "Tests sample a few inputs; the claim is over an infinite (real- or list-valued) input space.", "anchors": ["tokamak_neutron_source/space.py:sample_space_2d", "tokamak_neutron_source/mcnp_interface.py:write_mcnp_sdef_source"]}
{"id": "C31", "title": "cell volumes are exact ring volumes", "statement": "d_volume of a cell equals pi*(r_out^2-r_in^2)*side, the exact volume of the square toroidal ring; it is positive for x > 0; rings of different samples do not overlap in their interiors.", "quantifier": "all samples", "why_tests_cant": "Tests sample a few inputs; the claim is over an infinite (real- or list-valued) input space.", "anchors": ["tokamak_neutron_source/space.py:sample_space_2d"]}
{"id": "C32", "title": "LCFS information validation", "statement": "LCFSInformation raises FluxSurfaceError exactly when r_0 <= 0, aspect_ratio <= 1, kappa < 1, |delta| > 1 or |shift| >= minor radius; otherwise minor_radius = r_0/aspect_ratio is in (0, r_0) and the stored shift is the absolute value.", "quantifier": "all parameter tuples", "why_tests_cant": "Tests sample a few inputs; the claim is over an infinite (real- or list-valued) input space.", "anchors": ["tokamak_neutron_source/flux.py:LCFSInformation"]}
{"id": "C33", "title": "closed surfaces only", "statement": "ClosedFluxSurface raises FluxSurfaceError exactly when first and last points differ by more than 1e-12 in x or z, and otherwise stores the coordinates unchanged.", "quantifier": "all non-empty coordinate arrays", "why_tests_cant": "Tests sample a few inputs; the claim is over an infinite (real- or list-valued) input space.", "anchors": ["tokamak_neutron_source/flux.py:ClosedFluxSurface", "tokamak_neutron_source/flux.py:is_closed"]}
{"id": "C34", "title": "area is the shoelace area", "statement": "area is non-negative, invariant under reversal, translation and choice of starting vertex, scales with the square of a magnification, is the absolute value of the signed line integral of x dz, and is unaffected by repeating the closing point.", "quantifier": "all vertex lists of any length", "why_tests_cant": "Tests sample a few inputs; the claim is over an infinite (real- or list-valued) input space.", "anchors": ["tokamak_neutron_source/tools.py:get_area_2d"]}
{"id": "C35", "title": "centroid", "statement": "center_of_mass of a closed polygon with non-zero area does not depend on orientation, moves with the polygon under translation and magnification, and for every polygon star-shaped about some point lies in its bounding box.", "quantifier": "all closed vertex lists", "why_tests_cant": "Tests sample a few inputs; the claim is over an infinite (real- or list-valued) input space.", "anchors": ["tokamak_neutron_source/tools.py:get_centroid_2d", "tokamak_neutron_source/tools.py:check_ccw"]}
{"id": "C36", "title": "enclosed volume", "statement": "volume equals the absolute value of pi times the boundary integral of x^2 dz (the exact volume of revolution of the polygon), is invariant under vertical shifts and orientation, grows by 2*pi*a*area under a radial shift a, and is non-negative for star-shaped polygons at x >= 0; the axis ring has volume and area 0.", "quantifier": "all closed vertex lists", "why_tests_cant": "Tests sample a few inputs; the claim is over an infinite (real- or list-valued) input space.", "anchors": ["tokamak_neutron_source/flux.py:ClosedFluxSurface.volume", "tokamak_neutron_source/flux.py:FluxRing"]}
{"id": "C37", "title": "Fausser surfaces", "statement": "For valid LCFS information and any psi_norm and n_points >= 1, flux_surface succeeds with n_points points, closed; at psi_norm 0 it collapses onto the O-point used by the flux map; at psi_norm 1 there is no shift; for 0 <= psi_norm <= 1 every point has x > 0 and |z-z_0| <= kappa*a*psi_norm; z is reached symmetric for symmetric angles.", "quantifier": "all valid parameters, psi_norm, n_points", "why_tests_cant": "Tests sample a few inputs; the claim is over an infinite (real- or list-valued) input space.", "anchors": ["tokamak_neutron_source/flux.py:FausserFluxSurface", "tokamak_neutron_source/flux.py:FluxMap.from_parameterisation"]}
{"id": "C38", "title": "Sauter surfaces", "statement": "Sauter surfaces are always closed with n_points points; with zero squareness and zero shift they coincide with Fausser surfaces; but with non-zero shift or squareness the psi_norm = 0 surface is not the O-point of the flux map.", "quantifier": "all valid parameters", "why_tests_cant": "Tests sample a few inputs; the claim is over an infinite (real- or list-valued) input space.", "anchors": ["tokamak_neutron_source/flux.py:SauterFluxSurface", "tokamak_neutron_source/flux.py:FluxMap.from_parameterisation"]}
{"id": "C39", "title": "nesting of Fausser surfaces", "statement": "If the Shafranov shift is at most half the minor radius, the outboard and inboard mid-plane radii of Fausser surfaces move strictly outwards/inwards with psi_norm and all of them stay within the LCFS mid-plane extent; for larger (still accepted) shifts an inner surface sticks out of the LCFS.", "quantifier": "all valid parameters and 0 <= psi_1 < psi_2 <= 1", "why_tests_cant": "Tests sample a few inputs; the claim is over an infinite (real- or list-valued) input space.", "anchors": ["tokamak_neutron_source/flux.py:FausserFluxSurface", "tokamak_neutron_source/flux.py:LCFSInformation"]}
{"id": "C40", "title": "flux normalisation", "statement": "normalise_psi gives 0 on axis, 1 on the boundary, is never negative, increases away from the axis value, SQRT is the square root of LINEAR, and is unchanged when all fluxes are transformed by the same non-zero affine map (any COCOS sign/offset/2*pi).", "quantifier": "all flux arrays and axis/boundary values that differ", "why_tests_cant": "Tests sample a few inputs; the claim is over an infinite (real- or list-valued) input space.", "anchors": ["tokamak_neutron_source/flux.py:normalise_psi"]}
{"id": "C41", "title": "EQDSK sign convention", "statement": "load_eqdsk returns psi on axis >= psi on boundary, leaves the normalised flux at every grid point unchanged, touches nothing else, and is idempotent: loading the same (mutated) object again changes nothing.", "quantifier": "all equilibria, all repetition counts", "why_tests_cant": "Histories of calls on one mutable object.", "anchors": ["tokamak_neutron_source/tools.py:load_eqdsk"]}
{"id": "C42", "title": "parameterised flux maps label their own surfaces", "statement": "from_parameterisation builds one node per surface point plus the axis, with equally long x, z and psi arrays; the axis has psi_norm 0 and every node of the surface for rho has psi_norm rho (LINEAR) or sqrt(rho) (SQRT); radii <= 0 are dropped. get_flux_surface(p) returns the nodes whose label is p with LINEAR, but with SQRT it returns the surface labelled sqrt(p).", "quantifier": "all parameterisations, radius arrays, n_points", "why_tests_cant": "Tests sample a few inputs; the claim is over an infinite (real- or list-valued) input space.", "anchors": ["tokamak_neutron_source/flux.py:ParameterisationInterpolator"]}
{"id": "C43", "title": "EQDSK flux-surface selection", "statement": "get_flux_surface clamps psi_norm to [0,1]; at 0 it is a ring at the O-point; otherwise it is a contour whose mean point is closest to the O-point (the first such), raises FluxSurfaceError exactly when there is no contour or the chosen one is open; lists are mapped elementwise and volume is the volume of that surface.", "quantifier": "all contour sets and psi_norm values", "why_tests_cant": "Tests sample a few inputs; the claim is over an infinite (real- or list-valued) input space.", "anchors": ["tokamak_neutron_source/flux.py:find_flux_surf", "tokamak_neutron_source/flux.py:EQDSKFluxInterpolator.get_flux_surface", "tokamak_neutron_source/flux.py:FluxMap.get_flux_surface", "tokamak_neutron_source/flux.py:FluxMap.volume"]}
{"id": "C44", "title": "resampling a surface", "statement": "get_flux_surface(psi, n) returns n+1 points, exactly closed, starting at the contour's first point, each lying on the contour polyline at equally spaced arc lengths.", "quantifier": "all polylines with positive segment lengths, all n >= 1", "why_tests_cant": "Tests sample a few inputs; the claim is over an infinite (real- or list-valued) input space.", "anchors": ["tokamak_neutron_source/flux.py:interpolate_flux_surface"]}
{"id": "C45", "title": "spectra are normalised probability densities", "statement": "Whenever the trimmed pdf has non-zero trapezoid integral, energy_spectrum returns energies and pdf of equal length whose trapezoid integral is exactly 1, proportional to the input, energies a contiguous run of the input; non-negative input with >= 2 non-zero samples on increasing energies always qualifies.", "quantifier": "all energy grids and pdf arrays", "why_tests_cant": "Tests sample a few inputs; the claim is over an infinite (real- or list-valued) input space.", "anchors": ["tokamak_neutron_source/energy.py:_prepare_energy_pdf"]}
{"id": "C46", "title": "trimming zeros", "statement": "Exactly the leading and trailing zeros are removed (interior zeros stay), EnergySpectrumError is raised exactly for an all-zero (or empty) pdf; a pdf with exactly one non-zero sample is accepted but cannot be normalised (non-finite).", "quantifier": "all arrays", "why_tests_cant": "Tests sample a few inputs; the claim is over an infinite (real- or list-valued) input space.", "anchors": ["tokamak_neutron_source/energy.py:_trim_zero_mask"]}
{"id": "C47", "title": "Gaussian neutron spectrum", "statement": "For D-T and D-D and every 0 < T <= 40 keV, the mean energy exceeds the nominal energy, the width is positive, the whole energy grid is positive, and the Gaussian spectrum is a strictly positive density symmetric about the mean with 1000 points spanning +-6 sigma.", "quantifier": "all T in (0,40] keV", "why_tests_cant": "Tests sample a few inputs; the claim is over an infinite (real- or list-valued) input space.", "anchors": ["tokamak_neutron_source/energy.py:_gaussian_energy_spectrum", "tokamak_neutron_source/energy_data.py:BallabioEnergySpectrum"]}
{"id": "C48", "title": "modified Gaussian neutron spectrum", "statement": "For D-T and D-D and every 0 < T <= 40 keV, the modified Gaussian of Ballabio is well defined (no square root of a negative number, no division by zero), strictly positive, with peak below the mean energy, and normalised.", "quantifier": "all T in (0,40] keV", "why_tests_cant": "Tests sample a few inputs; the claim is over an infinite (real- or list-valued) input space.", "anchors": ["tokamak_neutron_source/energy.py:_modified_gaussian_energy_spectrum"]}
{"id": "C49", "title": "spectrum method dispatch", "statement": "AUTO uses the modified Gaussian for D-D and D-T and the data for T-T; Ballabio methods fall back to data (with one warning) for T-T; DATA raises NotImplementedError for D-D and D-T; no method ever yields a spectrum for an aneutronic reaction (AUTO returns None, the others raise NotImplementedError).", "quantifier": "all methods and reactions", "why_tests_cant": "Complete decision table.", "anchors": ["tokamak_neutron_source/energy.py:energy_spectrum"]}
{"id": "C50", "title": "T-T data spectrum", "statement": "The T-T spectrum depends on temperature only through its clamp to [1,20] keV, is the linear interpolation of the two neighbouring tabulated spectra, reproduces tabulated temperatures, is non-negative, and converting MeV to keV preserves its integral; with the shipped table it can be normalised at every temperature.", "quantifier": "all temperatures", "why_tests_cant": "Tests sample a few inputs; the claim is over an infinite (real- or list-valued) input space.", "anchors": ["tokamak_neutron_source/energy_data.py:TTNeutronEnergyDataSpectrum"]}
{"id": "C51", "title": "OpenMC strengths sum to one", "statement": "The strengths of the sources returned by to_openmc_source sum to 1, and each strength times source_rate is the neutron emission (T-T counted twice, aneutronic excluded) of its ring, for any reachable source without negative strengths and with positive source_rate.", "quantifier": "all reachable sources", "why_tests_cant": "Tests sample a few inputs; the claim is over an infinite (real- or list-valued) input space.", "anchors": ["tokamak_neutron_source/openmc_interface.py:make_openmc_full_combined_source", "tokamak_neutron_source/main.py:to_openmc_source"]}
{"id": "C52", "title": "OpenMC energy mixtures", "statement": "In each returned source the mixture has one distribution per neutronic channel that emits there, none for aneutronic or silent channels, in source_type order, with positive probabilities proportional to the channels' neutron rates and summing to 1; every distribution uses that ring's temperature.", "quantifier": "all reachable sources", "why_tests_cant": "Tests sample a few inputs; the claim is over an infinite (real- or list-valued) input space.", "anchors": ["tokamak_neutron_source/openmc_interface.py:make_openmc_full_combined_source"]}
{"id": "C53", "title": "OpenMC ring geometry", "statement": "A ring source spans exactly r +- side/2 and z +- side/2 in cm, full 2*pi; its radial density is linear, integrates to 1 after OpenMC's normalisation and is proportional to r, i.e. emission is uniform per unit volume, when r >= side/2.", "quantifier": "all cells", "why_tests_cant": "Tests sample a few inputs; the claim is over an infinite (real- or list-valued) input space.", "anchors": ["tokamak_neutron_source/openmc_interface.py:make_openmc_ring_source"]}
{"id": "C54", "title": "OpenMC sources are complete", "statement": "There is exactly one source, in cell order, for each cell with positive neutron emission and none for the others; a source without any neutron emission gives an empty list (one without any reaction channel raises ZeroDivisionError); below 40 keV the conversion always succeeds with every method but DATA.", "quantifier": "all reachable sources", "why_tests_cant": "Tests sample a few inputs; the claim is over an infinite (real- or list-valued) input space.", "anchors": ["tokamak_neutron_source/openmc_interface.py:make_openmc_full_combined_source"]}
{"id": "C55", "title": "SDEF cards survive line wrapping", "statement": "Reading a wrapped card back with MCNP's continuation rule (>= 5 leading blanks continue the card) gives exactly the original blank-separated words as one card, for any card and any sequence of cards; for any text whatever, no character other than white space is lost, added or moved; an indent below 6 raises ValueError.", "quantifier": "all cards of any length whose words fit in a line and have no hyphen between two letters or before another hyphen", "why_tests_cant": "Tests sample a few inputs; the claim is over an infinite (real- or list-valued) input space.", "anchors": ["tokamak_neutron_source/mcnp_interface.py:_text_wrap"]}
{"id": "C56", "title": "wrapped line length", "statement": "The first line of a wrapped card is at most max_length long and every continuation line at most max_length + indent; the documented bound max_length itself is exceeded by some cards, including ordinary ones with negative heights.", "quantifier": "all cards; for the bound max_length + indent all texts", "why_tests_cant": "Tests sample a few inputs; the claim is over an infinite (real- or list-valued) input space.", "anchors": ["tokamak_neutron_source/mcnp_interface.py:_text_wrap"]}
{"id": "C57", "title": "SDEF probabilities conserve the source", "statement": "For cells listed by column, the radial probabilities on SP3 are the column sums of the strengths, each vertical card lists exactly the strengths of its column in order, and both add up to the total strength of the channel.", "quantifier": "all cell arrays", "why_tests_cant": "Tests sample a few inputs; the claim is over an infinite (real- or list-valued) input space.", "anchors": ["tokamak_neutron_source/mcnp_interface.py:write_mcnp_sdef_source", "tokamak_neutron_source/mcnp_interface.py:_si_sp_vertical_dist_cards"]}
{"id": "C58", "title": "SDEF cross references", "statement": "The number of radial bins, SP3 probabilities, DS4 entries and vertical card pairs agree; DS4 lists exactly the numbers of the vertical cards written, in order, all distinct and all > 4; every SI card has as many boundaries as its SP card has entries.", "quantifier": "all non-empty cell arrays in sampling order", "why_tests_cant": "Tests sample a few inputs; the claim is over an infinite (real- or list-valued) input space.", "anchors": ["tokamak_neutron_source/mcnp_interface.py:write_mcnp_sdef_source"]}
{"id": "C59", "title": "SDEF bins are the cells", "statement": "When a column (or the set of columns) has no gaps, the histogram bins on the SI cards are exactly the cells' extents in cm; when there is a gap, the bin before it is widened over the gap, so emission is assigned to places outside the sampled cells.", "quantifier": "all sampled grids, convex or not", "why_tests_cant": "Tests sample a few inputs; the claim is over an infinite (real- or list-valued) input space.", "anchors": ["tokamak_neutron_source/mcnp_interface.py:write_mcnp_sdef_source", "tokamak_neutron_source/mcnp_interface.py:_si_sp_vertical_dist_cards"]}
{"id": "C60", "title": "SDEF numbers", "statement": "Every number is written in d.ddddde+XX form, reads back within relative error 5e-6 of the value, keeps its sign and order, and zero is written as zero.", "quantifier": "all real numbers", "why_tests_cant": "Tests sample a few inputs; the claim is over an infinite (real- or list-valued) input space.", "anchors": ["tokamak_neutron_source/mcnp_interface.py:write_mcnp_sdef_source"]}
{"id": "C61", "title": "SDEF header", "statement": "The 'Total source neutrons' line equals the channel's num_neutrons_per_second for D-T and D-D; for T-T it is the number of reactions, i.e. half the neutrons. D-T/D-D use MCNP's built-in fusion spectrum with code -1/-2 and the mean temperature in MeV; T-T lists one more energy bound and probability than the spectrum, starting at 0.", "quantifier": "all strengths and temperatures", "why_tests_cant": "Tests sample a few inputs; the claim is over an infinite (real- or list-valued) input space.", "anchors": ["tokamak_neutron_source/mcnp_interface.py:sdef_header"]}
{"id": "C62", "title": "mean ion temperature", "statement": "The temperature in the header is the strength-weighted mean: between the coldest and hottest emitting cell, unchanged by fusion-power normalisation, equal to T for an isothermal plasma, non-finite exactly when the total strength is zero.", "quantifier": "all strengths and temperatures", "why_tests_cant": "Tests sample a few inputs; the claim is over an infinite (real- or list-valued) input space.", "anchors": ["tokamak_neutron_source/mcnp_interface.py:mean_ion_temp"]}
{"id": "C63", "title": "SDEF files", "statement": "to_sdef_card writes exactly one file per neutronic channel, with distinct names <stub>.DT, <stub>.DD, <stub>.TT, and none for aneutronic channels.", "quantifier": "all sources and file stubs", "why_tests_cant": "Tests sample a few inputs; the claim is over an infinite (real- or list-valued) input space.", "anchors": ["tokamak_neutron_source/mcnp_interface.py:write_mcnp_sdef_source"]}
{"id": "C64", "title": "duplicate warnings are filtered", "statement": "Inside QuietTTSpectrumWarnings every distinct message from the two filtered loggers is emitted exactly once, the first time, in order; other loggers are unaffected; after the block nothing is filtered, even if it is left by an exception.", "quantifier": "all sequences of log records", "why_tests_cant": "Histories are unbounded.", "anchors": ["tokamak_neutron_source/tools.py:WarningFilter", "tokamak_neutron_source/openmc_interface.py:make_openmc_full_combined_source"]}
{"id": "C65", "title": "OpenMC mixture weights and densities", "statement": "The tabulated neutron spectra handed to OpenMC list densities per keV against energies in eV, so each integrates to 1000; the proportions probability x integral of a mixture are therefore right when all its components are tables (every method but BALLABIO_GAUSSIAN), but with BALLABIO_GAUSSIAN, where D-T and D-D are Normal distributions (integral 1), T-T is over-weighted 1000-fold.", "quantifier": "all reachable sources", "why_tests_cant": "Tests sample a few inputs; the claim is over an infinite (real- or list-valued) input space.", "anchors": ["tokamak_neutron_source/openmc_interface.py:get_neutron_energy_spectrum", "tokamak_neutron_source/openmc_interface.py:make_openmc_full_combined_source"]}
{"id": "C66", "title": "OpenMC source independent of the power", "statement": "Rescaling a source by any positive factor (fusion power normalisation) leaves the list of OpenMC sources, and any failure to build it, exactly unchanged.", "quantifier": "all reachable sources, all positive factors", "why_tests_cant": "Tests sample a few inputs; the claim is over an infinite (real- or list-valued) input space.", "anchors": ["tokamak_neutron_source/main.py:to_openmc_source", "tokamak_neutron_source/main.py:normalise_fusion_power"]}
{"id": "C67", "title": "SDEF file contents", "statement": "Read back as text, the file written for a channel is the title, the provenance comments, the SDEF card, the energy, radial and vertical cards, in that order; every card's numbers are those of the source within printing accuracy, and to_sdef_card writes for each neutronic channel of the source the file built from that channel's own strengths.", "quantifier": "all writable sources", "why_tests_cant": "Tests sample a few inputs; the claim is over an infinite (real- or list-valued) input space.", "anchors": ["tokamak_neutron_source/mcnp_interface.py:write_mcnp_sdef_source", "tokamak_neutron_source/main.py:to_sdef_card"]}
{"id": "C68", "title": "MCNP samples the source", "statement": "What MCNP samples from the written deck (radius, then height given radius) is, region by region, the probability of each cell of the source, within 2.1e-5 relative, over bins whose bounds are within 5e-6.", "quantifier": "all writable sources", "why_tests_cant": "Tests sample a few inputs; the claim is over an infinite (real- or list-valued) input space.", "anchors": ["tokamak_neutron_source/mcnp_interface.py:write_mcnp_sdef_source"]}
{"id": "C69", "title": "plasma boundaries are convex", "statement": "Every surface psi > 0 of FausserFluxSurface, for every accepted shape (any triangularity in [-1, 1]) and any n_points >= 4, is a strictly convex anticlockwise polygon, and so is every SauterFluxSurface with squareness 0; hence its area is positive, its center_of_mass lies within it and its volume is the volume of revolution. A large squareness breaks convexity.", "quantifier": "all accepted shapes, psi > 0 and numbers of points", "why_tests_cant": "Tests sample a few inputs; the claim is over an infinite (real- or list-valued) input space.", "anchors": ["tokamak_neutron_source/flux.py:FausserFluxSurface", "tokamak_neutron_source/flux.py:SauterFluxSurface"]}
{"id": "C70", "title": "the sampler finds exactly the cells of the plasma", "statement": "For a convex LCFS sample_space_2d returns exactly the lattice points (cell centres) in the closed LCFS polygon except those at its lowest level. For a parameterised plasma drawn with n_points >= 5 the magnetic axis is strictly inside, so for every cell size the grid is non-empty and contains the axis; with n_points = 4 it can be empty.", "quantifier": "all accepted shapes, cell sizes and numbers of points", "why_tests_cant": "Tests sample a few inputs; the claim is over an infinite (real- or list-valued) input space.", "anchors": ["tokamak_neutron_source/space.py:sample_space_2d", "tokamak_neutron_source/flux.py:FluxMap.from_parameterisation"]}
{"id": "C71", "title": "MCNP bins are the cells", "statement": "For every parameterised plasma and every cell size, the sampled cells form columns without gaps at consecutive radii, so the radial and vertical bins written to the SDEF card are exactly the cells.", "quantifier": "all accepted shapes, cell sizes and numbers of points", "why_tests_cant": "Tests sample a few inputs; the claim is over an infinite (real- or list-valued) input space.", "anchors": ["tokamak_neutron_source/mcnp_interface.py:write_mcnp_sdef_source", "tokamak_neutron_source/space.py:sample_space_2d"]}
{"id": "C72", "title": "flux surfaces are nested", "statement": "With a Shafranov shift of at most half the minor radius, every point of (and within) an inner flux surface lies strictly inside every outer one, for every triangularity.", "quantifier": "all accepted shapes, pairs psi < psi' <= 1, n_points >= 5", "why_tests_cant": "Tests sample a few inputs; the claim is over an infinite (real- or list-valued) input space.", "anchors": ["tokamak_neutron_source/flux.py:FausserFluxSurface"]}
{"id": "C73", "title": "enclosed area and volume against psi", "statement": "The area within surface psi is psi^2 times the LCFS area A, its volume is psi^3 V + 2 pi psi^2 A (R0 (1 - psi) + shift (1 - psi^2)) for LCFS volume V; FluxMap.volume is strictly increasing on [0, 1] when the shift is at most half the minor radius.", "quantifier": "all accepted shapes, all psi, n_points >= 4", "why_tests_cant": "Tests sample a few inputs; the claim is over an infinite (real- or list-valued) input space.", "anchors": ["tokamak_neutron_source/flux.py:FluxMap.volume", "tokamak_neutron_source/flux.py:FausserFluxSurface"]}
{"id": "C74", "title": "a parameterised plasma gives a usable source", "statement": "For every accepted shape (FausserFluxSurface, or SauterFluxSurface with squareness 0) with n_points >= 5, temperature profile within (0, 40] keV, positive fuel density, deuterium and tritium fractions, every cell size, every list of channels with a neutron source and every power target, TokamakNeutronSource(...) succeeds, has exactly the target power, a positive source rate and cells only inside the plasma; to_openmc_source then returns one ring per cell with strengths summing to 1, and to_sdef_card writes one file per neutronic channel from which MCNP samples each cell with the cell's share of the strength.", "quantifier": "all such inputs", "why_tests_cant": "Tests sample a few inputs; the claim is over an infinite (real- or list-valued) input space.", "anchors": ["tokamak_neutron_source/main.py:TokamakNeutronSource", "tokamak_neutron_source/flux.py:FluxMap.from_parameterisation", "tokamak_neutron_source/openmc_interface.py:make_openmc_full_combined_source", "tokamak_neutron_source/mcnp_interface.py:write_mcnp_sdef_source"]}
{"id": "C75", "title": "printing an error", "statement": "str() of a TNSError (or ReactivityError, EnergySpectrumError, FluxSurfaceError) raised with a message always succeeds; its lines are at most 70 characters long and not empty; no character of the message other than white space is lost, added or moved; words of at most 70 characters without a hyphen between two letters or before another hyphen stay in one piece; a one-line message of at most 70 characters is printed unchanged. Without a message str() raises IndexError.", "quantifier": "all messages (ASCII)", "why_tests_cant": "Tests sample a few inputs; the claim is over an infinite (real- or list-valued) input space.", "anchors": ["tokamak_neutron_source/error.py:TNSError"]}
{"id": "C76", "title": "indentation of an error message", "statement": "Indenting all lines of a message by the same blanks and tabs (and its lines without text in any way) does not change what is printed.", "quantifier": "all messages and indentations", "why_tests_cant": "Tests sample a few inputs; the claim is over an infinite (real- or list-valued) input space.", "anchors": ["tokamak_neutron_source/error.py:TNSError"]}
{"id": "C77", "title": "unit conversion", "statement": "raw_uc(value, a, b) returns the number of b's that is the same physical amount as value a's (equal in SI base units; or, between mass, energy and temperature, and between the same per time, of equal energy by m c^2 and k_B T), for units with a scale such as 10^19/m^3 too. It multiplies by one positive factor that depends on the units only, element by element for arrays; converting back restores the value and converting via a third unit gives the same. It raises DimensionalityError exactly if there is no such amount and UndefinedUnitError exactly if a unit is unknown.", "quantifier": "all values, arrays and multiplicative units", "why_tests_cant": "Tests sample a few inputs; the claim is over an infinite (real- or list-valued) input space.", "anchors": ["tokamak_neutron_source/constants.py:raw_uc", "tokamak_neutron_source/constants.py:TNSUnitRegistry"]}
{"id": "C78", "title": "unit compatibility", "statement": "units_compatible(a, b) is True exactly if a value can be converted; it is symmetric and transitive, every known unit is compatible with itself, and an unknown unit with none (False, no exception).", "quantifier": "all unit strings", "why_tests_cant": "Tests sample a few inputs; the claim is over an infinite (real- or list-valued) input space.", "anchors": ["tokamak_neutron_source/constants.py:units_compatible"]}
{"id": "C79", "title": "conversions used by the library", "statement": "m to cm multiplies by 100, keV to eV by 1000, keV to MeV by 1/1000, 1/MeV to 1/keV by 1/1000, amu to J goes through c^2, keV to J and amu to kg use the same electron volt and atomic mass unit everywhere, whatever their values.", "quantifier": "all values, all values of the constants", "why_tests_cant": "Tests sample a few inputs; the claim is over an infinite (real- or list-valued) input space.", "anchors": ["tokamak_neutron_source/constants.py:raw_uc", "tokamak_neutron_source/mcnp_interface.py:write_mcnp_sdef_source", "tokamak_neutron_source/openmc_interface.py:get_neutron_energy_spectrum", "tokamak_neutron_source/tools.py:load_jsp"]}
{"id": "C80", "title": "SDEF files on the disk", "statement": "to_sdef_card leaves exactly its files (one per neutronic channel) closed on the disk and touches no other file, whether it returns or raises. If the process is stopped at any point while it writes, the files of the first channels are complete, at most one file holds a first part of its text, and the files of later channels and all other files are as before; running it again gives the same disk as an uninterrupted run. Where the default text encoding has no arrow character it raises UnicodeEncodeError and leaves an empty file.", "quantifier": "all reachable sources, all previous contents of the disk, all points at which the process is stopped", "why_tests_cant": "The set of crash points and previous disk contents is unbounded; a test stops at a few of them.", "anchors": ["tokamak_neutron_source/mcnp_interface.py:write_mcnp_sdef_source", "tokamak_neutron_source/main.py:TokamakNeutronSource.to_sdef_card"]}
{"id": "C81", "title": "finding the data files", "statement": "get_tns_path(path, subfolder) is <folder of the package>/../subfolder/path if that folder and the one above exist, and ValueError otherwise; cross-section and spectrum files are looked for in the data folder of the package, and a missing one raises ReactivityError or EnergySpectrumError. If the installation path contains the letters egg the requested path is ignored and the library cannot be imported.", "quantifier": "all installation paths, path arguments and file systems", "why_tests_cant": "Tests sample a few inputs; the claim is over an infinite (real- or list-valued) input space.", "anchors": ["tokamak_neutron_source/tools.py:get_tns_path", "tokamak_neutron_source/tools.py:load_citation", "tokamak_neutron_source/reactivity_data.py:ReactionCrossSection", "tokamak_neutron_source/energy_data.py:TTNeutronEnergyDataSpectrum"]}
{"id": "C82", "title": "names of the cross-section files", "statement": "A cross-section file called A_B_C_D.ext is read as A hitting B, with the masses of A and B; other names raise ValueError, IndexError or KeyError. Every channel has one file whose name says the same as its label, and importing the library gives every channel its cross section.", "quantifier": "all file names and file systems, all masses", "why_tests_cant": "Tests sample a few inputs; the claim is over an infinite (real- or list-valued) input space.", "anchors": ["tokamak_neutron_source/reactivity_data.py:ReactionCrossSection"]}
{"id": "C83", "title": "normalisation with rounding", "statement": "In binary64, for a source with numbers of ordinary size and any number of calls of normalise_fusion_power: everything stays finite; calculate_total_fusion_power then returns the last target up to 2 rounding units per cell and channel, whatever order np.sum adds in; every strength and rate is the original one times one common factor up to one rounding unit per call; the stored rates still match the stored strengths and source_rate. The reported power need not equal the target exactly. A source whose strengths are all zero gets NaN everywhere, one without channels raises ZeroDivisionError.", "quantifier": "all sources with energies in [2^-50, 2^-30] J and strengths 0 or in [2^-300, 2^150] /s, all lists of targets in [2^-100, 2^100] W, all orders of summation", "why_tests_cant": "Tests sample a few inputs; the claim is over an infinite (real- or list-valued) input space.", "anchors": ["tokamak_neutron_source/main.py:TokamakNeutronSource.normalise_fusion_power", "tokamak_neutron_source/main.py:TokamakNeutronSource.calculate_total_fusion_power", "tokamak_neutron_source/main.py:TokamakNeutronSource.source_rate"]}
{"id": "C84", "title": "the cells fill the plasma", "statement": "The number of sampled cells times h^2 differs from the area of the boundary by at most h/2 times (the distance the boundary travels in x + c (height + h)), where c is the largest number of edges crossing one height; the sum of the cell volumes differs from the plasma volume by at most pi h/2 (2 X travel + (2 X + h/2) c (height + h)). Both tend to the exact values as h tends to 0, wherever the axis is. For a convex plasma, hence every parameterised one, the bounds are h (width + height + h) and pi h (2 X width + (2 X + h/2)(height + h)). Finitely many exceptional points k (such as corners) of the boundary add k (c + 1) h^2. A boundary drawn twice round is accepted but gives no cells and twice the area; the tip of a notch that points up into the plasma counts as outside although its neighbours on three sides are inside.", "quantifier": "all closed boundaries that go round every point, finitely many left out, at most once, with x >= 0, all cell sizes, all axis positions", "why_tests_cant": "Tests sample a few inputs; the claim is over an infinite (real- or list-valued) input space.", "anchors": ["tokamak_neutron_source/space.py:sample_space_2d", "tokamak_neutron_source/flux.py:ClosedFluxSurface.area", "tokamak_neutron_source/flux.py:ClosedFluxSurface.volume"]}
{"id": "C85", "title": "the totals converge to volume integrals", "statement": "As cell_side_length tends to 0 (wherever the axis is), the sum over the cells of a continuous function times the cell volume tends to its integral over the volume of the plasma; if the function changes by at most L per metre the error is at most a constant times the cell side; for a uniform function it is that value times the reported plasma volume. Hence num_reactions_per_second tends to the volume integral of n1 n2 <sigma v> (halved for like fuels), calculate_total_fusion_power to the integrals times the energies released, source_rate to the integrals times the neutrons; and after normalise_fusion_power the channels tend to the target shared out in proportion to the integrals.", "quantifier": "all simple closed boundaries with x >= 0, all continuous emissions, all axis positions, all sequences of cell sizes", "why_tests_cant": "Tests sample a few inputs; the claim is over an infinite (real- or list-valued) input space.", "anchors": ["tokamak_neutron_source/main.py:TokamakNeutronSource", "tokamak_neutron_source/space.py:sample_space_2d", "tokamak_neutron_source/flux.py:ClosedFluxSurface.volume"]}
{"id": "C86", "title": "reactivity has no jumps", "statement": "reactivity(T, r, method) is a continuous function of T wherever it is defined, for every channel and method: through the ends of the fit's range (0.2 and 100 keV), and for the fit through T = 0, where the library switches to 0; with either method it falls to 0 with the temperature.", "quantifier": "all temperatures, channels and methods, all masses near the true ones", "why_tests_cant": "Tests sample a few inputs; the claim is over an infinite (real- or list-valued) input space.", "anchors": ["tokamak_neutron_source/reactivity.py:reactivity"]}
{"id": "C87", "title": "a smooth plasma has well-defined totals", "statement": "ParabolicProfile, ParabolicPedestalProfile with rho_ped < 1 and DataProfile with distinct radii from the axis to the edge are continuous, with any scale, and so are the profiles of a TransportInformation made from them. If moreover the normalised flux is continuous, the boundary is a simple curve of positive area, and the reactivity is defined at the temperatures (for the fitted channels any up to 100 keV, 0 at the edge included), then every channel's emission has an integral over the plasma, TokamakNeutronSource(...) succeeds for every small enough cell_side_length, and its reactions, fusion power and neutrons per second tend to the integrals.", "quantifier": "all such profiles, scales, flux functions, boundaries, channels and methods, all cell sizes", "why_tests_cant": "Tests sample a few inputs; the claim is over an infinite (real- or list-valued) input space.", "anchors": ["tokamak_neutron_source/profile.py:PlasmaProfile", "tokamak_neutron_source/transport.py:TransportInformation", "tokamak_neutron_source/main.py:TokamakNeutronSource"]}
{"id": "C88", "title": "which boundaries are filled", "statement": "A boundary whose corners, seen from some point, go once round (each step less than half a turn), in either sense and at whatever distances, and a boundary with one side going up and one side inboard of it going down (touching only at corners), in either sense, are simple in the sense of C84 and C85: the cells fill the plasma as they shrink and the totals converge. For the two-sided ones the error of the area is at most h (travel/2 + height + h).", "quantifier": "all star-shaped and all two-sided boundaries, convex or not, all cell sizes and axis positions", "why_tests_cant": "Tests sample a few inputs; the claim is over an infinite (real- or list-valued) input space.", "anchors": ["tokamak_neutron_source/space.py:sample_space_2d", "tokamak_neutron_source/flux.py:ClosedFluxSurface.area", "tokamak_neutron_source/flux.py:ClosedFluxSurface.volume"]}
{"id": "C89", "title": "hotter and denser plasmas", "statement": "With the fitted reactivities (Bosch-Hale), hotter fuel reacts strictly more: D-T up to 66.5 keV, D-D to He3 up to 900 keV, D-D to T up to 343 keV (for D-T not beyond: from 66.7 keV on hotter fuel reacts less). Hence for two sources that differ only in their profiles, the one that is nowhere colder or thinner has at least the strength of the other in every cell and channel, and at least its rates, neutron rate, tritium burn and power; with equal temperatures (0 to 100 keV) this holds for every channel and either reactivity method.", "quantifier": "all pairs of temperatures and of profile sets, all flux maps, channel lists and cell sizes", "why_tests_cant": "Tests sample a few inputs; the claim is over an infinite (real- or list-valued) input space.", "anchors": ["tokamak_neutron_source/reactivity.py:reactivity", "tokamak_neutron_source/reactivity.py:_reactivity_from_xs", "tokamak_neutron_source/main.py:TokamakNeutronSource.__init__"]}
{"id": "C90", "title": "similar plasmas", "statement": "Enlarging a plasma k-fold about a point of the axis and moving it vertically, with the cell size enlarged k-fold and the same profiles against the flux label, gives the same cells enlarged, in the same order, with k^3 times the volume; temperatures, channels and warnings are the same and every strength, rate and the power are k^3 times the original (identical when a total fusion power is requested); errors are the same too. Scaling the lengths among the parameters of a Fausser shape, or of a Sauter shape without squareness, enlarges the boundary, O-point and flux nodes accordingly; with squareness it does not.", "quantifier": "all plasmas, k > 0, vertical shifts, cell sizes, channel lists, methods and powers", "why_tests_cant": "Tests sample a few inputs; the claim is over an infinite (real- or list-valued) input space.", "anchors": ["tokamak_neutron_source/space.py:sample_space_2d", "tokamak_neutron_source/main.py:TokamakNeutronSource.__init__", "tokamak_neutron_source/flux.py:FausserFluxSurface._single_flux_surface", "tokamak_neutron_source/flux.py:SauterFluxSurface._single_flux_surface", "tokamak_neutron_source/flux.py:FluxMap.from_parameterisation"]}
{"id": "C91", "title": "up-down mirrored plasmas", "statement": "If no cell centre lies exactly on the boundary, mirroring the plasma in a horizontal plane mirrors the source: the same mirrored cells with the same volumes and strengths, in some order, and the same rates and power; so an up-down symmetric plasma, in particular every Fausser shape, has an up-down symmetric source. If a row of centres lies on the boundary this fails: the top row is kept and the bottom row dropped.", "quantifier": "all plasmas, mirror planes, cell sizes, channel lists, methods and powers", "why_tests_cant": "Tests sample a few inputs; the claim is over an infinite (real- or list-valued) input space.", "anchors": ["tokamak_neutron_source/space.py:sample_space_2d", "tokamak_neutron_source/main.py:TokamakNeutronSource.__init__", "tokamak_neutron_source/flux.py:FausserFluxSurface._single_flux_surface"]}
{"id": "C92", "title": "how the boundary is listed does not matter", "statement": "The source does not depend on the point its boundary list starts from, nor on additional points along its straight segments, nor (if no cell centre lies exactly on the boundary) on the direction it is listed in: cells, order, strengths, warnings and errors are identical.", "quantifier": "all plasmas, all re-listings of their boundary, cell sizes, channel lists, methods and powers", "why_tests_cant": "Tests sample a few inputs; the claim is over an infinite (real- or list-valued) input space.", "anchors": ["tokamak_neutron_source/space.py:sample_space_2d", "tokamak_neutron_source/main.py:TokamakNeutronSource.__init__"]}
{"id": "C93", "title": "mean and width of the D-T and D-D neutron spectra", "statement": "For an ion temperature up to 40 keV the tabulated, normalised D-T and D-D neutron spectrum has the published mean energy and the published standard deviation: with the modified Gaussian (also the default) both to half a percent of the standard deviation, with the Gaussian the mean exactly and the standard deviation to one part in a thousand. Cutting the spectrum at six standard deviations and tabulating it on 1000 points does no more than that.", "quantifier": "all temperatures in (0, 40] keV, both reactions, all three methods", "why_tests_cant": "Tests sample a few inputs; the claim is over an infinite (real- or list-valued) input space.", "anchors": ["tokamak_neutron_source/energy.py:energy_spectrum", "tokamak_neutron_source/energy.py:BallabioEnergySpectrum"]}
{"id": "C94", "title": "which lines of a cross-section file are used", "statement": "With any number of comment lines before and after, a cross section is interpolated between exactly the rows of its file that are not among the last two lines, converted to centre-of-mass keV and square metres and ordered by energy; a line with another number of columns before the last two lines, or a file without further lines, makes the reading fail with ValueError instead of being left out silently.", "quantifier": "all files of comment lines, rows and malformed lines, all masses", "why_tests_cant": "Tests sample a few inputs; the claim is over an infinite (real- or list-valued) input space.", "anchors": ["tokamak_neutron_source/reactivity_data.py:ReactionCrossSection.__init__"]}
{"id": "C95", "title": "where the sampled cells lie with rounding", "statement": "In the double-precision arithmetic numpy uses, the sampled cells are the points of a rectangular grid that pass the polygon test, x slowest; along each axis the grid points increase, point i is within (i+6) * 2^-50 times the largest coordinate of a multiple of the cell size counted from the O-point, every multiple inside the bounding box of the LCFS has its grid point and none is more than three cells outside; each volume is that of the ring of the cell to six units in the last place. The O-point is in general not exactly a cell centre, although the documentation says so: with a boundary from 4.2 m to 8.2 m, O-point 6.2 m and cells of 0.1 m no centre equals it.", "quantifier": "all boundaries, O-points and cell sizes of ordinary magnitude with the cell size at least a millionth of the largest coordinate, any polygon test, with or without fused multiply-add", "why_tests_cant": "Tests sample a few inputs; the claim is over an infinite (real- or list-valued) input space.", "anchors": ["tokamak_neutron_source/space.py:sample_space_2d"]}
{"id": "C96", "title": "area and volume of a drawn surface", "statement": "A ClosedFluxSurface drawn through n equally spaced parameter values of a smooth closed curve has the area and volume of the region that curve encloses, up to an explicit multiple of 1/(n-1)^2. For FausserFluxSurface these are pi kappa a^2 (1 - q delta^2/8) and 2 pi R area - q' pi^2 kappa a^3 delta/2 with q, q' in [0, 1] depending on delta alone (a = psi minor radius, R = shifted major radius); with delta = 0 the area is exactly pi kappa a^2 sin(h)/h with h = 2 pi/(n-1), the centre of mass is (R, z_0) and the volume is exactly 2 pi R times the area.", "quantifier": "all accepted shapes (and all smooth closed curves), all psi >= 0, all n >= 4", "why_tests_cant": "Tests sample a few inputs; the claim is over an infinite (real- or list-valued) input space.", "anchors": ["tokamak_neutron_source/flux.py:ClosedFluxSurface", "tokamak_neutron_source/flux.py:FausserFluxSurface", "tokamak_neutron_source/flux.py:SauterFluxSurface"]}
{"id": "C97", "title": "resampling keeps area and volume", "statement": "get_flux_surface(psi, n) always succeeds when get_flux_surface(psi) does (closed contour); its area differs from that of get_flux_surface(psi) by at most P^2/(4n), P being the perimeter of the contour, and its volume by at most 2 pi X times that, X being the largest radius on the contour (when the area is larger than P^2/(4n)).", "quantifier": "all closed polylines and all n >= 1", "why_tests_cant": "Tests sample a few inputs; the claim is over an infinite (real- or list-valued) input space.", "anchors": ["tokamak_neutron_source/flux.py:interpolate_flux_surface", "tokamak_neutron_source/flux.py:FluxMap.get_flux_surface"]}
{"id": "C98", "title": "Bosch-Hale reactivity and strengths with rounding", "statement": "In the double-precision arithmetic numpy uses, with a power and an exponential accurate to four units in the last place, the Bosch-Hale reactivity of every temperature from 1 eV to 100 keV differs from the published fit by at most a relative 1e-12 (exactly 0 for temperatures not above 0) whatever order of magnitude it has, and the out-of-range warning is given exactly when a temperature is below 0.2 or above 100 keV, naming the least and greatest temperature. The strength of every cell of a new source is n1 n2/(1+delta) times the published reactivity times the volume to a relative 1e-12 (no overflow, no underflow), and the number of reactions and of neutrons of the channel are the sums of these to a relative 1e-12 + N 2^-52 with N cells.", "quantifier": "all temperatures, densities (0 or 1 to 2^100 per m^3) and volumes (2^-60 to 2^60 m^3) of that range, any number of cells up to 2^40, every power and exponential function of that accuracy, D-T and both D-D reactions", "why_tests_cant": "Tests sample a few inputs; the claim is over an infinite (real- or list-valued) input space.", "anchors": ["tokamak_neutron_source/reactivity.py:_reactivity_channel_bosch_hale", "tokamak_neutron_source/reactivity.py:density_weighted_reactivity", "tokamak_neutron_source/reactivity_data.py:BoschHaleCoefficients", "tokamak_neutron_source/main.py:TokamakNeutronSource.__init__"]}
{"id": "C99", "title": "sources of given profiles and of given power with rounding", "statement": "In double precision, for cells that are cold or between 0.2 and 100 keV, the constructor with any list of D-T and D-D reactions succeeds; every strength, reaction rate and neutron rate, and the fusion power it reports, are those of the published fits to a relative 2e-12 + 2N 2^-52, N being reactions times (cells + 1). When total_fusion_power = P is given, all of them (and source_rate) are the published values times P / (published power) to that accuracy, and the reported fusion power is P to a relative (2N + 4) 2^-52. The out-of-range warning is absent exactly when all temperatures are in 0.2 to 100 keV.", "quantifier": "all temperatures not above 0 or in 0.2 to 100 keV, densities 0 or 1 to 2^80 per m^3, volumes 2^-60 to 2^20 m^3, reaction energies 2^-50 to 2^-30 J, powers 2^-100 to 2^100 W, N up to 2^39, every power and exponential function accurate to four units in the last place, every order of summation", "why_tests_cant": "Tests sample a few inputs; the claim is over an infinite (real- or list-valued) input space.", "anchors": ["tokamak_neutron_source/main.py:TokamakNeutronSource.__init__", "tokamak_neutron_source/main.py:TokamakNeutronSource.normalise_fusion_power", "tokamak_neutron_source/main.py:TokamakNeutronSource.calculate_total_fusion_power", "tokamak_neutron_source/main.py:TokamakNeutronSource.source_rate"]}
{"id": "C100", "title": "OpenMC sources with rounding", "statement": "In double precision, after any number of power normalisations, to_openmc_source gives exactly one ring source for every cell that emits neutrons, in the order of the cells, and none for the others. Its strength is the fraction of all neutrons emitted in that cell to k units in the last place (k = size of the source + reactions + 2 x normalisations + 3) and the strengths sum to 1 to k units. The mixture has one component per reaction emitting there, with that reaction's spectrum at the temperature of the cell, and weights equal to the reaction's share to (reactions + 3) units. The ring has radii 100 (r -+ h/2) and heights 100 (z -+ h/2) cm to a few units of the largest, r_in is never negative, r_in < r_out, z_down < z_up, and the weights of the two radii are proportional to them to 2^-50. All numbers are finite.", "quantifier": "all reactions and strengths of ordinary size (0 or 2^-300 to 2^150 per second), any number of cells up to 2^39 in total, all histories of up to 2^40 normalisations, any energy spectra, cells with h between 2^-20 and 2^20 m, h/2 <= r <= 2^20 h and |z| <= 2^20 h", "why_tests_cant": "Tests sample a few inputs; the claim is over an infinite (real- or list-valued) input space.", "anchors": ["tokamak_neutron_source/openmc_interface.py:make_openmc_full_combined_source", "tokamak_neutron_source/openmc_interface.py:make_openmc_ring_source", "tokamak_neutron_source/main.py:TokamakNeutronSource.to_openmc_source"]}
{"id": "C101", "title": "Plasma profiles with rounding", "statement": "In double precision a profile value is always a finite number (never NaN or infinite). A parabolic profile gives exactly scale times the core value at the centre, exactly 0 from the edge on, never a negative value nor one above the centre value, and elsewhere the textbook value up to 6 units in the last place plus what an error of 5 units inside the outer power becomes; it never rises outwards if the platform's power function keeps order. A pedestal profile is the textbook value up to the corresponding bound, lies between the smallest and the largest of its three values up to 21 roundings, and is exactly the separatrix value from the edge on. A tabulated profile raises ValueError exactly outside the table, gives exactly scale times the tabulated value at a tabulated radius and the straight line up to 21 roundings in between. Arrays are evaluated element by element.", "quantifier": "all finite parameters and radii (any sign, inside or outside [0, 1]), core values and scales of magnitude 2^-90 to 2^90, all positive exponents, tables of any length in any order with radii at least 2^-90 apart, fused or separate multiply-add, and every power function in [0, 1] that is accurate to four units in the last place and exact at 0 and 1 (it may differ between positions of an array)", "why_tests_cant": "Tests sample a few inputs; the claim is over an infinite (real- or list-valued) input space.", "anchors": ["tokamak_neutron_source/profile.py:ParabolicProfile.value", "tokamak_neutron_source/profile.py:ParabolicPedestalProfile.value", "tokamak_neutron_source/profile.py:DataProfile.value", "tokamak_neutron_source/profile.py:PlasmaProfile.set_scale"]}
{"id": "C102", "title": "Areas, centres and volumes of closed surfaces with rounding", "statement": "In double precision a closed flux surface is accepted if its ends agree to 1e-12 in both coordinates and rejected otherwise (rounding decides only in a band of relative width 2^-50). The enclosed area is finite and within 4 n^2 C^2 / 2^53 of the boundary integral, for n points with coordinates up to C. If the area is large against what rounding and the gap between the ends leave undetermined (slack = C (n^2 C / 2^53 + 1.1e-12)), the orientation is recognised correctly, and centre of mass and volume are those of the polygon up to a small multiple of C slack / A and C slack. For thinner surfaces this fails: there is a triangle away from the axis that is given a negative volume.", "quantifier": "all accepted surfaces of up to 2^20 finite points with coordinates up to C, 2^-50 <= C <= 2^50, in either orientation, and scalar products computed in any order and grouping with or without fused operations", "why_tests_cant": "Tests sample a few inputs; the claim is over an infinite (real- or list-valued) input space.", "anchors": ["tokamak_neutron_source/tools.py:check_ccw", "tokamak_neutron_source/tools.py:get_area_2d", "tokamak_neutron_source/tools.py:get_centroid_2d", "tokamak_neutron_source/flux.py:is_closed", "tokamak_neutron_source/flux.py:ClosedFluxSurface.volume"]}
{"id": "C103", "title": "Neutron energy spectra with rounding", "statement": "In double precision preparing an energy table cuts leading and trailing zeros and divides by the trapezoid integral: for a table of n rows of ordinary size the result is finite and non-negative, every density is within n + 4 units in the last place of the exactly normalised one and the integral within n + 4 units of 1; the error is raised exactly for all-zero tables; a table with a single non-zero density yields infinity or NaN. Between 1 eV and 40 keV the mean energy and standard deviation of D-T and D-D neutrons are within 5 and 12 roundings (2^-53) of the published formulas, and the spectra have 1000 strictly increasing positive energies within 53 roundings (of the mean) of the exact grid, finite positive densities within a relative error of 10200 k / 2^53 (Gaussian) or (340 k^2 + 11200 k) / 2^53 (modified Gaussian and AUTO), k = mean / sigma <= 8192, of the exactly normalised shape, and an integral within 1020 roundings of 1.", "quantifier": "all tables of ordinary size with zeros around them; all binary64 temperatures from 1 eV to 40 keV, both reactions, all methods, power and exponential functions within 4 ulp, sums in any order", "why_tests_cant": "Tests sample a few inputs; the claim is over an infinite (real- or list-valued) input space.", "anchors": ["tokamak_neutron_source/energy.py:energy_spectrum", "tokamak_neutron_source/energy.py:_prepare_energy_pdf", "tokamak_neutron_source/energy.py:_trim_zero_mask", "tokamak_neutron_source/energy.py:_gaussian_energy_spectrum", "tokamak_neutron_source/energy.py:_modified_gaussian_energy_spectrum", "tokamak_neutron_source/energy_data.py:BallabioEnergySpectrum.mean_energy", "tokamak_neutron_source/energy_data.py:BallabioEnergySpectrum.std_deviation"]}
{"id": "C104", "title": "MCNP SDEF files with rounding", "statement": "In double precision writing the SDEF files succeeds and every neutronic channel gets a file with exactly the expected cards: one histogram bin per radius and, for each column, its cells with exactly the given strengths (five decimals); every bin boundary reads within 5 parts in 10^6 (plus 10^-12 of the size of the cell's coordinates) of the cell's edge in cm, the column totals within 6 parts in 10^6, and the temperature of the built-in spectrum and the total rate within one part in 10^6 of the strength-weighted mean temperature and the sum; the T-T table is the one of a temperature within one part in 10^6 of that mean. The mean temperature is within one part in 10^7 of the exact one and so between the coldest and hottest cell. This needs radii that differ by more than rounding: two neighbouring doubles can have the same value in cm, and their columns are merged into one. The cells that the library itself samples inside a boundary of ordinary size meet these conditions, if none is at the axis.", "quantifier": "all grids of up to 10^8 cells listed by radius (radii 0 or between 2^-100 and 2^100, different radii apart by a relative 2^-40, any heights up to 2^100), all strengths 0 or between 2^-300 and 2^150, temperatures between 2^-50 and 2^50 keV, any unit factors right to 2^-50, any order of summation in np.sum, every citation, stub and T-T table", "why_tests_cant": "Tests sample a few inputs; the claim is over an infinite (real- or list-valued) input space.", "anchors": ["tokamak_neutron_source/mcnp_interface.py:write_mcnp_sdef_source", "tokamak_neutron_source/mcnp_interface.py:_si_sp_vertical_dist_cards", "tokamak_neutron_source/mcnp_interface.py:sdef_header", "tokamak_neutron_source/mcnp_interface.py:mean_ion_temp"]}
{"id": "C105", "title": "what MCNP samples from SDEF files, with rounding", "statement": "MCNP's reading of an SDEF file written in double precision is well defined and gives one ring-shaped region per cell: its bounds are within 5 parts in 10^6, and 10^-12 of the size of the plasma, of the cell's column and height bins in cm, and its probability is within 2.3e-5 (relative) of the cell's share of the channel's strength. If neighbouring centres are a side apart up to eta, the bins are the cells up to 101 eta. For a plasma without gaps (for example a convex one) sampled by the library itself this holds with eta below (2 n + 11) M / 2^50, n grid lines, M the size of the plasma. The column totals on the cards are right to 6 parts in 10^6, the strengths to 5.", "quantifier": "all grids, strengths, temperatures, unit factors, orders of summation, citations, stubs and T-T tables as in C104, with all cells within any distance D of the origin in each direction; every channel that makes neutrons", "why_tests_cant": "Tests sample a few inputs; the claim is over an infinite (real- or list-valued) input space.", "anchors": ["tokamak_neutron_source/mcnp_interface.py:write_mcnp_sdef_source", "tokamak_neutron_source/mcnp_interface.py:_si_sp_vertical_dist_cards", "tokamak_neutron_source/mcnp_interface.py:sdef_header"]}
{"id": "C106", "title": "T-T neutron spectrum with rounding", "statement": "At every temperature that is a number (infinities included) the T-T spectrum computed in double precision from the shipped file exists: 500 increasing finite energies, each within 11 units of 2^-53 (relative) of the file's, and positive densities, each within 12000 units of 2^-53 (1.4e-12) of the file's table, linearly interpolated and normalised, at a temperature within 256 units of 2^-53 keV of the given one limited to 1-20 keV; its integral is 1 up to 512 units. Outside the table it is exactly the spectrum at the end; NaN is an error. All methods give this spectrum for T-T. So SDEF files with T-T sources can be written.", "quantifier": "all temperatures (finite, infinite, NaN), all unit factors near 1000 and 1/1000, all orders of summation, all methods", "why_tests_cant": "Tests sample a few inputs; the claim is over an infinite (real- or list-valued) input space.", "anchors": ["tokamak_neutron_source/energy_data.py:TTNeutronEnergyDataSpectrum", "tokamak_neutron_source/energy.py:_data_spectrum", "tokamak_neutron_source/energy.py:energy_spectrum"]}
{"id": "C107", "title": "Cross-section reactivity with rounding", "statement": "The reactivity computed from a cross section in double precision is, for every temperature between 4 keV and 1000 keV, a positive finite number within 31000 units of 2^-53 (3.5e-12) of the Maxwell average of the cross section, by the trapezoidal rule on 1000 energies log-spaced from 1 keV to 1000 keV, of the cross sections the interpolation gives at those energies. The energies themselves are accurate to 47 units. The result has one number for each temperature; an energy outside the table is a ValueError whatever the temperatures.", "quantifier": "all lists of temperatures from 4 keV to 1000 keV, all tables whose interpolated cross sections lie between 2^-150 and 2^-90 m^2, all reduced masses between 2^-90 and 2^-88 kg, all libraries whose power and exp are accurate to four units in the last place, all orders of summation", "why_tests_cant": "Tests sample a few inputs; the claim is over an infinite (real- or list-valued) input space.", "anchors": ["tokamak_neutron_source/reactivity.py:_reactivity_from_xs", "tokamak_neutron_source/reactivity_data.py:ReactionCrossSection"]}
