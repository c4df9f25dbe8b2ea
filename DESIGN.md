# Formal model of tokamak-neutron-source in Rocq (Coq 8.16.1)

## What is modelled

One model file per source file, function by function, branch by branch; exceptions are values.
Numbers are modelled as exact real numbers (Coq `R`), arrays as lists, dictionaries as association
lists in insertion order, enum members as constructors, strings as UTF-8 byte strings.
`res A := Ok a | Err exn | NonFinite`: `Err` is a raised Python exception, `NonFinite` stands for
"numpy carries on with inf/nan" (division by zero, root of a negative number). Every division, root and
power in the model that can hit such a case goes through a guarded operation, so no theorem holds
because of Coq's totalised `x/0`.

| file | models |
|---|---|
| `Base.v` | result type, Python/numpy list helpers (sum, slice, linspace, clip, argmin, sort ...) |
| `Reactions.v` | reactions.py, `main._parse_source_type`, fusion energies of constants.py |
| `Profile.v` | profile.py |
| `Transport.v` | transport.py, `tools.load_jsp` |
| `Space.v` | space.py |
| `Geometry.v` | tools.py `check_ccw`, `get_area_2d`, `get_centroid_2d` |
| `Flux.v` | flux.py (validation, parameterisations, normalisation, contour choice, resampling, maps), `tools.load_eqdsk` |
| `Energy.v` | energy.py, energy_data.py |
| `Reactivity.v`, `XsData.v` | reactivity.py, reactivity_data.py and the shipped cross-section tables |
| `Source.v` | main.py `TokamakNeutronSource` |
| `OpenMC.v` | openmc_interface.py |
| `Error.v` | error.py (with Python's textwrap.dedent and fill) |
| `Units.v` | constants.py `TNSUnitRegistry` (contexts), `raw_uc`, `units_compatible` |
| `TextWrap.v`, `Format.v`, `Mcnp.v` | mcnp_interface.py (with Python's textwrap and `.5e` formatting) |
| `McnpIO.v` | mcnp_interface.py `write_mcnp_sdef_source`, main.py `to_sdef_card`: the file operations in their order |
| `Paths.v` | tools.py `get_tns_path`, the file of `load_citation`; reactivity_data.py and energy_data.py: finding data files, file names, import |
| `LogFilter.v` | tools.py `WarningFilter` |
| `FloatComp.v` | transport.py fuel fractions in IEEE binary64 (Flocq's executable `binary_float 53 1024`) |
| `FloatSource.v` | main.py rates, `calculate_total_fusion_power`, `normalise_fusion_power`, `source_rate` in IEEE binary64, strengths given; np.sum is any order of additions |
| `FloatSpace.v` | space.py `sample_space_2d` in IEEE binary64: numpy's min, max, remainder (exact fmod), arange (with or without fused multiply-add), volumes; the polygon test and the C library's h**2 are parameters |
| `FloatReactivity.v` | reactivity.py `_reactivity_channel_bosch_hale`, `density_weighted_reactivity`, the coefficients of reactivity_data.py and the strengths of main.py `__init__` in IEEE binary64; power and exp of numpy and Python are parameters of bounded error; cross-section integrals are in `FloatXs.v` |
| `FloatMain.v` | main.py `__init__` (the loop over the reactions and the normalisation) in IEEE binary64, built from `FloatReactivity.v` and `FloatSource.v`; the order of np.sum is arbitrary and the reaction energies are parameters |
| `FloatOpenMC.v` | openmc_interface.py `make_openmc_ring_source`, `make_openmc_full_combined_source` in IEEE binary64; the energy distribution is any function of reaction and temperature (modelled, with its errors and warnings, in `OpenMC.v`) |
| `FloatProfile.v` | profile.py (all three profiles, constructors, set_scale, clipping, scipy's linear interp1d through np.interp) in IEEE binary64; the power function is any function with `power_of_unit` (SpecFloatProfile.v) |
| `FloatGeometry.v` | tools.py:214-296 `check_ccw`, `get_area_2d`, `get_centroid_2d`, flux.py:42-94 `is_closed`, `ClosedFluxSurface` in IEEE binary64; np.dot (BLAS) is an oracle: any order and grouping, with or without fused operations |
| `FloatEnergy.v` | energy.py:32-265 except the T-T table (`FloatTT.v`), energy_data.py:82-196 in IEEE binary64; np.linspace and np.trapezoid as numpy computes them; power, exp and the order of np.sum are parameters |
| `FloatTT.v` | energy_data.py:27-76, energy.py:32-110 in IEEE binary64: the T-T table as numpy reads it (each literal rounded to nearest), scipy's RegularGridInterpolator (linear, two dimensions) operation by operation, the dispatch of `energy_spectrum`; the unit factors are parameters of bounded error |
| `FloatXs.v` | reactivity.py:234-265 in IEEE binary64: np.logspace, the Maxwell factor, the trapezoidal rule; power, exp and the order of np.sum are parameters; the interpolation is that of `FloatProfile.v`; reading and scaling the cross section files is not modelled in binary64 |
| `FloatMcnp.v` | mcnp_interface.py:23-241 in IEEE binary64 (unit factors, the order of np.sum and the T-T table are parameters; text wrapping, names and layout are those of `Mcnp.v`) |

`Spec*.v` hold the independent specifications (written from the English property, not from the code),
`*Proofs.v`, `DShape.v`, `ConvexFlux.v`, `FloatCompAcc.v`, `TTRange.v` the lemmas, and `P_*.v` the property theorems
(`Cxx_...`), each followed by `Print Assumptions`, beside an `Example` that meets the hypotheses. `XsData.v` and
`SpectraData.v` are the data files shipped with the library, transcribed by `tools/mkxs.py` and `tools/mkspec.py`.

## What is not modelled (oracles / trusted)

* Rounding: all real-valued theorems are about exact arithmetic. Exceptions: C24, C83, C95 and C98 to C107 are about binary64, and C60/C68 account
  for the rounding of printing (exact reals printed with `.5e`/`.6e` and read back).
* Parts left out of the model: everything that draws (`plot*` methods except the channel selection of
  `TokamakNeutronSource.plot`, which is C12); the values of the physical constants (from pint and periodictable: they are the
  parameters `masses`, `units`) and pint's reading of unit strings (a parameter of `Units.v`; units with offsets such as degC are not modelled);
  reading of EQDSK and JETTO binary files (`tools.load_eqdsk` and `load_jsp` are modelled from the decoded record on);
  reading of CITATION.cff by yaml (the citation is a parameter of the MCNP model); Windows paths; logging set-up (`WarningFilter` is modelled); abstract base classes and protocols.
* Third-party code used by modelled functions is a universally quantified function parameter; any property assumed of one is
  an explicit hypothesis, with a witness satisfying it: contourpy contours, scipy's
  `RectBivariateSpline` and `CloughTocher2DInterpolator` (in C74: any total function), OpenMC's constructors.
  matplotlib's `Path.contains_points` is a parameter in C28-C31 and its published crossing-number algorithm (`mpl_inside`, `Space.v`) in
  C29, C70-C74. `scipy.interpolate.interp1d`, `np.interp`, `np.trapezoid`, `np.linspace`, `np.sort`, `np.argmin`, `np.clip`,
  Python's `textwrap` and `%e` formatting are modelled (simplifications are said in the comment of each definition).
  The textwrap model was compared with Python 3.12's textwrap on 700 random texts (chunks, wrapped lines, dedent, fill): no difference.
* OpenMC's and MCNP's own behaviour, except the rules stated in the specs: OpenMC's normalisation of a
  `Tabular` density (SpecOpenMC.v), MCNP's continuation-line rule (SpecText.v) and the meaning of SDEF/SI/SP/DS cards (SpecSdef.v).

## Trusted base

Coq's kernel (8.16.1); the statement of the theorems and of the `Spec*.v` files; the faithfulness of the model to the cited
lines; the transcription of the data files. No axioms of our own, no functors, no module types, no plugins. The libraries
used are Coq's standard library, Flocq (binary64 format and rounding lemmas) and Coquelicot (lemmas on Riemann integrals and
derivatives). `Print Assumptions` lists only axioms of the standard library:

* `ClassicalDedekindReals.sig_forall_dec`, `ClassicalDedekindReals.sig_not_dec`, `FunctionalExtensionality.functional_extensionality_dep`:
  the standard construction of the reals;
* `Classical_Prop.classic`: excluded middle, through the standard library's analysis, Flocq and Coquelicot.

The list per theorem is at the end of this file (`tools/axioms.py` regenerates it).

## Plan per property

* C01-C03 `Reactions.v`: inputs as an inductive type; result characterised by membership + strict order (which determines it uniquely).
* C04 labels parsed into nuclides by a small spec parser; finite check over the five members, lifted to all.
* C05 masses universally quantified; linear arithmetic over R.
* C06-C11 `Source.v`: constructor and `normalise` as a state machine; invariant by induction over call histories; refinement to "initial source times P_last/P_first".
* C12 selection logic of `plot` (drawing itself not modelled).
* C13 decision table vs. label reactants; algebra.
* C14, C15 real-analytic positivity of the fit with the shipped coefficients vs. a spec in the paper's form.
* C16 trapezoid sums over the 1000-point log grid; shipped tables imported as decimal literals, range and sign facts by computation, lifted.
* C17 decision table.
* C18-C21 case analysis and monotonicity of powers; C22 linear interpolation on sorted tables.
* C23 field arithmetic; C24 SpecFloat/Flocq binary64, witness by computation, bounds via Flocq rounding lemmas.
* C25 algebra; C26 heap model of profile objects with aliasing, induction over later calls; C27 list model with index arithmetic.
* C28-C31 lattice arithmetic with floor/ceil; order by induction on the grid.
* C32, C33 iff characterisations. C34-C36 telescoping sums over vertex lists; C36 against Coquelicot/Riemann integrals along edges.
* C37-C39 trigonometry with exact reals; C40, C41 algebra + idempotence; C42 list bookkeeping; C43 argmin; C44 arc-length interpolation.
* C45, C46 trapezoid sums and masks; C47, C48 bounds on the Ballabio fits; C49 decision table; C50 interpolation in temperature.
* C51-C54 sums over rings with zero-emission rings dropped.
* C55, C56 full model of textwrap (tab expansion, the word separator regular expression, chunk wrapping) and a reader implementing MCNP's continuation rule. C57-C59 runs of equal radius vs. filter by radius. C60 decimal formatting over R with a reader. C61-C63 header and file set.
* C64 state machine of filters and log records, induction over records.
* C65, C66 algebra on the ring mixtures; scale invariance of the whole conversion.
* C67, C68 whole files: text written by the model, split into lines and cards by an independent reader, compared with the expected deck; sampling semantics of the deck.
* C69-C73 the unit D-curve `(cos(t + asin(delta) sin t), sin t)` is shown to turn left at every triple of sample angles (slopes of chords, for every
  triangularity in [-1, 1]); convexity of placed and scaled copies; the crossing test on convex polygons; nesting by half planes; areas and volumes by the affine laws of C34, C36.
* C74 composition of C06, C08, C14, C16, C25, C28-C31, C37, C51, C54, C59, C67, C70, C71 into one statement about the public constructor.
* C77-C79 units as scale and dimension vector, contexts as a list of transformations searched as pint does; a relational spec (same amount) determines the result; the factors used by the other models are shown to be the registry's.
* C80 the file operations (open, write, close) as a trace; a small disk semantics where a crash keeps any first part of the open file; induction over the channels, split of the trace at any point. A process stop only: what a power failure does to closed files (no fsync) is outside.
* C81, C82 POSIX path names as text, an inductive relation between a text and the names on it as specification; the file system is a parameter.
* C83 binary64 by Flocq; relative error as a factor (1-2^-53)^-n that multiplies along products, quotients and sums of non-negative numbers; sums in any order by an inductive relation; an invariant over the calls keeps all numbers away from under- and overflow.
* C84 row by row: each row of cells telescopes to the antiderivative at its ends, and the sum over rows is compared with the boundary integral edge by edge (a potential that is continuous at the rows); winding numbers, crossings and simple curves are inductive definitions in SpecGrid.v; signs from the limit h -> 0; convex polygons by uniqueness of the edge going up and down.
* C85 the row argument of C84 with the weight 2 pi x f(x, z): the cells of a row against the integral along the row (uniform continuity), rows against the boundary integral of the inner integral (Green); existence, uniqueness and the case of a Lipschitz f; Riemann integrals by Coquelicot.
* C86 the fit is a composition of differentiable functions away from its pole; at T = 0 an explicit bound by 1/xi, xi the Gamow exponent; the cross-section integral is a finite sum of continuous terms, each at most a constant times the root of T.
* C87 composition: powers, clamps and straight lines through a table are continuous (the last Lipschitz, by induction over the table); clamped radii make every profile uniformly continuous (Heine); C86 for the reactivity; then C85, with C84 for the existence of cells.
* C88 star-shaped: the boundary is cut into triangles with the common corner c, the winding number is the sum of theirs (ww_back), and a point off the spokes lies in one sector; other points are compared with points beside them (limits along a parabola); two-sided: counting up and down edges.
* C89 the derivative of the fit is, up to positive factors, an integer polynomial in the scaled temperature; its sign on an interval is decided by a checker (map the interval to [0, inf) and look at the signs of the coefficients) that is proved correct in PolyPos.v and run by the kernel; then cell by cell through C06.
* C90-C92 a general lemma: a bijection that carries one lattice to another and the polygon test with it carries the sampled cells (as a list if it keeps their order, else as a permutation); the crossing test under scaling, mirroring, rotation, reversal and refinement of the boundary list; strengths through C06 and normalisation.
* C93 the spectra in units of their width: closed antiderivatives of x f(x) and (x^2 - 1) f(x) for the modified Gaussian f, the error of the trapezoid rule by the mean value theorem (three times), bounds on the second derivatives and on the normalisation.
* C94 the numbering of the malformed lines by np.genfromtxt: split the lines at the footer and count rows and malformed lines on both sides.
* C95 binary64 by Flocq; absolute rounding errors against the largest coordinate M, so that all steps of one axis are linear inequalities in M, h, 2^-53 M, i h and i 2^-53 M; fmod and ceil by integer arithmetic; PI to 16 digits from the standard library's series; the exact claim refuted by computing one axis.
* C96 panel by panel: the chord's contribution minus the curve's is an integral of two products of small factors (interpolation error of the chord, change of z' over the panel), each O(h^3); the integrals of the D shape by antiderivatives, by the symmetry t -> pi - t (functions of sin t times cos t integrate to 0) and by 1 - x^2/2 <= cos x, 0 <= y sin(k y) <= k y^2.
* C97 cutting a polyline at the resampled points; a piece of length s and its chord enclose at most s^2/4 (fan of triangles about its first point).
* C98 relative errors as powers of 1 + 2^-53 counted through the formula; every intermediate is kept between explicit powers of two, so nothing under- or overflows; subtractions have operands with a bounded ratio; the exponential multiplies the error of its argument by at most 8300 such factors.
* C99 the accuracy of C98 put through the normalisation of C83: the published strengths lie between explicit powers of two, so the rounded sums and the scaling stay in range; error factors are counted.
* C100 the errors of the stored rates (C83) put through the division by the source rate; multiplication by the neutron number and halving the side are exact; sums over cells and reactions are exchanged exactly.
* C101 rounding errors of each operation on the scale of the largest value; the two powers by the Hoelder bound |a^p - b^p| <= max(1,p) |a-b|^min(1,p) on [0, 1]; the table by induction over the sorted rows.
* C102 rounding errors of each operation against C, C^2, C^3; induction over the loops and over the ways to compute a scalar product; the exact sums are the boundary integrals (C34-C36). The refutation computes a thin triangle.
* C103 relative errors as exponents r: x and y agree up to exp(r 2^-53), a calculus of r through products, quotients, sums, square roots, powers and exp (the exponent's absolute error, bounded by the grid's error against sigma, times mean / sigma); absolute errors against the mean for the grid; the common factor (norm) cancels in the normalisation.
* C104 the layout of C67 (text wrapping, cards, reading back) with doubles for numbers; columns in metres and in cm are the same because different radii stay different; error factors of the sums, the mean and the unit change; what five or six decimals cut off comes from C60. The refutation exhibits two neighbouring doubles with equal products with 100. `C104_sampled_cells` composes it with C95: sampled radii are at least half a cell apart.
* C105 C68's reading of the cards (lookup, histograms, dependent distributions), applied to the cards that C104 proves; the error of a probability is that of two totals and two strengths. `C105_sampled_plasma` composes it with C95: on a sampled grid without gaps neighbouring cells are adjacent grid points, because anything between them would have been listed; a convex plasma has no gaps (`C105_convex_no_gaps`).
* C106 the grid points of np.linspace to one rounding, the scaled rows to a few; scipy's interval search by induction; near a grid point the wrong column may be chosen, which moves the temperature by at most 2^8 roundings since both interpolants agree there; error exponents through the four products, their sums and the normalisation (C103's lemma for any table).
* C107 each grid energy to 47 roundings from the accuracy of the power function; differences of neighbouring energies, 0.6 % of their size, to 16221; exp at an argument of up to 250 to 12400; factors by composition; the trapezoidal sum by the lemma of C103. The reference is the trapezoidal rule of C16 at exact energies, with the doubles the interpolation returned as cross sections; below 4 keV exp may underflow at the upper end of the grid, which the theorem leaves out.
* C75, C76 induction over the rounds of the wrapping loop (any chunks), over the characters of a line, and over the lines of a message for dedent.

Properties whose documented form is false of the code are stated as what the code does, and the
documented form is refuted in a theorem ending in `_refuted`. All 107 properties are expressed and proved; none is partial.

## Findings

Behaviour of the code that the proofs brought to light (theorem in brackets).

Source and reactivities
* A cell size that leaves no cell makes Bosch-Hale channels raise `ValueError` from `np.min` (C06_no_cells_rejected).
* With rounding no cell centre need lie exactly on the O-point, contrary to the docstring of `sample_space_2d` (C95_centre_on_O_point_refuted); it is missed by a few 1e-15 of the coordinates.
* With rounding the reported power after `normalise_fusion_power` may differ from the target in the last place (C83_exact_power_refuted); a source with zero strength becomes NaN (C83_zero_source).
* Normalising to 0 W is final: any later normalisation gives NaN (C11_zero_target_is_final).
* The D(d,n)He3 Bosch-Hale fit is not finite for 966 <= T <= 2716 keV (C15_ddn_nonfinite_refuted).
* The D-T fit has its maximum between 66.5 and 66.7 keV: from there on, within its published range, hotter fuel reacts less (C89_hotter_yields_less_refuted).
* Cross-section reactivities are NaN for T <= 0 while Bosch-Hale gives 0 (C16_zero_temperature).
* `genfromtxt(skip_footer=2)` drops a data row as well as the "//" line of each cross-section file (C16_cross_section_reactivity: all rows but the last).

* The tabulated T-T neutron energy neglects the recoil of the intermediate 5He: 0.18 MeV per neutron too low for the documented sequential model (C05_tt_recoil_refuted).

Installation
* If the path of the installation contains "egg" (as in /home/reggie), `get_tns_path` returns /tokamak_neutron_source whatever is asked for, and the library cannot be imported (C81_egg_refuted).
* `get_tns_path` and the readers of data files take an absolute path as it is, so the result is outside the package; a cross section file cannot be given that way because its species would start with the slash (C81_absolute_refuted).
* matplotlib's rule puts the tip of a notch that points up into the plasma outside, though the points left, right and above it are inside (C84_notch_refuted); the bounds of C84 count such corners.
* An up-down symmetric plasma can get an asymmetric source: a row of cell centres exactly on the top edge is kept, one on the bottom edge is dropped (C91_boundary_refuted).
* A boundary drawn twice round passes `ClosedFluxSurface`, has twice the area and volume, and no sampled cell (C84_twice_round_refuted).

Profiles and transport
* Fuel fractions in binary64 need not sum to 1 (C24_sums_to_one_refuted); fractions whose sum overflows are all stored as 0 (C24_overflow_refuted).

Flux
* A degenerate surface has centroid (0, 0) wherever it is (C35_degenerate_surface).
* Sauter ignores the Shafranov shift that the map's O-point includes, and its squareness term sits outside the cosine, unscaled by the minor radius: the innermost
  surface is not the axis (C38_axis_refuted_by_*), squareness > 2a gives a non-convex boundary (C69_squareness_refuted), and doubling a plasma's size does not double its shape (C90_squareness_refuted).
* Shifts in (a/2, a) are accepted although inner surfaces then stick out of outer ones (C39_large_shift_refuted).
* With the SQRT convention surface r is labelled sqrt r (C42_sqrt_label_refuted); a flat flux gives NaN (C40_flat_flux_not_finite).
* With n_points = 4 and delta = -1 the magnetic axis is outside the LCFS polygon and coarse grids are empty (C70_four_points_refuted).
* The polygon test drops the cells centred on the lowest level of the boundary (C70_convex_sampling).

Spectra
* A spectrum with a single non-zero sample cannot be normalised (C46_single_sample_not_finite); D-D modified Gaussian not finite at 256 keV (C48_256_keV_refuted), and
  not finite at T = 0 (C48_cold_not_finite); `energy_spectrum` returns None for aneutronic channels with AUTO (C49).

OpenMC
* A source without channels raises `ZeroDivisionError`; a cell with r < side/2 gets a negative tabulated probability (C53).
* Tabulated densities are per keV over energies in eV, so they integrate to 1000: in a BALLABIO_GAUSSIAN mixture T-T is weighted 1000 times too high (C65_gaussian_mixture_refuted).

MCNP
* Gaps between cells widen bins (C59_gap_widens_bin); unsorted cells give wrong cross references (C58_unsorted_refuted); no cells raise (C58_no_cells_refuted).
* The header total of a T-T file is half its neutrons (C61_total_is_rate_T_T_half); the T-T SI2/SP2 histogram starts with a bin [0, 0.001 MeV] of a different width.
* Wrapped lines reach 86 columns, docstring says 80 (C56_documented_bound_refuted); words longer than a line are split (C55_long_word_refuted), hyphenated words may be (C55_hyphenated_word_refuted, C75_hyphen_refuted).
* Files are opened without an encoding: where the default one has no arrow (cp1252) `to_sdef_card` raises `UnicodeEncodeError` and leaves an empty file (C80_encoding_refuted).
* `str(TNSError())` raises IndexError (C75_no_message_refuted).
* Zero strength writes "nan" on the card (D-T, D-D; C62_zero_strength_nan_refuted) or raises (T-T; C62_zero_strength_refuted).
* An empty author list in the citation would write a blank line, which ends the MCNP block (hence the hypothesis `proper_citation`).

Logging
* Re-entering the same `WarningFilter` object removes the filter for the rest of the outer block (C64_reentered_object_refuted).

## Tests against wrong programs

`tools/mut.py` edits the model in a scratch copy, rebuilds with failing proofs replaced, and records which theorems fail; one line per
attempt in `seeded/LOG.jsonl`.

## Axioms per theorem

* none (closed under the global context) -- 33 theorems:
  C75_message_printed, C75_words_kept, C75_short_message, C75_no_message_refuted, C75_hyphen_refuted, C76_indentation, C83_no_channel, C64_inside_block, C64_exactly_once, C64_nothing_filtered_afterwards, C64_sequence_filter, C64_reentered_object_refuted, C81_location, C81_data_files, C82_labels, C01_source_type_canonical, C02_same_set_same_source, C02_idempotent, C03_reaction_names, C03_other_strings_rejected, C03_no_string_is_aneutronic_DD, C04_reaction_table, C12_plot_selection, C55_card_survives_wrapping, C55_file_of_cards, C55_small_indent_rejected, C55_long_word_refuted, C55_hyphenated_word_refuted, C55_any_text, C55_rejected, C56_any_text, C56_line_lengths, C56_documented_bound_refuted
* `ClassicalDedekindReals.sig_forall_dec` -- 1 theorems:
  C26_caller_objects_unchanged
* `ClassicalDedekindReals.sig_forall_dec`, `FunctionalExtensionality.functional_extensionality_dep` -- 53 theorems:
  C45_prepared_is_normalised, C45_always_normalisable, C46_trimming, C46_error_iff_all_zero, C46_single_sample_not_finite, C50_units, C105_convex_no_gaps, C32_lcfs_validation, C39_nested, C39_large_shift_refuted, C33_closed_surfaces_only, C34_affine, C34_orientation_and_start, C35_orientation, C35_moves_with_polygon, C35_in_convex_hull, C35_in_bounding_box, C35_degenerate_surface, C84_notch_refuted, C59_contiguous_bins, C59_gap_widens_bin, C62_between_emitting_cells, C62_unchanged_by_normalisation, C62_isothermal, C62_finite_iff_strength, C62_lengths_must_agree, C58_unsorted_refuted, C53_uniform_per_volume, C81_egg_refuted, C81_absolute_refuted, C82_file_name, C82_bad_file_name, C82_import, C22_bad_arrays_rejected, C05_energy_cycle, C05_energy_is_mass_defect, C05_energy_positive, C05_neutron_energy_share, C05_momentum, C05_tt_neutron, C05_neutron_energies, C05_tt_recoil_refuted, C94_rows_used, C94_bad_line, C29_crossing_test_stays_in_box, C88_two_sided, C23_renormalised, C23_idempotent, C23_zero_sum_rejected, C27_frame_data, C27_bad_frames, C77_unknown_unit, C78_unknown_unit
* `ClassicalDedekindReals.sig_forall_dec`, `ClassicalDedekindReals.sig_not_dec`, `FunctionalExtensionality.functional_extensionality_dep` -- 55 theorems:
  C69_squareness_refuted, C70_convex_sampling, C37_surface_points, C37_no_points_rejected, C37_axis_is_o_point, C37_bounds, C37_up_down_symmetric, C38_surface_points, C38_agrees_with_fausser, C38_axis_refuted_by_shift, C38_axis_refuted_by_squareness, C39_midplane_points, C39_ellipses_nested, C40_elementwise, C40_flat_flux_not_finite, C40_normalisation, C40_affine_invariant, C41_sign_convention, C41_any_cocos, C42_nodes_and_labels, C42_no_positive_radius_rejected, C42_get_surface_linear, C42_sqrt_label_refuted, C43_axis_and_clamping, C43_nearest_contour, C43_lists_and_volume, C44_equally_spaced, C44_rejected, C36_shifts_and_orientation, C36_axis_ring, C84_area, C84_volume, C84_converges, C84_convex, C84_twice_round_refuted, C85_integral_exists, C85_cells_converge, C85_first_order, C85_uniform, C59_bins_cover_cells, C59_no_gaps, C53_axis_cell_negative, C97_resampled, C97_flux_map, C28_distinct_lattice_cells_inside, C28_total, C29_no_cell_missed, C29_o_point_sampled, C29_shift_invariance, C30_sampling_order, C31_ring_volumes, C31_disjoint_interiors, C88_two_sided_error, C90_parameterised, C90_squareness_refuted
* `ClassicalDedekindReals.sig_forall_dec`, `Classical_Prop.classic`, `FunctionalExtensionality.functional_extensionality_dep` -- 8 theorems:
  C77_conversion, C77_round_trip, C77_composition, C77_one_factor, C78_compatible_iff_convertible, C78_equivalence, C79_library_conversions, C79_models_agree
* `ClassicalDedekindReals.sig_forall_dec`, `ClassicalDedekindReals.sig_not_dec`, `Classical_Prop.classic`, `FunctionalExtensionality.functional_extensionality_dep` -- 202 theorems:
  C69_fausser_convex, C69_sauter_convex, C69_area_centroid_volume, C70_axis_inside, C70_axis_inside_sauter, C70_four_points_refuted, C72_surfaces_nested, C73_area_volume_law, C73_volume_increases, C71_no_gaps, C96_any_curve, C96_fausser, C96_sauter, C96_ellipse, C74_parameterised_source, C74_mcnp_files, C45_energy_spectrum_normalised, C47_gaussian, C47_symmetric, C48_modified_gaussian, C48_peak, C48_too_hot_not_finite, C48_256_keV_refuted, C48_cold_not_finite, C49_dispatch, C50_interpolated_table, C50_every_temperature, C103_normalised, C103_error_iff_all_zero, C103_single_sample_refuted, C103_mean_and_width, C103_gaussian, C103_modified_gaussian, C103_data_refused, C102_closed_surfaces_only, C102_area, C102_orientation, C102_center_of_mass, C102_volume, C102_star_shaped, C102_thin_surface_refuted, C99_given_profiles, C99_given_power, C104_file_contents, C104_mean_temperature, C104_sampled_cells, C104_adjacent_radii_refuted, C100_openmc_source, C105_sampled_plasma, C106_sdef_files, C101_parabola, C101_parabola_falls, C101_pedestal, C101_table, C101_arrays, C98_reactivity, C98_strengths, C105_sampled_regions, C105_sampled_regions_are_cells, C105_card_probabilities, C83_reported_power, C83_one_factor, C83_rates_match_strengths, C83_zero_source, C83_exact_power_refuted, C95_sampling, C95_O_point_cell, C95_volumes, C95_centre_on_O_point_refuted, C106_near_table, C106_outside, C106_not_a_number, C106_methods, C106_table_ok, C107_energies, C107_maxwell_average, C107_outside_table, C34_area_is_boundary_integral, C36_volume_of_revolution, C36_volume_star_shaped, C84_parameterised, C80_finished, C80_interrupted, C80_recovery, C80_encoding_refuted, C85_reaction_rate, C85_power_and_neutrons, C85_normalised, C67_file_contents, C67_to_sdef_card, C68_sampled_regions, C59_sampled_regions_are_cells, C57_card_probabilities, C58_cross_references, C61_total_line, C61_total_is_rate_T_T_half, C61_energy_cards, C62_zero_strength_refuted, C63_files, C63_one_file_per_channel, C58_no_cells_refuted, C67_writable_with_shipped_data, C62_zero_strength_nan_refuted, C93_modified_gaussian, C93_gaussian, C89_reactivity_rises, C89_hotter_yields_less_refuted, C89_hotter_denser, C89_denser, C51_strengths_sum_to_one, C52_energy_mixture, C53_ring_geometry, C54_one_source_per_emitting_cell, C54_nothing_emitted, C54_conversion_succeeds, C65_tables_integrate_to_1000, C65_gaussian_mixture_refuted, C65_other_methods_proportional, C66_independent_of_power, C64_openmc_warnings_once, C18_clamped, C18_clamped_arrays, C18_elementwise, C19_scales_multiply, C19_order_irrelevant, C20_parabolic_formula, C20_parabolic_shape, C21_pedestal_formula, C21_pedestal_shape, C21_jump_at_edge, C21_core_unused, C21_no_pedestal, C22_nodes, C22_straight_lines, C22_error_iff_outside, C22_between_table_values, C22_monotone, C22_row_order_irrelevant, C13_density_weighting, C13_quadratic_in_density, C13_dt_best_at_5050, C14_bosch_hale_in_range, C14_empty_array_rejected, C15_beyond_range, C15_ddn_nonfinite_refuted, C16_cross_section_reactivity, C16_zero_temperature, C16_linear, C17_dispatch, C17_reactivity_error, C86_no_jump, C86_cold_fit, C86_cold_cross_section, C87_parabolic, C87_pedestal, C87_data, C87_from_parameterisations, C87_from_profiles, C87_totals_converge, C06_strength_formula, C06_strengths_nonnegative, C06_constructor_succeeds, C06_no_cells_rejected, C07_rates_agree, C08_power_reaches_target, C08_normalise_succeeds, C08_constructor_target, C09_only_rescales, C09_last_target_decides, C09_shares_preserved, C10_tritium_rate, C10_special_cases, C11_zero_power_never_finite, C11_zero_target_is_final, C88_star, C88_filled, C90_similar_plasmas, C90_same_when_normalised, C90_totals, C91_mirror, C91_symmetric_plasma, C91_fausser, C92_start, C92_extra_points, C92_direction, C91_boundary_refuted, C60_form, C60_reads_back, C60_order_kept, C60_exact_digits, C24_range, C24_kept_bit_for_bit, C24_accuracy, C24_overflow_refuted, C24_sums_to_one_refuted, C25_from_parameterisations, C25_from_profiles, C25_densities_add_up, C26_later_calls, C26_density_independent_of_caller, C26_temperature_is_shared, C27_from_jetto_nodes
