# Formal model of refnx/refellips: design

The properties are listed in `properties.jsonl` (C01, C02, ...).  The model and
the proofs are in `rocq/theories`.  `MANIFEST.json` maps properties to theorems.
`seeded/LOG.jsonl` records wrong programs the theorems were tried on.

## 1. Layout of the development

| files | content |
|---|---|
| `Base.v`, `Cplx.v` | general tools: error values, list helpers, complex square root, argument, exponential, arcsine |
| `Spec_*.v` | small specifications; they use the data types of the model at most, not its functions |
| `M_*.v` | the model: definitions only, each citing the lines of /repo it models |
| `P_*.v` | proofs |
| `Properties_*.v` | the theorems that are claimed: statement, `exact`, `Print Assumptions`, and Examples showing that the hypotheses can be met |

| part | model | source modelled | properties |
|---|---|---|---|
| transfer matrix | `M_tmm` | reflect_modelSE.py 81-294 | C13, C16-C30, C82, C93 |
| effective media | `M_ema` | structureSE.py 858-934 | C31-C39, C49, C155 |
| dispersion | `M_disp`, `M_materials` | dispersion.py, structureSE.py 67-141, refellips/materials/*.csv | C49-C62, C87, C88, C115 |
| structures | `M_struct` | structureSE.py 144-709, 772-855 | C39-C48, C83 |
| generative model | `M_model` | reflect_modelSE.py 297-442, tools/plottools.py 146-217 | C13-C15, C81, C92, C95 |
| datasets | `M_data` | dataSE.py 16-255 | C63-C70, C127 |
| objective | `M_objective` | objectiveSE.py 21-525 | C01-C12, C84, C85, C124 |
| unusual columns in a fit | `M_anyfit` | reflect_modelSE.py 355-396, objectiveSE.py 183-226 (nan, 2-d columns) | C126 |
| likelihood with unusual columns | `M_anyfit2` | objectiveSE.py 353-451 (nan, 2-d columns) | C138 |
| plots | `M_plot` | objectiveSE.py 550-625, structureSE.py 711-770, tools/plottools.py 7-143 | C89-C92 |
| EP4 files | `M_ep4` | dataSE.py 258-461 | C71-C74, C80, C86, C94, C127 |
| other instrument files | `M_instr` | dataSE.py 464-895 | C75-C79, C86, C123, C125, C154 |
| double precision | `M_float` | objectiveSE.py 21-40, dataSE.py 102-105 and 354-372, structureSE.py 925-934 | C96-C99 |
| double precision | `M_float2` | dispersion.py 215-219, 295-301, 313-319 | C136-C137 |
| double precision | `M_float3` | structureSE.py 881-922 | C152 |
| chi-squared in double precision | `M_fresid` | objectiveSE.py 183-231 | C128 |
| single precision in the FilmSense loader | `M_single` | dataSE.py 807-819, 878-887 | C129 |
| fitting sessions | `M_fit` | objectiveSE.py 89-118, 149-451 | C130 |
| fitting sessions with plots, model calls and covar | `M_views` | reflect_modelSE.py 330-396, objectiveSE.py 453-525 and 550-625, structureSE.py 711-770, tools/plottools.py | C147 |
| sessions | `M_session` | the constructors and setters above, with objects that are shared and edited (structureSE.py 229-252, 344-350, 455-527, 772-792; reflect_modelSE.py 307-328, 421-442) | C100-C102, C120 |
| datasets over their lifetime | `M_life` | dataSE.py 60-255 | C103-C106, C121 |
| texts | `M_text`, `M_summary`, `M_signature` | repr: structureSE.py 254-259, 353-358, reflect_modelSE.py 349-353, dataSE.py 113-125, objectiveSE.py 138-146; str: objectiveSE.py 120-136; signatures of the constructors | C107, C108, C122 |
| negative strides | `M_strides` | dataSE.py 548-703 (open_M2000file with any integers) | C151 |
| test runner | `M_tester` | refellips/__init__.py 27-78 | C149 |
| covariance | `Mat`, `M_covar` | objectiveSE.py 453-525 | C109-C114 |

`Spec_now`/`P_now` say what an evaluation in a session uses (C153);
`Spec_kk`/`P_kk*` prove the Kramers-Kronig relation of the dispersion models;
`Spec_whole`/`P_whole*` put transfer matrix, structures and generative model
together (C95); `Spec_ident`/`P_ident*`/`P_cont*` prove what psi and delta determine and that
they are continuous in the thicknesses (C116-C119); `Spec_thick`/`P_thick*` count the thicknesses that fit a point (C139), `Spec_points`/`P_points` two points (C144); `Spec_round`/`P_round*` follow simulated data through save, load and fit (C140); `Spec_offset`/`P_offset*` study chi-squared as a function of delta_offset (C141); `Spec_opaque`/`P_opaque*` bound what can be seen through an opaque film (C142); `M_array`/`Spec_array`/`P_array` evaluate refractive indices at arrays of wavelengths (C143); `M_onepoint`/`Spec_onepoint`/`P_onepoint` model datasets whose columns are numpy scalars (C145); `M_intwave`/`Spec_intwave`/`P_intwave` model powers of integer arrays (C146); `Spec_admit`/`P_admit*` compare coh_tmm with the admittance method and solve quarter-wave mirrors (C148); `Spec_diff`/`P_diff*` prove that they have slopes (C131);
`Spec_jac`/`Spec_smooth`/`P_jac*`/`P_smooth*` prove that a fit has a Jacobian in its parameters (C132-C134) and that covar approaches the inverse of J^T J (C135).

## 2. What the model computes with

* Floating point numbers are modelled by the real numbers `R` of the standard
  library, complex numbers by pairs (`Coquelicot.Complex.C`).  Rounding, overflow
  and float32/float64 are **not** modelled, except in `M_single` (the conversion of
  N, C, S to float32), `M_fresid` (chi-squared) and `M_float`, `M_float2`, `M_float3`: there four functions
  that work on numbers directly, the formulas of Cauchy and Sellmeier and overall_ri are modelled a second time in IEEE double precision
  (Flocq's `binary_float 53 1024`, round to nearest even, with nan, infinities and signed
  zeros).
* A non-finite float (NaN or infinity) is modelled by `None`; a finite one by
  `Some x`.  Division by zero, real square root of a negative number, logarithm of
  a non-positive number give `None`, and `None` propagates.  Where numpy's result
  for a non-finite value is finite (`nan > x` is False, `np.where(isfinite)`) the
  model says so at that place.
* Signed zeros are not modelled.  They matter in one place, the branch of
  `np.arcsin` on its cut; the model takes the branch C99 gives for an input with
  imaginary part +0 (numpy builds `n + 0j`).
* A Python exception is a value (`Raise e`).  Where an exception leaves partly
  updated state behind, the model returns the state as well.  `OtherError` stands for
  exceptions the model does not distinguish and for inputs outside the model.
* Parameters (`refnx.analysis.Parameter`) are identifiers into a store, so that
  sharing one parameter between several objects is visible.  Constraints are
  functions of the other values.
* numpy arrays are lists; where aliasing or dtype matters (C14, C52, C70) the
  aliasing (a heap of arrays) or the dtype is modelled explicitly.
* Text files are lists of lines of characters; number parsing and printing
  (`float`, `str`) are function arguments, and the theorems hold for every such
  function satisfying the stated law.
* A plot is the list of things handed to matplotlib.

## 3. External code

Not modelled; it enters as an argument of the model or as a contract stated in the
comment of the definition:

* refnx: `Parameter(s)` (value, vary, bounds, constraint, pvals setter),
  `possibly_open_file`, `sld_profile`, `contract_by_area`, `_micro_slabs`, bounds'
  `logp` and `invcdf`, `pgen`;
* scipy: `hilbert` (its textbook discrete kernel), `approx_derivative` (an arbitrary
  sequence of probes; central differences in exact arithmetic in C111 and C113), `constants`;
* pandas: `read_csv` (its result is the input of the model), `groupby(...).mean()`
  (grouped means in key order), boolean selection, `loc`;
* numpy: arithmetic, `interp` (its search algorithm is modelled), `unique`,
  `loadtxt`/`savetxt` (modelled over lists of fields), `linalg.svd` (what it returns is a
  decomposition, `is_svd`);
* matplotlib, warnings, printing.

## 4. What is not modelled

`str` of parameters, the docstrings, the imports in `refellips/__init__.py`, setup.py, demos,
tests, the legends, labels and colours of plots, `ReflectModelSE.__init__` beyond
storing its arguments, `pgen` of ObjectiveSE (it delegates to refnx), rounding of the
chi-squared shown in a plot, the accuracy of arccos, angle and division in float32 (FilmSense loader), infinite
wavelengths and angles, and the promotion of numpy integer scalars.

Modelled, but not fixed by any theorem: the value of a Gauss scatterer at wavelength 0 in an array
(`M_array.gauss_energy`); a seeded error there (YQ43) is not detected.

## 5. Vocabulary of the statements

* `reflection_problem p front rest r t` (Spec_optics): plane waves of polarisation p in
  the stack satisfying continuity of the tangential fields at every boundary, with unit
  incident, reflected amplitude r, transmitted amplitude t and no wave from behind.
* `ellipsometric rs rp psi delta`: `rp/rs = tan psi exp(-i delta)` (degrees).
* `distinguishable s w n l` (Spec_thick): the thicknesses `l` are different within one interference order of a transparent
  layer, or, where waves decay in the layer, different and below the attenuation at which `coh_tmm` cuts.
* `point`, `stack p d`, `predicted off refl p d`, `fits off refl p d` (Spec_points): a measured point with the media
  at its wavelength, the layers with thickness `d` of the layer in question, what Delta_Psi_TMM gives for them, that it
  is what was measured; `at_most c off refl p`: at most `c` thicknesses within one order fit; `coincide_beyond D1 D2 L`:
  common multiples of the orders are at least `L`; `incommensurable D1 D2`: there are none; `lone_film p`: a single film
  of another index than its neighbours.
* `simulated X psi delta` (Spec_round): the points with these wavelengths, angles, psi and delta; `with_arrays sy h`: the
  same objects with other arrays.
* `quarter_coating`, `coated`, `coating_r`, `reading` (Spec_coating): stacks of quarter-wave layers, the admittance of the coated backing, its reflection, and what is read from real amplitudes;
* `same_or_turn a b` (Spec_offset2): a is b, b + 360 or b - 360;
* `moved_offset sy m c st st'` (Spec_offset): the Parameters of the structure of model m have the same values in both states
  and delta_offset is larger by c; `errors measured predicted`: the differences; `mean`: sum over number.
* `constant_RI s`, `oscillator_class s os Einf`, `grid rows p q` (Spec_array): an RI that is one number; a Lorentz or
  Tauc-Lorentz scatterer; p rows of q wavelengths other than zero.
* `xdata` (M_onepoint): a DataSE whose columns are arrays or scalars, `of_dataset d` one with arrays; `scalars d x`,
  `becomes h d r x` (Spec_onepoint): its columns are the numbers of x; loading gives such a dataset and changes nothing else.
  `one_point pf c lines x` (Spec_exact): one line of four numbers or four lines of one.
* `int_type`, `fits t z`, `left_of t z r` (Spec_intwave): a numpy integer type; it holds z; r is what its bits keep of z.
* `opaque_film s lam K (n, d)`: crossing the film attenuates the wave by more than e^35, and Im kz <= K Re kz
* `passive n`: real part positive, imaginary part (absorption) not negative.
* `rows_of`, `in_order`, `solvated` (Spec_struct): the slab table of a structure.
* `model ext dtype s off flip X`: psi and delta for the points X; result and structure
  afterwards.
* `call A`: a computation on the state (parameter store, wavelengths left in structures,
  flip flags); `residuals`, `logl`, ... are calls.
* `has_points sy d sel X` : dataset d holds exactly the points X (after masking).
* `run ext nothing l`: the objects after the statements l; `listed w m` is what
  `model.parameters` lists, `owned w m p` that p is found in the model's attributes.
* `ratio psi delta`: tan(psi) exp(-i delta); `settles g x`: g is defined around x and
  continuous at x; `film_at F y`: the layers with their thicknesses at y.
* `changed i P l l'`: of the list l only member i changed, as P says; `only_structs P w w'`:
  only the structures changed; `usable cols k`: the first k columns can be used, not more.
* `constructs classes text f values`: read as Python, text calls class f and gives its
  parameters these values; `refused_line pf l is e`: the first of the fields `is` that holds
  no number makes the error e.
* `decoded x psi delta`: psi and delta that the numbers N, C, S of x allow; `nonblank raw l`: l are
  the trimmed lines of raw that are not blank.
* `alike o o'`: the objectives differ only in their points; `same_value r r'`: both return the
  same value or neither returns one.
* `value_at calculated x pd`: pd are the values of the point x, calculated if it has a wavelength,
  zero if not; `ordinary s`: only slabs and mixed slabs.
* `header pf c lines hdr body`, `table_of pf c body pts`: the lines before the first that starts with a
  number; the points in the lines; `yields st l`, `labelled steps out`: what is averaged in one moment
  of a series and the times written to it.
* `run res p` (M_fresid): the sum of squares of res in the order p; `covers n p`: p uses each of n
  residuals once; `exact_residuals`: the differences without rounding.
* `admittance`, `through`, `loaded`, `half_wave`, `quarter_mirror`, `mirror_r` (Spec_admit): tilted admittances,
  the characteristic matrix of a layer and of a stack, layers of half and quarter waves, periodic mirrors and
  their reflection in closed form.
* `looks`, `proper`, `same_answers`, `target` (Spec_views): calls that only look; varying parameters without
  constraints, probes of the right length, no samples; all residuals, chi-squared, priors and likelihoods of all objectives
  at all values; which structure a call of plot_structure is about.
* `session_of w`, `structure_of w m`: the objects after the statements as system and structure of the
  static model; `one_convention`: all data used with a model are folded, or none; `effect st w w'`: what
  the statement st changes; `keeps_lists`, `leaves_data`: statements that replace no attribute of a
  component, or no column of a dataset; `agrees`: data and theory are equal.
* `has_slope g x l`: g is defined around x and its difference quotients tend to l; `slopes`: for some l;
  `smooth_stack`: indices and thicknesses are differentiable, no medium is totally reflecting or at
  its critical angle (unless its sine is constant), no layer at the cut-off exp(-35).
* `moved sy o st j t`: the state with the j-th varying parameter increased by t; `smooth_point`: the layers
  seen at a point of measurement form a smooth stack; `off_corners`: delta is not at a jump, nor the
  residual at a corner; `well_behaved`, `smooth_material`, `mix_ok`, `settled`, `clear_path` (Spec_smooth): the
  conditions on oscillators, materials, mixing rules, solvent fractions and light.
* `..._refuted`: the claim is false of the model; the theorem gives a witness.  The
  strongest positive statement found is next to it.

## 6. Findings

Claims the code does not satisfy.  Each is proved in negated form with a witness, and the
part that does hold is proved beside it.

* C02 `circular_distance` is negative for angles more than a period apart.
* C07 `logp_extra` and `model.logp` are never called, contrary to the documentation.
* C12 two objectives sharing a model share the delta convention of the dataset given last.
* C14 integer wavelength arrays truncate psi and delta to integers.
* C20, C26 under total internal reflection at a transparent backing `coh_tmm` uses the
  growing wave; opposite angles then give different results.
* C34, C38, C43, C83 the Bruggeman rule returns the wrong root for metals, also with no
  solvent at all, and turns an undefined index into 0.
* C39 the constructor of StructureSE does not check the depolarisation factor.
* C45 `|` and copy lose settings of the structure.
* C51 a dispersion file with one row of data is accepted, but the RI made from it cannot be evaluated.
* C143 Lorentz and Tauc-Lorentz add up the rows of a two-dimensional array of wavelengths.
* C145 A file with one point cannot be opened with `reflect_delta` (TypeError), its dataset takes no mask, and after `refresh`
  of a grown file the getters return two-dimensional arrays.
* C146 `Cauchy` at int32 arrays: wrong from 216 nm on if C is not 0, nan or inf at multiples of 256 nm.
* C52 `RI` multiplies the caller's wavelength array by 1000.  C53 its name stays empty.
* C60 Tauc-Lorentz is undefined on part of its documented domain.
* C64 `mask=None` adds an axis.  C68 loading from a handle loses rows and refresh undoes the
  folding of delta.  C70 a folded copy folds the original.
* C72 delta is averaged as a number, not as an angle.  C74 time series of maps lose scans or
  raise.
* C75 an unterminated Horiba section swallows the next title.  C76 an M2000 handle loses its
  first record.  C77 time steps closer than 0.1 s overwrite each other.
* C80 `custom_round` need not return a multiple of a base that is not a multiple of 0.01.
* C81 `plot_structure` changes settings of the structure.  C82 `Delta_Psi_TMM` overwrites the
  extinction coefficient in its argument.
* C99 in double precision converting nm to eV and back need not return the wavelength.
* C137 near the resonance rounding decides: with En = 0.2 at 200 nm Sellmeier.epsilon is infinite although
  the formula has a value.
* C90 `plot_ellipsdata` draws one angle only.  C91 an exception while plotting samples leaves
  their values in the parameters.
* C102 replacing an attribute of a slab (`slab.ri = ...`) does not update its parameters.
* C104 constructing a folded copy of a dataset folds the original, also late in its life.
* C105 the documented `mask` argument of DataSE is ignored.
* C106 assigning too few columns to `data` raises after replacing some of them.
* C107 `repr(ReflectModelSE)` lacks its closing bracket.
* C108 `str(objective)` counts masked points among the datapoints.
* C111 `covar` never returns when lnsigma varies.  C112 it does not report correlated
  parameters.  C113 it fails at a perfect fit of delta.  C114 it returns negative variances
  when there are fewer residuals than parameters.
* C121 a dataset made from arrays shares them with the caller.
* C122 `repr` of datasets, objectives and models names classes that do not exist in refellips
  (`Data1D`, `Objective`, `ReflectModel`).
* C123 a Gauss model without oscillators is accepted by the constructor and fails when evaluated.
* C127 in an EP4 time series of maps the last area of a later moment is dropped without an error.
* C128 chi-squared can be 0 in double precision although model and data differ (squares
  underflow below 2^-1075).
* C129 the FilmSense loader keeps N, C, S in float32: psi near 0 and 90 is off by up to 0.0075
  degrees, and where N rounds to -1 delta is read as 45, 135, 225 or 315 degrees.
* C126 a point whose wavelength is nan gets psi = delta = 0 instead of nan, silently.
* C139 two thicknesses within one interference order can have the same psi and delta (never three, without folding).
* C141 with lnsigma the variance of delta is 1 + exp(2 lnsigma) delta^2: the likelihood depends on where delta is counted
  from, though delta is an angle; and chi-squared can have several minima in delta_offset.
* C140 with reflect_delta the model folds delta and then adds delta_offset, the data are folded as a whole: what a model
  with a positive offset predicts, saved and loaded, is not what it predicts.
* C138 `data.mask = None` (documented to clear the mask) with one point and lnsigma: logl raises, or adds each
  residual with both variances.
* C130 two objectives with different conventions sharing a model: the earlier one compares folded data
  with unfolded theory.
* C93 `coh_tmm` accepts wrong numbers of thicknesses: with one inner thickness it takes all layers to be that thick, with a
  single film it ignores all but the first.
* C151 `dropdatapoints=-n` loads the points backwards and in general others than `dropdatapoints=n`.
* C154 a Horiba file whose DATA section holds only the column names counts the characters of that
  line as rows, and reads lines after the section as data.
* C152 in double precision Maxwell-Garnett and Bruggeman change the index of a film without
  solvent in the last bit (3 in 5 and 3 in 3); linear mixing, the default, never does.
* C150 a perfect antireflection coating (at normal incidence, or any stack that reflects neither polarisation) has psi and
  delta nan; a stack that suppresses one polarisation has psi 0 or 90 and delta nan. One such point makes residuals and
  chi-squared nan.
* C149 `refellips.test(tests="name")` gives pytest the characters of the name, and `sys.exit()` in pytest counts
  as failure.
* C147 `plot_structure` in the middle of a session turns a reversed structure round, so that later residuals and
  fits are those of another sample.
* C131 at a perfect fit the delta residual has a kink, and symmetric difference quotients of it tend to
  0 whatever the slope of delta; psi has no slope at the critical angle of the backing.
* C133 the index of a slab has a corner where its solvent fraction passes 0 (below 0 the slab counts as
  dry when no other slab is solvated), so that a fraction whose bounds straddle 0 has no derivative there.
* C119 delta (0 to 360 degrees) jumps where the thickness passes through 360; the residual of
  the objective does not.

## 7. Trusted base

Coq 8.16.1's kernel; the definitions of the standard library, of Coquelicot and of Flocq; the
statements in `Properties_*.v` and the definitions they use (`Spec_*.v`, `M_*.v`); the
reading of /repo by which `M_*.v` was written.  No axiom is declared in this
development.  `Print Assumptions` follows every theorem; it lists the following axioms,
all from the standard library (reals and classical logic).

* F: `ClassicalDedekindReals.sig_forall_dec`
* N: `ClassicalDedekindReals.sig_not_dec`
* E: `FunctionalExtensionality.functional_extensionality_dep`
* C: `Classical_Prop.classic`

Axioms none (closed under the global context): 48 theorems.

C61_elements, C61_lengths, C47_constructor_filters, C63_getters, C63_all_true,
C63_wrong_length_raises, C63_setter, C64_none_adds_an_axis, C66_save_load, C66_mask_not_saved,
C67_header_skipped, C67_header_irrelevant, C67_hundred_lines, C68_handle_loses_rows,
C68_refresh_keeps_flags, C68_write_mode_truncates, C107_slabs, C107_model_refuted,
C107_objective, C108_tells, C108_datapoints, C121_some_prefix, C122_names, C122_names_differ,
C122_slab, C122_mixed, C122_others_refuted, C122_mask_refuted, C122_objective, C122_model,
C122_scatterer, C123_save, C127_header, C127_load, C127_load_handle, C145_load, C145_mask,
C145_data_setter, C145_refresh_grown, C145_refresh_shrunk, C146_power, C149_arguments,
C149_refusals, C149_verdict, C149_success_refuted, C149_text_refuted, C153_structure,
C64_none_length

Axioms F: 9 theorems.

C82_table_after, C52_triple_effect, C53_name_from_path_refuted, C41_exists_unique, C41_twice,
C47_constructor_append, C64_none_clears_refuted, C68_handle_same_data_refuted, C153_picture

Axioms E, F: 128 theorems.

C30_cutoff_only_above, C49_nm_eV_involution, C49_nm_eV_decreasing, C50_interpolant_unique,
C56_sellmeier_formula, C57_lorentz_absorption, C57_lorentz_epsilon_passive, C57_lorentz_defined,
C57_lorentz_reality, C57_lorentz_order, C57_lorentz_additive, C57_lorentz_term,
C57_lorentz_causal, C62_materials_sorted, C62_materials_listed, C39_setter, C39_history,
C39_constructor_refuted, C44_or, C44_or_invalid, C44_associative, C44_chain, C44_in_place,
C45_copy, C45_settings_kept_refuted, C46_repeat, C65_partition, C68_refresh_consistent_refuted,
C69_reflection, C70_copy_folds_original, C70_copy_refreshes, C70_no_alias_refuted,
C70_copy_keeps_flag_refuted, C01_circular_distance, C02_outside_one_period,
C02_docstring_refuted, C08_setp_varying, C08_varying_parameters, C08_setp_full, C08_setp_wrong,
C11_prior_transform, C11_increasing, C11_short, C71_single_place, C71_every_row_once,
C71_missing_column, C72_mean_between, C72_angle_refuted, C73_areas, C73_areas_unique,
C74_time_series, C74_map_series_fails, C74_later_scans_lost, C74_every_step_refuted,
C80_custom_round, C80_any_base_refuted, C86_loaded_dataset, C75_horiba, C75_encoding,
C75_no_data, C75_no_column, C75_no_angle, C75_bad_angle, C75_swallowed_refuted, C76_static,
C76_handle, C76_no_records, C76_no_stride, C76_other_kind, C77_dispatch, C77_distinct,
C77_apart, C77_last_wins, C77_own_entry_refuted, C77_take_none, C77_no_stride, C94_names,
C94_distinct, C103_tables, C104_own_columns, C104_fixed, C104_copies_refuted,
C105_keywords_ignored, C105_mask_argument_refuted, C106_atomic_refuted, C106_others_atomic,
C108_fitted_points_refuted, C121_assign, C121_mask, C121_copy, C121_arrays_shared, C123_m2000,
C123_horiba, C125_m2000, C125_m2000_errors, C125_horiba, C127_series, C127_series_determined,
C127_series_members, C127_errors, C127_every_area_refuted, C128_exact_exists, C131_central,
C131_perfect_fit, C145_arrays, C145_arrays_new, C145_new, C145_reflect_refuted, C145_copy,
C145_wavelengths, C145_save_load, C146_exact, C146_exactly, C146_int64, C146_int32,
C146_int32_wrong, C146_int32_nan, C146_uint32, C146_uint64, C146_integers_refuted, C151_natural,
C151_take_every, C151_static, C151_no_records, C151_dynamic, C151_steps, C153_model,
C154_column_names_only

Axioms E, F, N: 36 theorems.

C31_linear_volume_average, C31_linear_limits, C32_maxwell_garnett, C32_maxwell_garnett_limits,
C33_bruggeman, C33_bruggeman_symmetric, C33_bruggeman_factor_one, C34_bruggeman_pure_limit,
C34_bruggeman_wrong_root, C34_bruggeman_pure_limit_refuted, C35_self_mixture, C36_unknown_rule,
C37_between_constituents, C38_linear_passive, C38_maxwell_garnett_passive,
C38_bruggeman_passive_dielectrics, C38_bruggeman_metals_gain, C38_bruggeman_passive_refuted,
C87_unique, C43_unsolvated_layer, C43_metal, C83_nan_kept, C69_folding, C76_handle_refuted,
C125_decoded, C150_antireflection, C150_not_both, C151_same_points_refuted,
C154_no_rows_no_points_refuted, C155_wiener, C155_hashin_shtrikman, C155_symmetric_refuted,
C155_increasing, C155_decreasing, C155_determined, C155_shape

Axioms C, E, F, N: 328 theorems.

C13_angles_pointwise, C13_coh_tmm_pointwise, C13_coh_tmm_from_points, C16_psi_delta_encode,
C16_degenerate, C17_reflect_delta_folds, C18_ignored_inputs, C19_normal_incidence_amplitudes,
C19_normal_incidence, C20_supplementary_angle, C20_opposite_angle,
C20_opposite_angle_TIR_refuted, C21_scaling, C22_boundary_value_problem, C22_end_to_end,
C23_zero_layer, C24_split_layer, C25_inner_branch_irrelevant, C26_backing_absorbing,
C26_backing_transparent, C26_total_reflection_wrong, C26_backing_decays_refuted, C27_passive,
C27_lossless, C27_lossless_RT, C28_defined, C29_reciprocity, C30_opaque_cutoff,
C82_table_unchanged_refuted, C50_table_interpolates, C50_table_bounds, C51_file_lookup,
C51_file_lookup_transparent, C51_single_row, C51_triple_lookup, C52_input_preserved_refuted,
C52_list_unusable, C54_default_unused, C54_default_used, C55_cauchy_formula,
C55_cauchy_decreasing, C55_cauchy_increasing, C56_sellmeier_index, C56_sellmeier_resonance,
C56_sellmeier_decreasing, C57_lorentz_passive, C58_gauss_passive, C58_gauss_absorption,
C58_gauss_odd, C58_gauss_order, C58_gauss_additive, C58_gauss_beyond, C59_tl_absorption,
C59_tl_below_gap, C59_tl_passive, C59_tl_index_passive, C59_tl_order, C59_tl_additive,
C60_tl_finite, C60_tl_wide_nan, C60_tl_edge_nan, C60_tl_domain_refuted, C62_materials_passive,
C62_materials_ranges, C62_materials_unknown, C62_aluminium_oxide_absorbs,
C62_polymer_diffuse_is_pnipam, C87_tauc_lorentz, C88_lorentz, C40_table, C40_one_row_each,
C40_empty, C40_bad_ends, C40_index_error, C41_reversed, C42_solvated, C42_no_fraction,
C42_unknown_rule, C42_solvent_error, C43_bruggeman_refuted, C48_align, C48_invalid,
C83_nan_hidden_refuted, C13_batch_pointwise, C13_batch_from_points, C13_permutation,
C14_integers_truncate, C14_dtype_irrelevant_refuted, C15_independent_of_wavelength,
C15_wavelength_afterwards, C15_after_exception, C81_plot, C81_plot_pure_refuted, C95_model,
C03_residuals, C03_residuals_raise, C04_chisqr, C04_perfect_fit, C05_logl, C05_logl_plain,
C06_logpost, C85_logp, C07_extra_ignored, C07_documentation_refuted, C09_history_irrelevant,
C10_covar_restores, C12_second_objective, C12_independence_refuted, C84_only_parameters,
C89_shows, C89_succeeds, C89_ends, C89_errors, C89_harmless, C90_shows, C90_refuses,
C90_every_angle_refuted, C91_restores, C91_pvals, C91_restores_after_error_refuted, C92_sets,
C92_wrong_length, C78_psi, C78_delta, C78_delta_range, C78_psi_range, C78_psi_nan,
C78_delta_nan, C79_static, C79_dynamic, C79_repeated_times, C79_too_short, C79_other_file,
C93_coh_tmm, C93_thicknesses, C93_infinite, C93_Delta_Psi_TMM, C96_circular_distance, C96_nan,
C97_fold, C97_nan, C98_custom_round, C99_nm_eV, C99_decreasing, C99_special,
C99_involution_refuted, C100_parameters, C100_sufficient, C101_evaluations, C101_failures,
C101_wrong_structure, C102_current_refuted, C102_lists_fixed, C108_str, C109_inverse,
C109_exact_derivatives, C110_positive, C111_no_effect, C111_only_then, C111_lnsigma,
C112_reported_refuted, C113_perfect_fit_refuted, C114_negative, C114_variances_refuted,
C115_cauchy, C115_sellmeier, C115_lorentz, C115_gauss, C115_tauc_lorentz, C87_sharp,
C14_towards_zero, C81_drawn, C15_state_afterwards, C116_order_ambiguity, C117_substrate,
C117_identified, C118_brewster, C118_total_reflection, C119_psi, C119_residual, C119_folded,
C119_delta_refuted, C120_value, C120_value_read, C120_settings_of_parameter, C120_append,
C120_append_scatterer, C120_join, C120_components, C120_settings, C120_model, C120_new,
C120_constructor, C120_attributes, C120_refused, C120_model_anew, C120_join_anew,
C123_filmsense_wavelength, C123_filmsense_point, C123_filmsense_step, C123_gauss_empty,
C124_masked, C124_order, C124_chisqr, C124_logl, C124_logpost, C124_fewer, C125_filmsense,
C125_filmsense_series, C125_encoded, C126_finite, C126_points, C126_returns, C126_nan_refuted,
C126_angle, C126_errors, C126_residuals, C126_residual_fixed, C126_mask_none,
C126_mask_none_one, C128_sign, C128_error, C128_finite, C128_two_orders, C128_zero,
C128_monotone, C128_psi, C128_residuals, C128_chisqr, C128_nan, C128_perfect, C128_zero_means,
C128_zero_refuted, C129_nearest, C129_psi, C129_psi_refuted, C129_delta, C129_delta_refuted,
C129_file, C130_no_trace, C130_convention, C130_convention_refuted, C130_theory, C130_data,
C130_objective, C131_psi, C131_delta, C131_folded, C131_residual, C131_critical_refuted,
C132_jacobian, C132_central, C133_dispersion, C133_mixing, C133_zero_refuted,
C133_solvation_refuted, C134_structure, C134_fit, C135_covariance, C136_cauchy, C137_sellmeier,
C137_resonance_refuted, C138_finite, C138_points, C138_returns, C138_without, C138_shape,
C138_posterior, C138_mask_none_one, C138_mask_none_refuted, C139_two, C139_single,
C139_unique_refuted, C140_round_trip, C140_offset_refuted, C141_added, C141_absorbed,
C141_parabola, C141_best, C141_perfect, C141_perfect_unique, C141_perfect_possible,
C141_mean_refuted, C141_lnsigma_refuted, C142_bulk, C142_hidden, C142_hidden_any, C142_psi,
C143_entries, C143_constant, C143_zeros, C143_zeros_2d, C143_zero_entry, C143_grid,
C143_rows_added, C143_grid_oscillators_refuted, C143_one_row, C143_mismatch, C144_product,
C144_film, C144_incommensurable, C144_ambiguous, C147_no_trace, C147_structure,
C147_structure_refuted, C147_theory, C147_covar, C147_model, C147_profile, C148_admittance,
C148_absentee, C148_mirror, C148_mirror_angles, C148_many_periods, C148_brewster,
C150_amplitudes, C150_reading, C150_perfect, C152_transparent, C152_ends, C152_root_of_square,
C152_maxwell_ends_refuted, C152_maxwell, C152_bruggeman_ends_refuted, C152_dielectric,
C153_evaluation, C153_scatterer, C153_component
