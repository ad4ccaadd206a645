{"id": "C01", "title": "circular_distance is the distance on the circle", "statement": "For angles no more than one period apart, circular_distance(a,b,period) is the distance from a-b to the nearest multiple of the period: it lies in [0, period/2], is symmetric, is zero exactly when the angles coincide modulo the period, and no a-b+k*period is smaller in absolute value.", "quantifier": "all real a, b and all period > 0 with |a-b| <= period", "why_tests_cant": "The domain is a continuum of reals (or unbounded lists of them); a test samples finitely many points.", "anchors": ["refellips/objectiveSE.py:circular_distance"]}
{"id": "C02", "title": "circular_distance outside one period", "statement": "For angles more than one period apart the value returned by circular_distance is negative (so is not a distance); its square is still the squared circular distance up to 1.5 periods, and is not beyond. The docstring's unconditional claim ('the shortest circular distance') is therefore false.", "quantifier": "all real a, b, period with |a-b| > period", "why_tests_cant": "The domain is a continuum of reals (or unbounded lists of them); a test samples finitely many points.", "anchors": ["refellips/objectiveSE.py:circular_distance"]}
{"id": "C03", "title": "residuals layout and content", "statement": "ObjectiveSE.residuals() returns exactly 2N numbers for N unmasked points: first the N signed psi differences model-data in data order, then the N circular distances of delta (period 360) in data order.", "quantifier": "all models, parameter values and datasets (any number of points, any mask)", "why_tests_cant": "unbounded data sizes, arbitrary model output", "anchors": ["refellips/objectiveSE.py:ObjectiveSE.residuals", "refellips/objectiveSE.py:circular_distance", "refellips/dataSE.py:DataSE.data"]}
{"id": "C04", "title": "chisqr is the sum of squared residuals and detects a perfect fit", "statement": "chisqr() equals the sum of squares of residuals(); it is never negative, and when every |delta difference| is at most 360 it is zero exactly when every psi equals its datum and every delta equals its datum modulo 360.", "quantifier": "all models, parameters, datasets", "why_tests_cant": "The domain is a continuum of reals (or unbounded lists of them); a test samples finitely many points.", "anchors": ["refellips/objectiveSE.py:ObjectiveSE.chisqr", "refellips/objectiveSE.py:ObjectiveSE.residuals"]}
{"id": "C05", "title": "log-likelihood formula", "statement": "logl() equals -1/2 * sum(residual^2/var + [weighted] log(2*pi*var)) with var = 1 + exp(2*lnsigma)*model^2 (var = 1 without lnsigma); with no lnsigma and unweighted data it is -chisqr()/2. If any residual is NaN it raises RuntimeError and returns nothing.", "quantifier": "all models, parameters, datasets, lnsigma values", "why_tests_cant": "The domain is a continuum of reals (or unbounded lists of them); a test samples finitely many points.", "anchors": ["refellips/objectiveSE.py:ObjectiveSE.logl"]}
{"id": "C06", "title": "log-posterior composition", "statement": "logpost(p) is logp(p)+logl(p) when the log-prior is finite, and -inf when it is not; in the latter case the model is not evaluated.", "quantifier": "all parameter vectors, priors, datasets", "why_tests_cant": "The domain is a continuum of reals (or unbounded lists of them); a test samples finitely many points.", "anchors": ["refellips/objectiveSE.py:ObjectiveSE.logpost", "refellips/objectiveSE.py:ObjectiveSE.logp"]}
{"id": "C07", "title": "logp_extra and model.logp are part of the posterior", "statement": "The documentation says that the user supplied logp_extra(model, data) and model.logp() contribute to the log-probability. In the code neither is ever called: two objectives which differ only in logp_extra have identical logl, logp and logpost for every input, so the documented claim is false.", "quantifier": "all logp_extra functions, all inputs", "why_tests_cant": "a universally quantified independence statement", "anchors": ["refellips/objectiveSE.py:ObjectiveSE.logl", "refellips/objectiveSE.py:ObjectiveSE.logp", "refellips/objectiveSE.py:ObjectiveSE.logpost"]}
{"id": "C08", "title": "setp sets exactly the addressed parameters", "statement": "setp(v) with len(v) = number of varying parameters makes the varying parameters read back as v in order and leaves all others unchanged; with len(v) = the total number of (flattened) parameters each slot is written in order (the last slot of a repeated parameter wins); with any other length it raises ValueError and changes nothing.", "quantifier": "all parameter collections (with sharing), all vectors", "why_tests_cant": "unbounded collections and all sharing patterns", "anchors": ["refellips/objectiveSE.py:ObjectiveSE.setp", "refellips/objectiveSE.py:ObjectiveSE.varying_parameters"]}
{"id": "C09", "title": "residuals(p), chisqr(p), logl(p), logpost(p) depend only on p", "statement": "After any sequence of previous evaluations at any vectors, with any intermediate wavelength left in the structure, evaluating the objective at a complete vector of varying parameters gives the same answer as on the fresh objective.", "quantifier": "all histories of evaluation calls, all vectors", "why_tests_cant": "The claim ranges over every history of calls; a test exercises one or two call sequences.", "anchors": ["refellips/objectiveSE.py:ObjectiveSE.residuals", "refellips/objectiveSE.py:ObjectiveSE.chisqr", "refellips/objectiveSE.py:ObjectiveSE.logl", "refellips/objectiveSE.py:ObjectiveSE.logpost", "refellips/reflect_modelSE.py:ReflectModelSE.model"]}
{"id": "C10", "title": "covar does not disturb the fit", "statement": "After covar() - whatever points the numerical differentiation visits, whether it succeeds, fails with FloatingPointError and is retried, or raises - all parameter values are those before the call.", "quantifier": "all parameter collections, all sequences of probe vectors, all failure points", "why_tests_cant": "The claim ranges over every history of calls; a test exercises one or two call sequences.", "anchors": ["refellips/objectiveSE.py:ObjectiveSE.covar"]}
{"id": "C11", "title": "prior_transform maps the unit cube into the bounds", "statement": "For parameters with finite interval bounds prior_transform(u) returns one value per varying parameter, value i in the bounds of parameter i for u_i in [0,1], increasing in u_i and hitting both ends; it does not alter the objective.", "quantifier": "all numbers of parameters, bounds, u", "why_tests_cant": "The domain is a continuum of reals (or unbounded lists of them); a test samples finitely many points.", "anchors": ["refellips/objectiveSE.py:ObjectiveSE.prior_transform"]}
{"id": "C12", "title": "objectives sharing a model are independent", "statement": "Creating a second ObjectiveSE with the same model must not change what the first one computes. The code stores the delta convention of the most recent dataset in the model, so it does: the claim is false when the datasets differ in reflect_delta and true when they agree.", "quantifier": "all models and pairs of datasets", "why_tests_cant": "The claim ranges over every history of calls; a test exercises one or two call sequences.", "anchors": ["refellips/objectiveSE.py:ObjectiveSE.__init__", "refellips/reflect_modelSE.py:ReflectModelSE._flip_delta"]}
{"id": "C13", "title": "batch evaluation equals point-by-point evaluation", "statement": "model(X)[i] for a float array X equals model evaluated on row i alone: results do not depend on the other rows, on their order or on repeated wavelengths; permuting rows permutes results.", "quantifier": "all arrays X (any length, order, repetition), all structures", "why_tests_cant": "all lengths and permutations", "anchors": ["refellips/reflect_modelSE.py:ReflectModelSE.model", "refellips/reflect_modelSE.py:Delta_Psi_TMM", "refellips/reflect_modelSE.py:coh_tmm"]}
{"id": "C14", "title": "integer wavelength arrays", "statement": "model(X) should not depend on whether X is stored as integers or floats. The output arrays inherit the dtype of the wavelength column, so for an integer X every psi and delta is truncated towards zero; the claim is false.", "quantifier": "all integer arrays X", "why_tests_cant": "quantifies over all integer inputs", "anchors": ["refellips/reflect_modelSE.py:ReflectModelSE.model"]}
{"id": "C15", "title": "model evaluation does not depend on, and leaves behind, structure.wavelength", "statement": "The output of model(X) does not depend on the wavelength stored in the structure beforehand; afterwards the structure's wavelength is the largest wavelength in X (unchanged for empty X), nothing else in the structure changes.", "quantifier": "all structures, arrays and prior wavelengths", "why_tests_cant": "The claim ranges over every history of calls; a test exercises one or two call sequences.", "anchors": ["refellips/reflect_modelSE.py:ReflectModelSE.model"]}
{"id": "C16", "title": "psi and delta encode rp/rs", "statement": "Whenever the amplitudes are finite and non-zero, Delta_Psi_TMM's psi (deg) is in [0,90), delta-delta_offset (deg) is in (0,360], and tan(psi)*exp(-i*delta) = r_p/r_s; these determine psi and delta uniquely.", "quantifier": "all stacks, angles, wavelengths, offsets", "why_tests_cant": "The domain is a continuum of reals (or unbounded lists of them); a test samples finitely many points.", "anchors": ["refellips/reflect_modelSE.py:Delta_Psi_TMM"]}
{"id": "C17", "title": "reflect_delta folds delta about 180 degrees", "statement": "With reflect_delta the returned delta-offset lies in [0,180], has the same cosine as without it, equals it when that was at most 180 and is 360 minus it otherwise; psi is unaffected; the offset is added after folding.", "quantifier": "all stacks, angles, wavelengths, offsets", "why_tests_cant": "The domain is a continuum of reals (or unbounded lists of them); a test samples finitely many points.", "anchors": ["refellips/reflect_modelSE.py:Delta_Psi_TMM"]}
{"id": "C18", "title": "inputs that Delta_Psi_TMM ignores", "statement": "Roughnesses, the thickness of fronting and backing media and the extinction coefficient of the fronting medium have no influence on psi and delta.", "quantifier": "all layer tables with at least two rows", "why_tests_cant": "The domain is a continuum of reals (or unbounded lists of them); a test samples finitely many points.", "anchors": ["refellips/reflect_modelSE.py:Delta_Psi_TMM"]}
{"id": "C19", "title": "normal incidence", "statement": "At normal incidence every stack (with non-vanishing reflection) gives r_p = -r_s, hence psi = 45 and delta = 180 (plus offset) degrees.", "quantifier": "all stacks of any number of layers", "why_tests_cant": "all numbers of layers", "anchors": ["refellips/reflect_modelSE.py:coh_tmm", "refellips/reflect_modelSE.py:Delta_Psi_TMM"]}
{"id": "C20", "title": "symmetry in the angle of incidence", "statement": "AOI, -AOI, 180-AOI give the same psi and delta (no total reflection in the backing medium).", "quantifier": "all stacks and angles", "why_tests_cant": "The domain is a continuum of reals (or unbounded lists of them); a test samples finitely many points.", "anchors": ["refellips/reflect_modelSE.py:coh_tmm", "refellips/reflect_modelSE.py:Delta_Psi_TMM"]}
{"id": "C21", "title": "only thickness/wavelength ratios matter", "statement": "Scaling all thicknesses and the wavelength by the same positive factor (at fixed refractive indices) leaves psi and delta unchanged; thicknesses in Angstrom and wavelength in nm are related by a factor of ten.", "quantifier": "all stacks, factors", "why_tests_cant": "The domain is a continuum of reals (or unbounded lists of them); a test samples finitely many points.", "anchors": ["refellips/reflect_modelSE.py:Delta_Psi_TMM", "refellips/reflect_modelSE.py:coh_tmm"]}
{"id": "C22", "title": "the transfer matrix solves Maxwell's boundary value problem", "statement": "If coh_tmm returns finite r and t, then there are forward/backward amplitudes in every layer satisfying tangential-field continuity at each interface and propagation phases in each layer, with unit incident amplitude, reflected amplitude r, transmitted amplitude t and no wave coming from the backing; and r, t are the only such numbers. Snell's law holds in each layer.", "quantifier": "all stacks of any number of layers, both polarisations", "why_tests_cant": "all numbers of layers, continuum of values", "anchors": ["refellips/reflect_modelSE.py:coh_tmm", "refellips/reflect_modelSE.py:interface_r_s", "refellips/reflect_modelSE.py:interface_r_p", "refellips/reflect_modelSE.py:interface_t_s", "refellips/reflect_modelSE.py:interface_t_p"]}
{"id": "C23", "title": "zero-thickness layers are invisible", "statement": "Inserting a layer of zero thickness anywhere between fronting and backing does not change r_s, r_p, t_s, t_p.", "quantifier": "all stacks, positions, layer indices", "why_tests_cant": "all numbers of layers", "anchors": ["refellips/reflect_modelSE.py:coh_tmm"]}
{"id": "C24", "title": "splitting a layer", "statement": "Replacing a layer of thickness d1+d2 by two layers of the same material of thickness d1 and d2 does not change r_s, r_p, t_s, t_p (below the opaque cut-off).", "quantifier": "all stacks, positions, thicknesses", "why_tests_cant": "all numbers of layers", "anchors": ["refellips/reflect_modelSE.py:coh_tmm"]}
{"id": "C25", "title": "the sign chosen for the wavevector in inner layers does not matter", "statement": "Choosing the other square-root branch for cos(theta) in any inner layer leaves r and t unchanged (so the code may ignore the forward-angle test there).", "quantifier": "all stacks, all subsets of inner layers", "why_tests_cant": "all numbers of layers", "anchors": ["refellips/reflect_modelSE.py:coh_tmm"]}
{"id": "C26", "title": "the transmitted wave is outgoing or decaying", "statement": "The wavevector used for the backing medium must have non-negative imaginary part (decays) and, when real, be outgoing. True for absorbing backings and for transparent backings without total reflection; false for total internal reflection at a transparent backing, where coh_tmm uses the exponentially growing wave.", "quantifier": "all passive backing media, fronting media and angles", "why_tests_cant": "The domain is a continuum of reals (or unbounded lists of them); a test samples finitely many points.", "anchors": ["refellips/reflect_modelSE.py:coh_tmm"]}
{"id": "C27", "title": "energy conservation and passivity", "statement": "For a transparent stack |r|^2 + (Re(n_N cos_N)/(n_0 cos_0))|t|^2 = 1; for absorbing stacks the left side is at most 1; hence |r| <= 1. (s and p, with the p flux factor.)", "quantifier": "all passive stacks of any number of layers", "why_tests_cant": "all numbers of layers", "anchors": ["refellips/reflect_modelSE.py:coh_tmm"]}
{"id": "C28", "title": "the calculation is always well defined for passive stacks", "statement": "For every stack of passive media (n>0,k>=0), incidence below 90 degrees and a backing that carries flux away, all of coh_tmm's divisions are by non-zero numbers: r and t are finite.", "quantifier": "all passive stacks of any number of layers", "why_tests_cant": "all numbers of layers", "anchors": ["refellips/reflect_modelSE.py:coh_tmm"]}
{"id": "C29", "title": "reciprocity", "statement": "The transmission of the reversed stack satisfies t_rev * n_0 cos_0 = t * n_N cos_N: light path reversal.", "quantifier": "all stacks", "why_tests_cant": "all numbers of layers", "anchors": ["refellips/reflect_modelSE.py:coh_tmm"]}
{"id": "C30", "title": "opaque-layer cut-off", "statement": "Capping Im(delta) at 35 only affects layers with Im(delta) > 35, leaves Re(delta) alone, is applied per point, and changes the reflection amplitude of a film/substrate stack by at most a fixed multiple of exp(-70).", "quantifier": "all layers and stacks", "why_tests_cant": "The domain is a continuum of reals (or unbounded lists of them); a test samples finitely many points.", "anchors": ["refellips/reflect_modelSE.py:coh_tmm"]}
{"id": "C31", "title": "linear effective medium", "statement": "With ema='linear' the square of the returned index is (1-vf)*ri_A^2 + vf*ri_B^2; vf=0 gives ri_A, vf=1 gives ri_B (for indices in the right half plane) and the result has n >= 0.", "quantifier": "all complex indices and volume fractions", "why_tests_cant": "The domain is a continuum of reals (or unbounded lists of them); a test samples finitely many points.", "anchors": ["refellips/structureSE.py:overall_ri"]}
{"id": "C32", "title": "Maxwell-Garnett effective medium", "statement": "With ema='maxwell-garnett' the effective permittivity satisfies the Maxwell-Garnett relation with the given depolarisation factor, with limits ri_A, ri_B; when the denominator vanishes the result is 0.", "quantifier": "all complex indices, volume fractions, depolarisation factors", "why_tests_cant": "The domain is a continuum of reals (or unbounded lists of them); a test samples finitely many points.", "anchors": ["refellips/structureSE.py:overall_ri"]}
{"id": "C33", "title": "Bruggeman effective medium", "statement": "With ema='bruggeman' the effective permittivity satisfies the Bruggeman self-consistency equation; swapping the two materials and vf <-> 1-vf gives the same result; depolarisation factor 1 gives 0.", "quantifier": "all complex indices, volume fractions, depolarisation factors", "why_tests_cant": "The domain is a continuum of reals (or unbounded lists of them); a test samples finitely many points.", "anchors": ["refellips/structureSE.py:overall_ri"]}
{"id": "C34", "title": "Bruggeman pure-material limit", "statement": "vf=0 should return ri_A. True when the weighted permittivity (1-d)*E_A + d*E_B has positive real part; false for metals (negative real permittivity), where the other root of the quadratic is returned.", "quantifier": "all complex indices", "why_tests_cant": "The domain is a continuum of reals (or unbounded lists of them); a test samples finitely many points.", "anchors": ["refellips/structureSE.py:overall_ri"]}
{"id": "C35", "title": "mixing a material with itself", "statement": "ri_A = ri_B (in the right half plane, with positive real permittivity for bruggeman) returns that index for every ema, volume fraction and depolarisation factor != 1.", "quantifier": "all indices, vf, factors, methods", "why_tests_cant": "The domain is a continuum of reals (or unbounded lists of them); a test samples finitely many points.", "anchors": ["refellips/structureSE.py:overall_ri"]}
{"id": "C36", "title": "unknown mixing rules are rejected", "statement": "overall_ri raises RuntimeError exactly when ema is not one of the three documented names.", "quantifier": "all strings", "why_tests_cant": "all strings", "anchors": ["refellips/structureSE.py:overall_ri"]}
{"id": "C37", "title": "mixing stays between the constituents", "statement": "For real positive permittivities and vf, depolarisation factor in [0,1] (d<1 for bruggeman) all three rules return a permittivity between those of the constituents.", "quantifier": "all positive permittivities, vf, d in [0,1]", "why_tests_cant": "The domain is a continuum of reals (or unbounded lists of them); a test samples finitely many points.", "anchors": ["refellips/structureSE.py:overall_ri"]}
{"id": "C38", "title": "mixing passive media gives a passive medium", "statement": "If both constituents have non-negative extinction then the linear and Maxwell-Garnett mixtures have n,k >= 0. For bruggeman this is false (wrong root).", "quantifier": "all passive indices, vf and d in [0,1]", "why_tests_cant": "The domain is a continuum of reals (or unbounded lists of them); a test samples finitely many points.", "anchors": ["refellips/structureSE.py:overall_ri"]}
{"id": "C39", "title": "depolarisation factor validation", "statement": "Assigning structure.depolarisation_factor accepts exactly [0,1] and otherwise raises ValueError leaving the old value; the constructor performs no such check, so structures with factors outside [0,1] exist.", "quantifier": "all values and assignment histories", "why_tests_cant": "The claim ranges over every history of calls; a test exercises one or two call sequences.", "anchors": ["refellips/structureSE.py:StructureSE.depolarisation_factor", "refellips/structureSE.py:StructureSE.__init__"]}
{"id": "C40", "title": "slab table of a structure", "statement": "slabs() of a non-empty structure with SlabSE ends and default interfaces has one row per component, in component order, holding thickness, index at the structure's wavelength, roughness and solvent fraction (before solvation); an empty structure gives None; other end components raise ValueError.", "quantifier": "all component lists", "why_tests_cant": "all lengths", "anchors": ["refellips/structureSE.py:StructureSE.slabs", "refellips/structureSE.py:SlabSE.slabs", "refellips/structureSE.py:MixedSlabSE.slabs"]}
{"id": "C41", "title": "reversing a structure", "statement": "reverse_structure reverses the slab order while keeping each roughness attached to its interface (row i of the reversed table carries the roughness between reversed rows i-1 and i; row 0 gets 0); reversing twice restores everything but the first roughness.", "quantifier": "all slab tables", "why_tests_cant": "all lengths", "anchors": ["refellips/structureSE.py:StructureSE.slabs"]}
{"id": "C42", "title": "solvation", "statement": "Solvation changes only the index columns of inner slabs: each becomes the effective-medium mix of the slab and the solvent with its solvent fraction; the solvent is the explicit solvent at the structure's wavelength or else the last row after any reversal; end rows, thicknesses, roughnesses and fractions are untouched; with the linear rule slabs with zero fraction are untouched; nothing happens if no fraction is positive.", "quantifier": "all slab tables, solvents", "why_tests_cant": "all lengths", "anchors": ["refellips/structureSE.py:StructureSE.slabs", "refellips/structureSE.py:StructureSE.overall_ri"]}
{"id": "C43", "title": "bruggeman solvation leaves unsolvated layers alone", "statement": "A layer with zero solvent fraction should not change when another layer is solvated. False with ema='bruggeman' for metallic layers.", "quantifier": "all slab tables", "why_tests_cant": "The domain is a continuum of reals (or unbounded lists of them); a test samples finitely many points.", "anchors": ["refellips/structureSE.py:StructureSE.slabs", "refellips/structureSE.py:overall_ri"]}
{"id": "C44", "title": "the | operator concatenates", "statement": "a | b has the components of a followed by those of b (scatterers become zero-thickness slabs), | is associative on components, and neither operand is changed; anything else raises ValueError.", "quantifier": "all operands, any number of them", "why_tests_cant": "all lengths and bracketings", "anchors": ["refellips/structureSE.py:StructureSE.__or__", "refellips/structureSE.py:StructureSE.__ior__", "refellips/structureSE.py:ComponentSE.__or__", "refellips/structureSE.py:StructureSE.append"]}
{"id": "C45", "title": "the | operator and copy keep the settings of a structure", "statement": "Settings (solvent, ema, depolarisation factor, contract, wavelength, reverse_structure) should survive | and copy. False: | resets all of them to defaults and copy keeps only name and solvent.", "quantifier": "all structures", "why_tests_cant": "The domain is a continuum of reals (or unbounded lists of them); a test samples finitely many points.", "anchors": ["refellips/structureSE.py:StructureSE.__or__", "refellips/structureSE.py:StructureSE.__copy__"]}
{"id": "C46", "title": "repeating a component", "statement": "component * n has n copies for n >= 2, none for n < 1, and is the component itself for n = 1.", "quantifier": "all integers n", "why_tests_cant": "all n", "anchors": ["refellips/structureSE.py:ComponentSE.__mul__"]}
{"id": "C47", "title": "the constructor silently drops non-components", "statement": "StructureSE(components) keeps exactly the ComponentSE members in order, whereas append accepts scatterers and raises for others: building by constructor and by append agree exactly when all members are components.", "quantifier": "all argument lists", "why_tests_cant": "all lengths", "anchors": ["refellips/structureSE.py:StructureSE.__init__", "refellips/structureSE.py:StructureSE.append"]}
{"id": "C48", "title": "ri_profile alignment", "statement": "align=k places interface k (k>=0, between slabs k and k+1) or python index -j (the interface in front of slab n-j) at z=0, i.e. subtracts the total thickness in front of it not counting fronting and backing; indices out of range raise RuntimeError; align=0 leaves z alone.", "quantifier": "all slab tables and integers align", "why_tests_cant": "all lengths and indices", "anchors": ["refellips/structureSE.py:StructureSE.ri_profile"]}
{"id": "C49", "title": "nm/eV conversion", "statement": "nm_eV_conversion is its own inverse on non-zero numbers, positive on positive numbers and strictly decreasing there.", "quantifier": "all non-zero reals", "why_tests_cant": "The domain is a continuum of reals (or unbounded lists of them); a test samples finitely many points.", "anchors": ["refellips/structureSE.py:nm_eV_conversion"]}
{"id": "C50", "title": "tabulated dispersion curves", "statement": "RI.complex at a wavelength of the table returns the tabulated value; between two nodes it is the linear interpolant and lies between them; outside the range it is the end value; with increasing tables it is bounded by the extreme tabulated values.", "quantifier": "all increasing tables, all wavelengths", "why_tests_cant": "The domain is a continuum of reals (or unbounded lists of them); a test samples finitely many points.", "anchors": ["refellips/dispersion.py:RI.complex"]}
{"id": "C51", "title": "unit handling of tabulated curves", "statement": "Tables supplied in micrometres (file or 3-tuple) are looked up with wavelengths in nm: complex(1000*w_i) = n_i + i k_i. A file without a second row is the exception: it is read without complaint and then every lookup raises ValueError.", "quantifier": "all tables", "why_tests_cant": "The domain is a continuum of reals (or unbounded lists of them); a test samples finitely many points.", "anchors": ["refellips/dispersion.py:RI.__init__", "refellips/dispersion.py:RI.complex"]}
{"id": "C52", "title": "constructing an RI does not alter its input", "statement": "RI((wav, n, k)) should leave the caller's arrays alone, and two RI objects made from the same arrays should agree. False: the wavelength array is multiplied by 1000 in place (so a second construction is off by a factor of 1000) and a list is repeated 1000 times.", "quantifier": "all arrays, all sequences of constructions", "why_tests_cant": "The claim ranges over every history of calls; a test exercises one or two call sequences.", "anchors": ["refellips/dispersion.py:RI.__init__"]}
{"id": "C53", "title": "RI takes its name from the file", "statement": "An RI made from a file without explicit name should be named after the file. False: the derived name is assigned to a local variable and the object's name stays empty.", "quantifier": "all paths", "why_tests_cant": "The domain is a continuum of reals (or unbounded lists of them); a test samples finitely many points.", "anchors": ["refellips/dispersion.py:RI.__init__", "refellips/dispersion.py:load_material"]}
{"id": "C54", "title": "default wavelength", "statement": "complex(w) with w non-zero does not depend on the object's default wavelength; complex(None) and complex(0) use the default.", "quantifier": "all scatterers, wavelengths", "why_tests_cant": "The domain is a continuum of reals (or unbounded lists of them); a test samples finitely many points.", "anchors": ["refellips/structureSE.py:ScattererSE.complex", "refellips/dispersion.py:RI.complex", "refellips/dispersion.py:Cauchy.complex", "refellips/dispersion.py:Sellmeier.complex"]}
{"id": "C55", "title": "Cauchy formula", "statement": "Cauchy.complex(w) = A + B/(w um)^2 + C/(w um)^4, is real, and strictly decreases with wavelength when B, C >= 0 and not both zero; it need not otherwise (the FAQ claims it always decreases).", "quantifier": "all parameters, wavelengths", "why_tests_cant": "The domain is a continuum of reals (or unbounded lists of them); a test samples finitely many points.", "anchors": ["refellips/dispersion.py:Cauchy.complex"]}
{"id": "C56", "title": "Sellmeier formula", "statement": "Sellmeier.complex(w)^2 = Sellmeier.epsilon(w) whenever that is non-negative, otherwise NaN; for Am,P >= 0 the index decreases with wavelength on each side of the resonance.", "quantifier": "all parameters, wavelengths", "why_tests_cant": "The domain is a continuum of reals (or unbounded lists of them); a test samples finitely many points.", "anchors": ["refellips/dispersion.py:Sellmeier.complex", "refellips/dispersion.py:Sellmeier.epsilon"]}
{"id": "C57", "title": "Lorentz oscillators are passive and causal", "statement": "For Am, Br >= 0 the imaginary part of epsilon is non-negative at every energy >= 0 (k >= 0, n >= 0), epsilon(-e) = conj(epsilon(e)), the sum does not depend on the order of the oscillators, each oscillator contributes additively, and for Br > 0 no pole lies in the closed upper half plane.", "quantifier": "any number of oscillators, all parameters and energies", "why_tests_cant": "all numbers of oscillators", "anchors": ["refellips/dispersion.py:Lorentz.epsilon"]}
{"id": "C58", "title": "Gauss oscillators are passive", "statement": "For Am, Br, En >= 0 the imaginary part of epsilon is non-negative at every energy >= 0 and odd in the energy; oscillators contribute additively and in any order; energies beyond 20 eV give the 20 eV value.", "quantifier": "any number of oscillators, all parameters and energies", "why_tests_cant": "all numbers of oscillators", "anchors": ["refellips/dispersion.py:Gauss.epsilon"]}
{"id": "C59", "title": "Tauc-Lorentz absorption", "statement": "The imaginary part of epsilon is zero at and below the band gap, non-negative above it, additive over the oscillators and independent of their order.", "quantifier": "any number of oscillators, all parameters and energies", "why_tests_cant": "all numbers of oscillators", "anchors": ["refellips/dispersion.py:TaucLorentz.epsilon"]}
{"id": "C60", "title": "Tauc-Lorentz is defined on its documented domain", "statement": "epsilon should be finite for C < 2*En, En > Eg and every positive energy. False: for sqrt(2)*En < C < 2*En and at energy = Eg the result is NaN.", "quantifier": "all documented parameter values and energies", "why_tests_cant": "The domain is a continuum of reals (or unbounded lists of them); a test samples finitely many points.", "anchors": ["refellips/dispersion.py:TaucLorentz.epsilon"]}
{"id": "C61", "title": "oscillator lists must match", "statement": "Lorentz, Gauss and TaucLorentz raise ValueError exactly when the three parameter sequences differ in length.", "quantifier": "all lists", "why_tests_cant": "all lengths", "anchors": ["refellips/dispersion.py:Lorentz.__init__", "refellips/dispersion.py:Gauss.__init__", "refellips/dispersion.py:TaucLorentz.__init__"]}
{"id": "C62", "title": "bundled materials", "statement": "Every bundled dispersion curve is sorted in wavelength with n > 0 and k >= 0, so load_material(m).complex(w) is a passive index (n>0,k>=0) for every wavelength; unknown names raise ValueError; the curve shipped as aluminium_oxide is strongly absorbing (k >= 1.9) at every wavelength, i.e. is not alumina. n and k of every material stay, at every wavelength, within the range of the values in its file.", "quantifier": "all bundled tables and all wavelengths", "why_tests_cant": "The domain is a continuum of reals (or unbounded lists of them); a test samples finitely many points.", "anchors": ["refellips/dispersion.py:load_material", "refellips/dispersion.py:materials", "refellips/materials/*.csv"]}
{"id": "C63", "title": "masking", "statement": "wavelength, aoi, psi, delta and data return the unmasked points in order, consistently across the four columns; len() is their number; with an all-true mask they return everything; setting data clears the mask and copies its input.", "quantifier": "all datasets and masks", "why_tests_cant": "all lengths", "anchors": ["refellips/dataSE.py:DataSE.data", "refellips/dataSE.py:DataSE.wavelength", "refellips/dataSE.py:DataSE.__len__"]}
{"id": "C64", "title": "mask=None clears the mask", "statement": "The documentation says mask=None clears the mask. False: indexing with None adds an axis and the columns become 1 x N arrays.", "quantifier": "all non-empty datasets", "why_tests_cant": "The domain is a continuum of reals (or unbounded lists of them); a test samples finitely many points.", "anchors": ["refellips/dataSE.py:DataSE"]}
{"id": "C65", "title": "unique_wavelength_data partitions the data", "statement": "It yields each distinct unmasked wavelength once, in increasing order, with exactly the unmasked points at that wavelength, in data order: together they are all points, none lost or duplicated.", "quantifier": "all datasets and masks", "why_tests_cant": "all lengths", "anchors": ["refellips/dataSE.py:DataSE.unique_wavelength_data"]}
{"id": "C66", "title": "save then load", "statement": "Loading a file written by save gives back the four unmasked columns; the mask is not saved.", "quantifier": "all datasets with at least two points", "why_tests_cant": "all lengths", "anchors": ["refellips/dataSE.py:DataSE.save", "refellips/dataSE.py:DataSE.load"]}
{"id": "C67", "title": "header detection when loading by name", "statement": "load(path) skips exactly the leading lines whose first field is not a number (up to 100) and reads all rows after them.", "quantifier": "all files", "why_tests_cant": "all files", "anchors": ["refellips/dataSE.py:DataSE.load"]}
{"id": "C68", "title": "loading from an open file, refresh", "statement": "Loading the same file through an open handle (as refresh does) should give the same data as loading it by name. False: header detection consumes the handle, so the first data row and as many further rows as there are header lines are lost; refresh also undoes reflect_delta and keeps the old mask; if the handle is opened for writing the file is truncated.", "quantifier": "all files", "why_tests_cant": "The claim ranges over every history of calls; a test exercises one or two call sequences.", "anchors": ["refellips/dataSE.py:DataSE.load", "refellips/dataSE.py:DataSE.refresh"]}
{"id": "C69", "title": "reflect_delta in datasets", "statement": "With reflect_delta every delta in [0,360] is folded to [0,180] with the same cosine, folding twice changes nothing, and _delta_flipped tells the objective.", "quantifier": "all datasets", "why_tests_cant": "The domain is a continuum of reals (or unbounded lists of them); a test samples finitely many points.", "anchors": ["refellips/dataSE.py:DataSE.__init__"]}
{"id": "C70", "title": "datasets do not alias their input", "statement": "Constructing DataSE(other, reflect_delta=True) should not alter other, and a copy of a folded dataset should be marked as folded. Both are false. A copy follows the file of the original: refresh reads the same columns into both, or fails for both.", "quantifier": "all datasets, all construction sequences", "why_tests_cant": "The claim ranges over every history of calls; a test exercises one or two call sequences.", "anchors": ["refellips/dataSE.py:DataSE.__init__"]}
{"id": "C71", "title": "EP4: averaging of repeated measurements", "statement": "For a single location the loader returns one point per distinct (AOI, wavelength), sorted by AOI then wavelength, holding the arithmetic mean of psi and of delta over its rows; every row contributes to exactly one point.", "quantifier": "all tables", "why_tests_cant": "all lengths", "anchors": ["refellips/dataSE.py:_loadEP4", "refellips/dataSE.py:open_EP4file"]}
{"id": "C72", "title": "EP4: delta is averaged as an angle", "statement": "Averaging deltas on either side of 0/360 should give a delta near 0/360. False: the arithmetic mean gives 180.", "quantifier": "all tables", "why_tests_cant": "The domain is a continuum of reals (or unbounded lists of them); a test samples finitely many points.", "anchors": ["refellips/dataSE.py:_loadEP4"]}
{"id": "C73", "title": "EP4: areas partition the rows", "statement": "For a map without time series, the areas are consecutive non-empty blocks of rows whose concatenation is the whole table; within an area all positions are within tolerance of the first; no row is lost.", "quantifier": "all tables", "why_tests_cant": "all lengths", "anchors": ["refellips/dataSE.py:_loadEP4"]}
{"id": "C74", "title": "EP4: time series of maps", "statement": "Rows of every time step should appear in the output. False: block ends are computed from lengths but used as row labels, so for later time steps trailing areas come out truncated or empty; and only the last area of a time step is labelled with its time.", "quantifier": "all tables", "why_tests_cant": "The claim ranges over every history of calls; a test exercises one or two call sequences.", "anchors": ["refellips/dataSE.py:_loadEP4", "refellips/dataSE.py:open_EP4file"]}
{"id": "C75", "title": "Horiba: sections and cut-offs", "statement": "Parsing a Horiba file made of '#'-headed, blank-line separated sections returns each section's lines under its label; exactly the rows with lo < wavelength < hi are kept, at the angle in the first five characters of the INCIDENCE ANGLE section. A missing section or column, or a Python without the codec 'ANSI', raises. A title that is not preceded by a blank line is not recognised.", "quantifier": "all section lists, all cut-offs", "why_tests_cant": "all lengths", "anchors": ["refellips/dataSE.py:open_HORIBAfile"]}
{"id": "C76", "title": "M2000 static files", "statement": "A file of three-line records yields exactly the wavelength, angle, psi, delta of every dropdatapoints-th record, in order, whatever the number of records. False for an open file handle: its first record is lost.", "quantifier": "all record lists and strides", "why_tests_cant": "all lengths", "anchors": ["refellips/dataSE.py:_open_M2000file_standard"]}
{"id": "C77", "title": "M2000 time series keys", "statement": "Each time step should get its own entry. True if the times differ after rounding to 0.1 s; false otherwise, later steps silently replace earlier ones. take_every keeps every n-th step.", "quantifier": "all tables", "why_tests_cant": "all lengths", "anchors": ["refellips/dataSE.py:_open_M2000file_kinetic"]}
{"id": "C78", "title": "FilmSense N, C, S inversion", "statement": "For N=cos 2psi, C=sin 2psi cos delta, S = sin 2psi sin delta with 0<psi<90 and 0<=delta<360 the loader recovers psi and delta exactly; delta is always in [0,360).", "quantifier": "all psi, delta", "why_tests_cant": "The domain is a continuum of reals (or unbounded lists of them); a test samples finitely many points.", "anchors": ["refellips/dataSE.py:_open_FilmSenseFile_standard", "refellips/dataSE.py:_open_FilmSenseFile_dynamic"]}
{"id": "C79", "title": "FilmSense dispatch and layout", "statement": "Files are dispatched on their first line, other files are rejected; a well-formed file with W wavelengths and T time steps gives T datasets with W points each, point j taken from fields 5j+1.. of the line.", "quantifier": "all W, T", "why_tests_cant": "all sizes", "anchors": ["refellips/dataSE.py:open_FilmSenseFile", "refellips/dataSE.py:_open_FilmSenseFile_dynamic", "refellips/dataSE.py:_parse_FilmSenseFileHeader"]}
{"id": "C80", "title": "custom_round", "statement": "custom_round(x, 0.25) is the multiple of 0.25 nearest to x; it is idempotent; for bases that are not a multiple of 0.01 the result need not be a multiple of the base.", "quantifier": "all reals", "why_tests_cant": "The domain is a continuum of reals (or unbounded lists of them); a test samples finitely many points.", "anchors": ["refellips/dataSE.py:custom_round"]}
{"id": "C81", "title": "plotting a structure leaves it alone", "statement": "plot_structure should not change the structure's settings. False: reverse_structure is always False afterwards and wavelength is the last one plotted.", "quantifier": "all structures", "why_tests_cant": "The claim ranges over every history of calls; a test exercises one or two call sequences.", "anchors": ["tools/plottools.py:plot_structure"]}
{"id": "C82", "title": "the layer table passed to Delta_Psi_TMM", "statement": "Delta_Psi_TMM should not modify its arguments. False: it overwrites the extinction coefficient of the first row with 0 (only that entry).", "quantifier": "all layer tables", "why_tests_cant": "The domain is a continuum of reals (or unbounded lists of them); a test samples finitely many points.", "anchors": ["refellips/reflect_modelSE.py:Delta_Psi_TMM"]}
{"id": "C83", "title": "an undefined index stays visible after solvation", "statement": "A layer whose index is nan should have index nan in the slab table. True for the linear and Maxwell-Garnett rules, false for the Bruggeman rule, which reports index 0.", "quantifier": "all slab tables", "why_tests_cant": "The domain is a continuum of reals (or unbounded lists of them); a test samples finitely many points.", "anchors": ["refellips/structureSE.py:StructureSE.slabs", "refellips/structureSE.py:StructureSE.overall_ri", "refellips/structureSE.py:overall_ri"]}
{"id": "C84", "title": "the objective reads nothing but its parameters", "statement": "residuals(), chisqr(), logp(), logl() and logpost() are determined by the values of the parameters listed in objective.parameters (for a given delta convention): parameters outside that list, and the wavelength left in the structure by earlier evaluations, have no influence. So no parameter that affects a fit can be missing from the list.", "quantifier": "all structures (Slab, MixedSlab, user components; all dispersion classes), solvents, datasets and pairs of states", "why_tests_cant": "The domain is a continuum of reals (or unbounded lists of them); a test samples finitely many points.", "anchors": ["refellips/objectiveSE.py:ObjectiveSE.parameters", "refellips/objectiveSE.py:ObjectiveSE.residuals", "refellips/structureSE.py:SlabSE.parameters", "refellips/structureSE.py:MixedSlabSE.parameters", "refellips/dispersion.py:Cauchy.parameters", "refellips/dispersion.py:Lorentz.parameters"]}
{"id": "C85", "title": "log-prior of interval bounds", "statement": "For parameters bounded by finite intervals logp(v) is minus the sum of the logarithms of the interval widths when every value lies in its interval, and -inf as soon as one does not.", "quantifier": "all numbers of parameters, bounds, vectors", "why_tests_cant": "The domain is a continuum of reals (or unbounded lists of them); a test samples finitely many points.", "anchors": ["refellips/objectiveSE.py:ObjectiveSE.logp"]}
{"id": "C86", "title": "datasets returned by the file loaders", "statement": "A dataset built by a loader reports through its getters exactly the loaded points, unmasked, with delta folded about 180 degrees if and only if reflect_delta was given, and building it changes no array that existed before.", "quantifier": "all heaps, lists of points", "why_tests_cant": "The domain is a continuum of reals (or unbounded lists of them); a test samples finitely many points.", "anchors": ["refellips/dataSE.py:DataSE.__init__", "refellips/dataSE.py:open_EP4file", "refellips/dataSE.py:open_HORIBAfile", "refellips/dataSE.py:open_M2000file", "refellips/dataSE.py:open_FilmSenseFile"]}
{"id": "C87", "title": "Tauc-Lorentz: causality of the closed-form real part", "statement": "The long closed form (with logarithms and arctangents) that TaucLorentz evaluates for the real part of the dielectric function is exactly Einf plus the Kramers-Kronig transform, (2/pi) P int_0^oo xi e2(xi)/(xi^2-E^2) dxi, of the absorption it reports, below and above the band gap. The transform determines the real part, so any wrong sign or factor in the closed form breaks this.", "quantifier": "all lists of oscillators with C>0, En>0, C^2<=2 En^2; all gaps Eg>=0; all photon energies but E=Eg", "why_tests_cant": "The domain is a continuum of reals (or unbounded lists of them); a test samples finitely many points.", "anchors": ["refellips/dispersion.py:TaucLorentz.epsilon"]}
{"id": "C88", "title": "Lorentz oscillators: causality", "statement": "The real part of the Lorentz dielectric function is Einf plus the Kramers-Kronig transform of its imaginary part, for under-, critically and over-damped oscillators.", "quantifier": "all lists of oscillators with positive broadening and centre; all photon energies", "why_tests_cant": "The domain is a continuum of reals (or unbounded lists of them); a test samples finitely many points.", "anchors": ["refellips/dispersion.py:Lorentz.epsilon"]}
{"id": "C89", "title": "ObjectiveSE.plot shows the fit it claims to show", "statement": "ObjectiveSE.plot draws the unmasked data points, and one curve per distinct wavelength (angle) at 50 equally spaced angles (wavelengths) from the least to the greatest measured one; every point of a curve is what the model predicts there with the current parameters. Without xaxis the angle is chosen exactly if the data hold several angles. At both ends the curves pass through the values that residuals() compares with the data. Empty data and unknown axes raise. Whatever the outcome, no parameter value and no later residuals/chisqr/logl/logpost changes.", "quantifier": "all systems, datasets, masks, states", "why_tests_cant": "The domain is a continuum of reals (or unbounded lists of them); a test samples finitely many points.", "anchors": ["refellips/objectiveSE.py:ObjectiveSE.plot"]}
{"id": "C90", "title": "plot_ellipsdata shows every angle", "statement": "plot_ellipsdata draws the data, the model curves with a margin of 5 degrees or 50 nm, and below them the residuals and chi-squared of the objective; inconsistent arguments raise AssertionError. Against the wavelength there should be a curve for every angle of the data: false, only the angle of the first data point gets one.", "quantifier": "all systems, datasets, states, combinations of arguments", "why_tests_cant": "The domain is a continuum of reals (or unbounded lists of them); a test samples finitely many points.", "anchors": ["tools/plottools.py:plot_ellipsdata"]}
{"id": "C91", "title": "StructureSE.plot restores the parameters", "statement": "After StructureSE.plot(samples=n) every parameter has its previous value, the last curve is the profile of the current structure and the others are the profiles for the sampled vectors. With pvals the values are set first and stay. If drawing a sample raises, the values are not restored (refuted).", "quantifier": "all structures, chains of samples, alignments, states", "why_tests_cant": "The domain is a continuum of reals (or unbounded lists of them); a test samples finitely many points.", "anchors": ["refellips/structureSE.py:StructureSE.plot", "refellips/structureSE.py:StructureSE.ri_profile"]}
{"id": "C92", "title": "model(p=...) is model() after setting the parameters", "statement": "ReflectModelSE.model(X, p) with one number per varying parameter is model(X) in the state in which the varying parameters, in order of first occurrence, have these numbers and no other parameter changed; the numbers stay. A vector of any other length (except the number of all parameters) raises ValueError and changes nothing.", "quantifier": "all systems, batches, vectors, states", "why_tests_cant": "The domain is a continuum of reals (or unbounded lists of them); a test samples finitely many points.", "anchors": ["refellips/reflect_modelSE.py:ReflectModelSE.model"]}
{"id": "C93", "title": "Which inputs coh_tmm and Delta_Psi_TMM reject", "statement": "coh_tmm raises AssertionError as soon as one angle has |Im n0 sin th| of 100 machine epsilons or more; otherwise IndexError with a single medium, and one result per point if there are as many thicknesses as indices. Other numbers of thicknesses: with two media they are not looked at; with a single film the first inner one counts (IndexError if there is none); with more layers a single inner thickness is used for every layer and any other number is a ValueError. An infinite thickness between the ends makes all amplitudes nan. Delta_Psi_TMM raises AssertionError when the fronting index is not finite (and there is an angle), IndexError with a single row, and else returns one pair per angle, all nan if another index is not finite.", "quantifier": "all index lists, thicknesses, angles, wavelengths", "why_tests_cant": "The domain is a continuum of reals (or unbounded lists of them); a test samples finitely many points.", "anchors": ["refellips/reflect_modelSE.py:coh_tmm", "refellips/reflect_modelSE.py:Delta_Psi_TMM"]}
{"id": "C94", "title": "Names of EP4 datasets tell them apart", "statement": "The name of every dataset returned by open_EP4file is the file name without its last 23 characters, followed by the position and the time of the measurement if there are any; two datasets with the same name have the same position and time, provided numbers are printed readably.", "quantifier": "all EP4 tables, file names, number printers that are injective on the numbers involved", "why_tests_cant": "The domain is a continuum of reals (or unbounded lists of them); a test samples finitely many points.", "anchors": ["refellips/dataSE.py:_make_EP4dname", "refellips/dataSE.py:open_EP4file"]}
{"id": "C95", "title": "model() returns what Maxwell's equations say the structure reflects", "statement": "For every structure of components with SlabSE ends and every batch of (wavelength, angle) points, ReflectModelSE.model returns one pair per point, and it encodes (up to the delta offset and the optional folding of delta) the quotient r_p/r_s of the unique amplitudes for which all boundary conditions in the stack of the structure's media hold; the media are those of the components at that wavelength, reversed and solvated as the structure says; |r| <= 1. Conditions: passive media, no contraction, default interfaces, no critical or opaque layer, no total reflection at the backing, both amplitudes nonzero.", "quantifier": "all structures (any number of SlabSE, MixedSlabSE and other components), dispersion models, effective medium rules, batches, offsets", "why_tests_cant": "The domain is a continuum of reals (or unbounded lists of them); a test samples finitely many points.", "anchors": ["refellips/reflect_modelSE.py:ReflectModelSE.model", "refellips/reflect_modelSE.py:Delta_Psi_TMM", "refellips/reflect_modelSE.py:coh_tmm", "refellips/structureSE.py:StructureSE.slabs"]}
{"id": "C96", "title": "circular_distance in double precision", "statement": "In IEEE double precision, for finite angles at most 360 degrees apart, circular_distance returns a finite number in [0,180] that does not depend on the order of the angles and differs from the true distance on the circle by at most 2^-45; it is exactly that distance when the angles are within a factor two of each other, and it is 0 only for equal angles or angles within 2^-45 of a full turn. nan in any argument gives nan.", "quantifier": "all pairs of finite doubles at most 360 apart; all doubles for nan", "why_tests_cant": "The domain is a continuum of reals (or unbounded lists of them); a test samples finitely many points.", "anchors": ["refellips/objectiveSE.py:circular_distance"]}
{"id": "C97", "title": "Folding delta in double precision", "statement": "In double precision the folding of delta leaves values up to 180 as they are, and maps values in (180,720] to 360 - delta without any rounding error; on [0,360] the result lies in [0,180] and folding again changes nothing; nan stays nan.", "quantifier": "all doubles", "why_tests_cant": "The domain is a continuum of reals (or unbounded lists of them); a test samples finitely many points.", "anchors": ["refellips/dataSE.py:DataSE.__init__"]}
{"id": "C98", "title": "custom_round in double precision", "statement": "With the default base 0.25, custom_round in double precision returns, for every finite x up to 2^45 in absolute value, exactly the multiple of 1/4 nearest to x (ties to the even multiple): none of its operations introduces an error; rounding again changes nothing.", "quantifier": "all finite doubles x with |x| <= 2^45", "why_tests_cant": "The domain is a continuum of reals (or unbounded lists of them); a test samples finitely many points.", "anchors": ["refellips/dataSE.py:custom_round"]}
{"id": "C99", "title": "nm_eV_conversion in double precision", "statement": "In double precision nm_eV_conversion is within 3 units 2^-53 of 1239.841984055/v (relative), converting back returns v within the same relative error, and it is positive and decreasing in v; zero gives infinity with the same sign, infinity gives 0, nan gives nan. Converting back does not always return v itself: 207 nm is a counterexample.", "quantifier": "all doubles v with 2^-800 <= |v| <= 2^800, and the special values", "why_tests_cant": "The domain is a continuum of reals (or unbounded lists of them); a test samples finitely many points.", "anchors": ["refellips/structureSE.py:nm_eV_conversion"]}
{"id": "C100", "title": "model.parameters lists exactly the parameters the calculation uses", "statement": "After any session in which scatterers, components, structures and models are built, structures are edited (append, |=, list operations, solvent and other settings, replacement of the structure of a model), parameters are changed and models are evaluated, ReflectModelSE.parameters lists exactly the parameters found in delta_offset, in the components now in the structure and in its solvent; two sets of numbers agreeing on these give the same psi and delta.", "quantifier": "all sessions (lists of statements of any length) that do not replace attributes of components or scatterers", "why_tests_cant": "The claim ranges over every history of calls; a test exercises one or two call sequences.", "anchors": ["refellips/reflect_modelSE.py:ReflectModelSE.structure", "refellips/reflect_modelSE.py:ReflectModelSE.parameters", "refellips/structureSE.py:SlabSE.__init__", "refellips/structureSE.py:MixedSlabSE.__init__", "refellips/structureSE.py:StructureSE.append"]}
{"id": "C101", "title": "Evaluating a model and failed statements leave no trace", "statement": "In every session, removing all evaluations of models changes the result of no later evaluation (they only leave a wavelength in the structures); a statement that raises leaves every object as it was (an evaluation: up to that wavelength). Anything other than a StructureSE given as a model's structure raises ValueError and is not stored.", "quantifier": "all sessions, statements, batches", "why_tests_cant": "The claim ranges over every history of calls; a test exercises one or two call sequences.", "anchors": ["refellips/reflect_modelSE.py:ReflectModelSE.model", "refellips/reflect_modelSE.py:ReflectModelSE.structure", "refellips/structureSE.py:StructureSE.append", "refellips/structureSE.py:StructureSE.solvent", "refellips/structureSE.py:StructureSE.depolarisation_factor"]}
{"id": "C102", "title": "Replacing an attribute of a slab keeps parameters current", "statement": "After slab.ri = other (or slab.thick = p, ...) the parameters of the slab should be those of its attributes. This is false: the list is made once by the constructor, so the new parameters are not listed (a fit cannot vary them although the result depends on them) and the old ones still are; no later statement changes the list of a component.", "quantifier": "refuted by a session; the list of every component in every session never changes", "why_tests_cant": "The claim ranges over every history of calls; a test exercises one or two call sequences.", "anchors": ["refellips/structureSE.py:SlabSE.__init__", "refellips/structureSE.py:SlabSE.parameters", "refellips/structureSE.py:MixedSlabSE.__init__"]}
{"id": "C103", "title": "The columns of a dataset stay equally long", "statement": "Through every history of constructing datasets (from files, columns and other datasets), assigning data, loading, refreshing, masking and writing into arrays, each dataset's four columns hold one table of points, as long as the columns that are assigned are equally long.", "quantifier": "all histories of any length, any number of datasets, any contents", "why_tests_cant": "The claim ranges over every history of calls; a test exercises one or two call sequences.", "anchors": ["refellips/dataSE.py:DataSE.__init__", "refellips/dataSE.py:DataSE.data", "refellips/dataSE.py:DataSE.load", "refellips/dataSE.py:DataSE.refresh", "refellips/dataSE.py:DataSE.mask"]}
{"id": "C104", "title": "A dataset's columns belong to it", "statement": "After data were assigned to or loaded into a dataset, no later operation on other datasets changes what it returns. This is false when another dataset is constructed from it with reflect_delta=True: that folds the delta of the original (refuted); it holds for every history without such copies. The flags, the file and the metadata never change.", "quantifier": "all histories of any length", "why_tests_cant": "The claim ranges over every history of calls; a test exercises one or two call sequences.", "anchors": ["refellips/dataSE.py:DataSE.__init__", "refellips/dataSE.py:DataSE.data"]}
{"id": "C105", "title": "The mask given to the constructor of DataSE masks points", "statement": "DataSE documents a constructor argument mask. It is ignored: every keyword lands in the metadata, the mask of a new dataset selects all points whatever keywords are given, and the dataset is the same as without them.", "quantifier": "all constructions from files, columns and datasets with all keywords", "why_tests_cant": "The domain is a continuum of reals (or unbounded lists of them); a test samples finitely many points.", "anchors": ["refellips/dataSE.py:DataSE.__init__"]}
{"id": "C106", "title": "A failed operation leaves the dataset as it was", "statement": "Assigning a tuple of fewer than four columns to data raises IndexError but has replaced the first columns already, after which reading the data raises as well (refuted). Every other operation that raises leaves all datasets unchanged.", "quantifier": "all histories and operations", "why_tests_cant": "The claim ranges over every history of calls; a test exercises one or two call sequences.", "anchors": ["refellips/dataSE.py:DataSE.data", "refellips/dataSE.py:DataSE.load", "refellips/dataSE.py:DataSE.refresh"]}
{"id": "C107", "title": "repr() of the objects is a closed expression", "statement": "In the text repr() gives for slabs, mixed slabs and datasets every bracket and quote is closed, whatever characters names and file names contain, if this holds for the texts of their parts. For ReflectModelSE it never holds: the closing bracket is missing, for every model, hence also for the objective it is in.", "quantifier": "all texts of the parts, all names of ASCII characters", "why_tests_cant": "The domain is a continuum of reals (or unbounded lists of them); a test samples finitely many points.", "anchors": ["refellips/structureSE.py:SlabSE.__repr__", "refellips/structureSE.py:MixedSlabSE.__repr__", "refellips/reflect_modelSE.py:ReflectModelSE.__repr__", "refellips/dataSE.py:DataSE.__repr__", "refellips/objectiveSE.py:ObjectiveSE.__repr__"]}
{"id": "C108", "title": "str(objective) reports the fit as it is", "statement": "str(objective) shows the chi-squared value and the values of the parameters as they are, changes no parameter and no flag, and raises exactly when chisqr() does. The number of datapoints it shows counts masked points too, so it is not the number of points fitted (refuted). str(data) determines name and number of points, str(scatterer) n and k.", "quantifier": "all systems, objectives, states; all masks", "why_tests_cant": "The claim ranges over every history of calls; a test exercises one or two call sequences.", "anchors": ["refellips/objectiveSE.py:ObjectiveSE.__str__", "refellips/objectiveSE.py:ObjectiveSE.npoints"]}
{"id": "C109", "title": "covar returns the inverse of J^T J", "statement": "If the differentiation returns the matrix of partial derivatives of the residuals and no direction of parameter space is lost in rounding, covar() returns the inverse of J^T J, times chi-squared per degree of freedom (residuals minus varying parameters) when the data are unweighted - whether the parameters were scaled or not.", "quantifier": "all systems, objectives, parameter values, numbers of residuals and parameters, differentiation procedures and singular value decompositions", "why_tests_cant": "The domain is a continuum of reals (or unbounded lists of them); a test samples finitely many points.", "anchors": ["refellips/objectiveSE.py:ObjectiveSE.covar"]}
{"id": "C110", "title": "A covariance matrix is symmetric and its variances are positive", "statement": "Whatever matrix the differentiation returned, the result of covar() is symmetric; with more residuals than varying parameters (or weighted data) it is positive semidefinite, and its variances are positive unless chi-squared is 0.", "quantifier": "all systems, objectives, states and matrices", "why_tests_cant": "The domain is a continuum of reals (or unbounded lists of them); a test samples finitely many points.", "anchors": ["refellips/objectiveSE.py:ObjectiveSE.covar"]}
{"id": "C111", "title": "covar reports the parameters without effect", "statement": "A varying parameter on which no residual depends makes covar() raise LinAlgError, and this is raised only if some column of the matrix is lost in rounding. As the residuals do not depend on lnsigma, covar() never returns for an objective whose lnsigma varies.", "quantifier": "all systems, objectives, states; central differences of any step", "why_tests_cant": "The domain is a continuum of reals (or unbounded lists of them); a test samples finitely many points.", "anchors": ["refellips/objectiveSE.py:ObjectiveSE.covar"]}
{"id": "C112", "title": "covar reports what the data do not determine", "statement": "Two parameters of which only a combination affects the residuals should be reported, too. They are not: covar() returns finite variances, and which ones depends on whether the parameters were scaled (refuted).", "quantifier": "witness: two perfectly correlated parameters, both paths", "why_tests_cant": "The domain is a continuum of reals (or unbounded lists of them); a test samples finitely many points.", "anchors": ["refellips/objectiveSE.py:ObjectiveSE.covar"]}
{"id": "C113", "title": "covar works at the best fit", "statement": "covar() is called at the best fit. If the fit of delta is perfect, the residual |delta difference| has a kink there, its central difference is 0, and covar() says that the parameter has no effect although the residual is the distance from the optimum (refuted).", "quantifier": "witness, for every step of the central differences up to 180 and every correct decomposition", "why_tests_cant": "The domain is a continuum of reals (or unbounded lists of them); a test samples finitely many points.", "anchors": ["refellips/objectiveSE.py:ObjectiveSE.covar", "refellips/objectiveSE.py:ObjectiveSE.residuals"]}
{"id": "C114", "title": "Variances are not negative", "statement": "With fewer residuals than varying parameters and unweighted data, every variance covar() returns is negative unless chi-squared is 0 (the claim is refuted, for every such case).", "quantifier": "all systems, objectives, states and matrices with fewer rows than columns", "why_tests_cant": "The domain is a continuum of reals (or unbounded lists of them); a test samples finitely many points.", "anchors": ["refellips/objectiveSE.py:ObjectiveSE.covar"]}
{"id": "C115", "title": "The parameters of a dispersion play their documented roles", "statement": "At every wavelength, the index of Cauchy, Sellmeier, Lorentz, Gauss and TaucLorentz objects is the documented formula evaluated at the present values of their Parameters: which Parameter is amplitude, broadening, energy, band gap or epsilon at infinity is not confused, and the i-th amplitude belongs to the i-th broadening and energy. The index is the square root of the dielectric function with nonnegative real part, the photon energy is 1239.841984055 eV nm / wavelength.", "quantifier": "all values of all parameters, any number of oscillators, all wavelengths", "why_tests_cant": "The domain is a continuum of reals (or unbounded lists of them); a test samples finitely many points.", "anchors": ["refellips/dispersion.py:Cauchy.complex", "refellips/dispersion.py:Sellmeier.epsilon", "refellips/dispersion.py:Lorentz.epsilon", "refellips/dispersion.py:Gauss.epsilon", "refellips/dispersion.py:TaucLorentz.epsilon"]}
{"id": "C116", "title": "Thicknesses an interference order apart give the same spectrum point", "statement": "Changing the thickness of a transparent layer, anywhere in the stack, by any whole number of w / (2 sqrt(n^2 - (n0 sin aoi)^2)) nm changes neither psi nor delta at that wavelength and angle, whatever the other layers are: one spectrum point never determines the thickness, so a fit from it has infinitely many solutions.", "quantifier": "all stacks, positions in the stack, thicknesses, angles below total reflection in the layer, wavelengths, offsets, whole numbers", "why_tests_cant": "The domain is a continuum of reals (or unbounded lists of them); a test samples finitely many points.", "anchors": ["refellips/reflect_modelSE.py:Delta_Psi_TMM", "refellips/reflect_modelSE.py:coh_tmm"]}
{"id": "C117", "title": "A bare substrate is determined by psi and delta", "statement": "For a substrate without layers the square of its index is the textbook inversion (n0 sin)^2 (1 + tan^2 ((1-rho)/(1+rho))^2) of rho = tan(psi) exp(-i (delta - offset)), so two passive substrates with the same psi and delta are the same; folding delta loses nothing.", "quantifier": "all ambients, substrates, angles between 0 and 90 degrees, offsets; passive substrates for the second part", "why_tests_cant": "The domain is a continuum of reals (or unbounded lists of them); a test samples finitely many points.", "anchors": ["refellips/reflect_modelSE.py:Delta_Psi_TMM"]}
{"id": "C118", "title": "Brewster's angle and total reflection", "statement": "On a bare passive substrate psi is 0 exactly if the substrate does not absorb and tan(angle) is the ratio of the indices; only then delta is undefined (nan). Under total reflection at the substrate, behind any transparent films, psi is exactly 45 degrees and delta is defined.", "quantifier": "all ambients, substrates, films, angles, wavelengths", "why_tests_cant": "The domain is a continuum of reals (or unbounded lists of them); a test samples finitely many points.", "anchors": ["refellips/reflect_modelSE.py:Delta_Psi_TMM", "refellips/reflect_modelSE.py:coh_tmm"]}
{"id": "C119", "title": "Psi and the delta residual depend continuously on the thicknesses", "statement": "Where the amplitudes exist and do not vanish, psi, the delta residual formed by the objective, and the folded delta are defined nearby and continuous when the thicknesses vary continuously. The unfolded delta is not (refuted): it jumps from 360 to near 0 degrees.", "quantifier": "all stacks, all continuous families of thicknesses", "why_tests_cant": "The domain is a continuum of reals (or unbounded lists of them); a test samples finitely many points.", "anchors": ["refellips/reflect_modelSE.py:Delta_Psi_TMM", "refellips/objectiveSE.py:ObjectiveSE.residuals"]}
{"id": "C120", "title": "Statements on parameters, structures and models do what they say and nothing else", "statement": "Assigning a value, a setting, the components, the solvent, the structure or the offset changes that and leaves every other object alone; append and |= add at the back; an operand of the wrong kind is refused and nothing changes; a constraint stays in force when a value is assigned; after s |= t, or after the structure of a model is replaced, the model computes what a newly built one computes.", "quantifier": "all sessions, objects and operands", "why_tests_cant": "The domain is a continuum of reals (or unbounded lists of them); a test samples finitely many points.", "anchors": ["refellips/structureSE.py:StructureSE.append", "refellips/structureSE.py:StructureSE.__ior__", "refellips/structureSE.py:StructureSE.solvent", "refellips/structureSE.py:StructureSE.__init__", "refellips/reflect_modelSE.py:ReflectModelSE.structure"]}
{"id": "C121", "title": "Assigning data and mask and copying datasets does what it says", "statement": "Assigning data replaces exactly the columns up to the first one that cannot be used and resets the mask only if all four can; assigning a mask changes nothing else; a dataset made from another takes over metadata, columns and file name; a dataset made from arrays shares them with the caller, so writing to the array changes the dataset.", "quantifier": "all histories, datasets and columns", "why_tests_cant": "The domain is a continuum of reals (or unbounded lists of them); a test samples finitely many points.", "anchors": ["refellips/dataSE.py:DataSE.data", "refellips/dataSE.py:DataSE.mask", "refellips/dataSE.py:DataSE.__init__"]}
{"id": "C122", "title": "repr of an object is the call that constructs it", "statement": "Read as Python, repr(SlabSE) and repr(MixedSlabSE) are calls of these classes that give every parameter of the constructor the value of the attribute of that name, and names of any characters are literals that denote them. For datasets, objectives and models the claim is refuted (but for the class name the objective's text gives every parameter its value, the model's lacks the closing bracket as well): the text names classes that refellips does not have or is no complete call, and the mask is not a parameter of the constructor. str of a scatterer states name, n and k.", "quantifier": "all names; all texts of the parts that are single values", "why_tests_cant": "The domain is a continuum of reals (or unbounded lists of them); a test samples finitely many points.", "anchors": ["refellips/structureSE.py:SlabSE.__repr__", "refellips/structureSE.py:MixedSlabSE.__repr__", "refellips/dataSE.py:DataSE.__repr__", "refellips/objectiveSE.py:ObjectiveSE.__repr__", "refellips/reflect_modelSE.py:ReflectModelSE.__repr__"]}
{"id": "C123", "title": "Input that is not a measurement is refused", "statement": "In M2000 and FilmSense files, a line with too few fields raises IndexError and one with a field that is no number ValueError, wherever it stands after good lines; nothing is returned. A Horiba file whose DATA section is empty raises TypeError, or ValueError if the file ends there. Datasets with columns of different lengths cannot be saved. A Gauss model without oscillators can be constructed, but evaluating it raises ValueError.", "quantifier": "all files, positions of the bad line and kinds of the error", "why_tests_cant": "The domain is a continuum of reals (or unbounded lists of them); a test samples finitely many points.", "anchors": ["refellips/dataSE.py:open_M2000file", "refellips/dataSE.py:open_FilmSenseFile", "refellips/dataSE.py:open_HORIBAfile", "refellips/dataSE.py:DataSE.save", "refellips/dispersion.py:Gauss.epsilon"]}
{"id": "C124", "title": "The objective is a sum over the points that are not masked", "statement": "Masking points gives the same residuals, chi-squared, log-likelihood and log-posterior (values, errors and state afterwards) as never having measured them. The order of the points changes none of chi-squared, log-likelihood and log-posterior. For the points of two datasets together, chi-squared and log-likelihood are the sums of those of the parts (defined exactly when both are), and the log-posterior counts the prior once. Leaving points out never increases chi-squared or makes it nan.", "quantifier": "all systems, objectives, datasets, permutations and splittings of the points, vectors and states", "why_tests_cant": "The domain is a continuum of reals (or unbounded lists of them); a test samples finitely many points.", "anchors": ["refellips/objectiveSE.py:ObjectiveSE.residuals", "refellips/objectiveSE.py:ObjectiveSE.chisqr", "refellips/objectiveSE.py:ObjectiveSE.logl", "refellips/objectiveSE.py:ObjectiveSE.logpost", "refellips/dataSE.py:DataSE.x", "refellips/dataSE.py:DataSE.psi"]}
{"id": "C125", "title": "A loader that returns has read a file of its kind, and every point is in it", "statement": "If open_M2000file, open_FilmSenseFile or open_HORIBAfile returns, the file has the layout of its kind (header lines, the announced numbers of lines, every field that is used a number), and the points are exactly those of the lines, in order (M2000: every d-th; Horiba: those with a wavelength between the cut-offs; time series: the last line of every time). psi and delta of FilmSense files are the only values that N, C and S allow, for all N, C and S, also such as no sample gives. Reading M2000 records ends at a line without tab or the end of the file, never because of their number.", "quantifier": "all files, numbers of lines, numbers and parameters", "why_tests_cant": "The domain is a continuum of reals (or unbounded lists of them); a test samples finitely many points.", "anchors": ["refellips/dataSE.py:open_M2000file", "refellips/dataSE.py:_open_M2000file_standard", "refellips/dataSE.py:open_FilmSenseFile", "refellips/dataSE.py:_open_FilmSenseFile_standard", "refellips/dataSE.py:_open_FilmSenseFile_dynamic", "refellips/dataSE.py:open_HORIBAfile"]}
{"id": "C126", "title": "Points without a wavelength or an angle, and 2-d columns, in a fit", "statement": "model() gives every point with a wavelength the values it has alone. A point whose wavelength is nan gets psi = delta = 0, not nan, so that its residuals are numbers that no parameter changes. A nan angle at a finite wavelength makes the whole call raise (AssertionError if the slab tables can be made). With mask=None residuals() raises ValueError for two or more points, and chisqr() always raises. Whether the slab table of built-in components can be made does not depend on the wavelength.", "quantifier": "all structures, columns, parameters and states", "why_tests_cant": "The domain is a continuum of reals (or unbounded lists of them); a test samples finitely many points.", "anchors": ["refellips/reflect_modelSE.py:ReflectModelSE.model", "refellips/reflect_modelSE.py:coh_tmm", "refellips/objectiveSE.py:ObjectiveSE.residuals", "refellips/objectiveSE.py:ObjectiveSE.chisqr"]}
{"id": "C127", "title": "Exactly which text files DataSE.load and which time series open_EP4file read", "statement": "DataSE.load fills the dataset with points exactly if, below the header (the lines before the first that starts with a number, at most 100), every line that is not empty or a comment has four fields with four numbers, and there are at least two; the points are those, in order. Everything else raises ValueError, except that the numbers of a single point are read as scalars (C145). For an open file the same holds of the lines left. An EP4 time series with positions gives exactly the described datasets or raises KeyError; every dataset averages measurements of one moment and carries that time or a later one. That every area is delivered is refuted: the last area of a later moment is dropped silently. open_EP4file raises nothing but KeyError.", "quantifier": "all files, tables, positions and times", "why_tests_cant": "The domain is a continuum of reals (or unbounded lists of them); a test samples finitely many points.", "anchors": ["refellips/dataSE.py:DataSE.load", "refellips/dataSE.py:open_EP4file", "refellips/dataSE.py:_loadEP4"]}
{"id": "C128", "title": "chi-squared in double precision, whatever the order of summation", "statement": "np.dot leaves open in which order the squares are added and whether multiplication and addition are fused. For every way that uses each residual once: chi-squared is never negative and is nan only if a residual is nan; it differs from the exact sum of squares by at most the factor (1+2^-53)^n - 1 and an underflow term, so two machines agree to that accuracy; larger residuals never give a smaller value; it is 0 exactly if all squares are at most 2^-1075. The residuals differ from the exact ones by at most 2^-45, psi residuals are 0 only for equal numbers and have the right sign. If model and data agree exactly, chi-squared is exactly 0; the converse is refuted for differences that underflow.", "quantifier": "all lists of doubles, orders of summation and choices of fused operations", "why_tests_cant": "The domain is a continuum of reals (or unbounded lists of them); a test samples finitely many points.", "anchors": ["refellips/objectiveSE.py:ObjectiveSE.residuals", "refellips/objectiveSE.py:ObjectiveSE.chisqr", "refellips/objectiveSE.py:circular_distance"]}
{"id": "C129", "title": "What single precision does to a FilmSense file", "statement": "open_FilmSenseFile stores N, C and S as float32 before it calculates psi and delta. Converted to a nearest number of 24 bits, a point whose N, C and S belong to psi and delta is read with psi within 0.0075 degrees and delta within 0.00001 degrees on the circle, unless N becomes -1 or C, S are below 2^-126. That psi stays within 0.005 degrees is refuted, and where N becomes -1 (psi near 90) delta = 1 is read as 45.", "quantifier": "all N, C, S, psi and delta, all files", "why_tests_cant": "The domain is a continuum of reals (or unbounded lists of them); a test samples finitely many points.", "anchors": ["refellips/dataSE.py:open_FilmSenseFile"]}
{"id": "C130", "title": "Fitting sessions compare the data with the theory", "statement": "Parameters, scatterers, structures, models, datasets and objectives are created, shared, edited and evaluated in any order. Afterwards: (a) calls of residuals, chisqr, logp, logl and logpost leave nothing but their setp; (b) the model folds delta exactly when the objective's data are folded, if no objective's model or data is replaced and all data used with that model share the convention (refuted without the last condition); (c) the residuals are Maxwell's psi and delta of the structure as it is now minus the unmasked points of the dataset as it is now, and chi-squared is 0 exactly when they agree; (d) a dataset that was given its own columns keeps its points; (e) as long as no attribute of a component is replaced, every call gives what the objective of C04-C12 gives for the objects as they are now.", "quantifier": "all finite sequences of statements, all objectives, all numbers of objects", "why_tests_cant": "The claim ranges over every history of calls; a test exercises one or two call sequences.", "anchors": ["refellips/objectiveSE.py:ObjectiveSE.__init__", "refellips/objectiveSE.py:ObjectiveSE.setp", "refellips/objectiveSE.py:ObjectiveSE.residuals", "refellips/objectiveSE.py:ObjectiveSE.chisqr", "refellips/objectiveSE.py:ObjectiveSE.logpost"]}
{"id": "C131", "title": "Psi, delta and the residuals have slopes in indices and thicknesses", "statement": "When the indices and thicknesses of a stack depend differentiably on a parameter, psi, delta, the folded delta and the delta residual have a slope in it wherever both amplitudes are defined and not zero, no medium is at or beyond its critical angle (unless its sine is constant), no layer is at the cut-off exp(-35), and the value is not at a jump or corner; symmetric difference quotients, from which covar gets its Jacobian, tend to that slope. At a perfect fit the residual has a slope only if delta has slope 0, and the symmetric quotients tend to 0 regardless. At the critical angle psi has no slope (refuted).", "quantifier": "all stacks, all differentiable families of indices and thicknesses, angles, wavelengths, offsets, measured values", "why_tests_cant": "The domain is a continuum of reals (or unbounded lists of them); a test samples finitely many points.", "anchors": ["refellips/reflect_modelSE.py:Delta_Psi_TMM", "refellips/reflect_modelSE.py:coh_tmm", "refellips/objectiveSE.py:ObjectiveSE.residuals", "refellips/objectiveSE.py:ObjectiveSE.covar"]}
{"id": "C132", "title": "The residuals of a fit have a Jacobian and central differences approach it", "statement": "If every varying parameter moves the offset and the structure differentiably, no medium is beyond its critical angle, no layer is at the cut-off, and no model delta sits at a jump of delta or a corner of the residual, then the residuals as a function of the varying parameter values are numbers near the present values and have all partial derivatives there; and the matrix that covar obtains by central differences (of the scaled residuals, or of the plain ones if a value is 0) tends to it (its columns multiplied by the parameter values in the scaled case) as the steps tend to 0.", "quantifier": "all systems, objectives, states, data, steps", "why_tests_cant": "The domain is a continuum of reals (or unbounded lists of them); a test samples finitely many points.", "anchors": ["refellips/objectiveSE.py:ObjectiveSE.residuals", "refellips/objectiveSE.py:ObjectiveSE.covar", "refellips/objectiveSE.py:ObjectiveSE.setp"]}
{"id": "C133", "title": "Indices are differentiable in the parameters of the materials", "statement": "The complex index of every dispersion model (constant, tabulated, Cauchy, Sellmeier, Lorentz, Gauss with a linear Hilbert filter, Tauc-Lorentz, a user's differentiable permittivity) at any wavelength is differentiable in its parameters where it is defined with positive real part and no oscillator has width 0 or C^2 = 2 E^2; so are the three mixing rules where the result has positive real part and the inner root of Bruggeman's rule is off its cut. An index that reaches 0 has no derivative, and the index of a row whose solvent fraction passes 0 has a corner (refuted).", "quantifier": "all materials, numbers of oscillators, wavelengths, differentiable families of parameter values", "why_tests_cant": "The domain is a continuum of reals (or unbounded lists of them); a test samples finitely many points.", "anchors": ["refellips/dispersion.py:Cauchy.complex", "refellips/dispersion.py:Sellmeier.epsilon", "refellips/dispersion.py:Lorentz.epsilon", "refellips/dispersion.py:Gauss.epsilon", "refellips/dispersion.py:TaucLorentz.epsilon", "refellips/structureSE.py:overall_ri"]}
{"id": "C134", "title": "A fit of slabs and mixed slabs has a Jacobian", "statement": "For an objective whose model has a structure of slabs and mixed slabs with default interfaces and no contraction, whose materials have indices of positive real part, whose solvent fractions do not sit at 0 while moving, with constraints differentiable in the varying parameters, and whose light is nowhere totally reflected, the residuals have all partial derivatives in the varying parameters, whichever of thicknesses, optical constants, solvent fractions, mixing fractions, offset vary.", "quantifier": "all such systems, objectives, states and data", "why_tests_cant": "The domain is a continuum of reals (or unbounded lists of them); a test samples finitely many points.", "anchors": ["refellips/objectiveSE.py:ObjectiveSE.residuals", "refellips/structureSE.py:StructureSE.slabs", "refellips/structureSE.py:overall_ri", "refellips/reflect_modelSE.py:ReflectModelSE.model"]}
{"id": "C135", "title": "covar with small steps is close to c (J^T J)^-1", "statement": "Let J be the Jacobian of the residuals at the present parameter values. If the matrix that covar differentiates (the columns of J multiplied by the values, or J itself if a value is 0) is conditioned well above rounding errors, the decomposition routine returns correct decompositions, and there are at least as many residuals as parameters, then J^T J is invertible and for every tolerance there is a step size below which covar, with central differences of any such steps, returns a matrix whose entries differ from c (J^T J)^-1 by less than the tolerance; c is 1 for weighted data and chi-squared per degree of freedom otherwise.", "quantifier": "all systems, objectives, states, numbers of residuals and parameters, steps and tolerances", "why_tests_cant": "The domain is a continuum of reals (or unbounded lists of them); a test samples finitely many points.", "anchors": ["refellips/objectiveSE.py:ObjectiveSE.covar", "refellips/objectiveSE.py:ObjectiveSE.residuals"]}
{"id": "C136", "title": "Cauchy.complex in double precision", "statement": "In double precision the index Cauchy.complex returns is finite and differs from A + B 1000^2/w^2 + C 1000^4/w^4 by at most 13 units 2^-53 of the sum of the absolute values of the three terms, whichever power function the platform uses, as long as it is accurate to two units.", "quantifier": "all doubles A, B, C that are zero or between 2^-100 and 2^100 in absolute value, all such non-zero wavelengths, all power functions within the accuracy", "why_tests_cant": "The domain is a continuum of reals (or unbounded lists of them); a test samples finitely many points.", "anchors": ["refellips/dispersion.py:Cauchy.complex"]}
{"id": "C137", "title": "Sellmeier.epsilon and Sellmeier.complex in double precision", "statement": "In double precision Sellmeier.epsilon is finite and differs from Einf + Am w^2/(w^2 - En^2) - P w^2 (w in micrometres) by at most 60 K units 2^-53 of the sum of the absolute values of the terms, where K = (w^2 + En^2)/|w^2 - En^2| measures the distance from the resonance; if that is at most half of epsilon, Sellmeier.complex differs from its square root n by at most 66 K units of that sum divided by n. Without the factor K this is false: for En = 0.2 at 200 nm the formula (for the double nearest to 0.2) has a value and the program returns infinity.", "quantifier": "all doubles for the parameters that are zero or between 2^-100 and 2^100, wavelengths between 2^-80 and 2^80, all K with 60 K <= 2^53", "why_tests_cant": "The domain is a continuum of reals (or unbounded lists of them); a test samples finitely many points.", "anchors": ["refellips/dispersion.py:Sellmeier.epsilon", "refellips/dispersion.py:Sellmeier.complex"]}
{"id": "C138", "title": "The likelihood with points lacking a wavelength, and with the mask cleared", "statement": "logl, where it returns a number, is minus half the sum over the unmasked points of what each adds, also if some wavelengths are nan, and it returns that number whenever every point has one. A point without a wavelength is compared with psi = delta = 0 and adds a constant: logl and logpost are those of the data without such points minus a number that does not depend on the parameters, so differences between parameter values are the same. After the documented data.mask = None and with one point, logl without lnsigma is as before; with lnsigma it raises ValueError if weighted and otherwise counts each residual with both variances, so that clearing the mask gives another likelihood (refuted).", "quantifier": "all systems, objectives, parameter values, states, columns and masks", "why_tests_cant": "The claim ranges over every history of calls; a test exercises one or two call sequences.", "anchors": ["refellips/objectiveSE.py:ObjectiveSE.logl", "refellips/objectiveSE.py:ObjectiveSE.logpost", "refellips/dataSE.py:DataSE.data"]}
{"id": "C139", "title": "A measured point fits at most two thicknesses of a film", "statement": "If three different thicknesses of a layer (five if delta is folded), anywhere in a stack, give the same psi and delta at one wavelength and angle, then every thickness does. For a single film whose index differs from that of the fronting and of the backing at most two thicknesses (four if folded) give a pair of psi and delta. Thicknesses count as different within one interference order of a transparent layer, or, where waves decay in the layer, if they attenuate by at most e^35. Two thicknesses do occur: that psi and delta determine the thickness up to interference orders is refuted.", "quantifier": "all stacks, positions in the stack, indices, thicknesses, angles, wavelengths, offsets", "why_tests_cant": "The domain is a continuum of reals (or unbounded lists of them); a test samples finitely many points.", "anchors": ["refellips/reflect_modelSE.py:Delta_Psi_TMM", "refellips/reflect_modelSE.py:coh_tmm"]}
{"id": "C140", "title": "Simulated data, saved and loaded again, are fitted perfectly by the model they come from", "statement": "If two or more predicted points are kept in a DataSE, written with save and loaded from the file into a new DataSE with the same reflect_delta as the model, then the ObjectiveSE of the model and the new data has residuals 0, chi-squared 0 and log-likelihood 0, and no parameter values give a greater log-likelihood. Other values have chi-squared 0 exactly if they predict the same psi and the same delta up to turns. With reflect_delta and a positive delta_offset this is false: the model folds delta before adding the offset, the data are folded after.", "quantifier": "all systems, states, models, points, printers and parsers of numbers that agree on the saved numbers, file names; delta_offset <= 0 if delta is folded", "why_tests_cant": "The domain is a continuum of reals (or unbounded lists of them); a test samples finitely many points.", "anchors": ["refellips/dataSE.py:DataSE.save", "refellips/dataSE.py:DataSE.load", "refellips/dataSE.py:DataSE.__init__", "refellips/objectiveSE.py:ObjectiveSE.residuals", "refellips/objectiveSE.py:ObjectiveSE.chisqr", "refellips/objectiveSE.py:ObjectiveSE.logl"]}
{"id": "C141", "title": "Chi-squared as a function of delta_offset", "statement": "Raising delta_offset by c adds c to every predicted delta, with or without folding, and changes nothing else; data whose delta are shifted by c therefore have the same residuals and chi-squared. As long as no predicted delta is more than 180 degrees from the measured one, chi-squared is the sum of squared errors of psi plus the sum of (error of delta - c) squared, and no such offset is better than the mean error: chi-squared there is smaller by at least n times the square of the distance from the mean. Chi-squared is 0 exactly when every psi agrees and every delta agrees up to at most one turn; two such offsets differ by whole turns, and there is none when the errors in delta of two points differ by anything but whole turns. Beyond, the mean is not the best offset (refuted, points on both sides of 0 degrees), and with lnsigma the log-likelihood of data and offset shifted together is another one (refuted).", "quantifier": "all systems, objectives, structures, data, parameter values and offsets", "why_tests_cant": "The domain is a continuum of reals (or unbounded lists of them); a test samples finitely many points.", "anchors": ["refellips/reflect_modelSE.py:Delta_Psi_TMM", "refellips/objectiveSE.py:ObjectiveSE.residuals", "refellips/objectiveSE.py:ObjectiveSE.chisqr", "refellips/objectiveSE.py:ObjectiveSE.logl"]}
{"id": "C142", "title": "An opaque film hides what is beneath", "statement": "If crossing the first film attenuates the wave by more than e^35 (where the program cuts the phase off), the calculated amplitudes of reflection differ from those of the bulk material of the film by at most 2(2K+1)e^-70, where K bounds Im/Re of the vertical wave number, whatever layers and backing lie beneath, as long as they do not amplify. So two stacks beneath the same film differ by at most 4(2K+1)e^-70, and by at most 4e^-35 for every film the scheme can handle; psi differs by at most that times 360/(pi m^2) degrees where |r_s| >= m.", "quantifier": "all fronting indices, films, stacks, backings, angles, wavelengths, both polarisations", "why_tests_cant": "The domain is a continuum of reals (or unbounded lists of them); a test samples finitely many points.", "anchors": ["refellips/reflect_modelSE.py:coh_tmm", "refellips/reflect_modelSE.py:Delta_Psi_TMM"]}
{"id": "C143", "title": "Refractive indices at arrays of wavelengths", "statement": "scatterer.complex of an array without zeros gives one index per entry, as if asked one at a time, and raises only what an entry raises. A constant RI gives one number for every shape. An array of zeros, or an empty one, counts as no wavelength at all; a zero among other wavelengths is not replaced by the default and gives a non-finite index. Tables, Cauchy, Sellmeier and Gauss keep the shape of two-dimensional arrays. Lorentz and Tauc-Lorentz do not: with one oscillator the contributions of the rows are added up (so the claim that every entry gets its own index is false), with several the number of rows has to match or ValueError is raised.", "quantifier": "all scatterers, arrays of one and two dimensions", "why_tests_cant": "The claim ranges over every history of calls; a test exercises one or two call sequences.", "anchors": ["refellips/dispersion.py:RI.complex", "refellips/dispersion.py:Cauchy.complex", "refellips/dispersion.py:Sellmeier.complex", "refellips/dispersion.py:Lorentz.epsilon", "refellips/dispersion.py:Gauss.epsilon", "refellips/dispersion.py:TaucLorentz.epsilon", "refellips/structureSE.py:ScattererSE.complex"]}
{"id": "C144", "title": "Two measured points leave at most four thicknesses of a film", "statement": "Take a transparent layer anywhere in a stack and two measured points (wavelength, angle, indices and the other layers may all differ). If at most c1 and c2 thicknesses within one interference order of each point fit that point, then of thicknesses closer together than the first common multiple of the two orders at most c1*c2 fit both points. For a single film of another index than fronting and backing these are at most four thicknesses (sixteen if delta is folded), and at most four altogether if the two orders have no common multiple. Adding a common multiple of both orders to the thickness changes neither prediction, so beyond that range no measurement at these two points can tell.", "quantifier": "all pairs of points, stacks, indices, angles, wavelengths, offsets, thicknesses", "why_tests_cant": "The domain is a continuum of reals (or unbounded lists of them); a test samples finitely many points.", "anchors": ["refellips/reflect_modelSE.py:Delta_Psi_TMM", "refellips/reflect_modelSE.py:coh_tmm"]}
{"id": "C145", "title": "Data files with one point", "statement": "A file whose data are one line of four numbers, or four lines of one number, is read as one point whose columns are numpy scalars instead of arrays, and no other file is. Without reflect_delta such a dataset shows the point, has length 1, groups it under its wavelength and saves the same file as an array of one point; with reflect_delta the constructor raises TypeError whatever delta is (so 'every file that loads, loads with reflect_delta' is refuted), and so does a copy. The masks True and None show the point, False hides it, boolean arrays of any length make the getters raise IndexError. d.data = d.data turns the scalars into arrays. After refresh of a file that has grown the getters return arrays with one row; of one that has shrunk to one point they raise IndexError. On files with more points everything is as for arrays.", "quantifier": "all files, headers, delimiters, parsers and printers of numbers, masks, datasets", "why_tests_cant": "The domain is a continuum of reals (or unbounded lists of them); a test samples finitely many points.", "anchors": ["refellips/dataSE.py:DataSE.__init__", "refellips/dataSE.py:DataSE.load", "refellips/dataSE.py:DataSE.save", "refellips/dataSE.py:DataSE.refresh", "refellips/dataSE.py:DataSE.wavelength", "refellips/dataSE.py:DataSE.data"]}
{"id": "C146", "title": "Cauchy at arrays of integer wavelengths", "statement": "wav**2 and wav**4 of an integer array keep only the last bits of the type. The index is that of Cauchy's formula if both powers fit the type; where only the square fits it is so exactly if C is 0 and the fourth power does not vanish. 64 bits are enough up to 55108 nm, 32 bits up to 215 nm; from 216 to 46340 nm a 32 bit array gives another index if C is not 0, and at multiples of 256 nm none, whatever the parameters. Integers without a sign: 32 bits are enough up to 255 nm and wrong from 256 to 65535 nm if C is not 0, 64 bits are enough up to 65535 nm. That integers can be used for wavelengths is refuted.", "quantifier": "all integer types, wavelengths and parameters", "why_tests_cant": "The domain is a continuum of reals (or unbounded lists of them); a test samples finitely many points.", "anchors": ["refellips/dispersion.py:Cauchy.complex"]}
{"id": "C147", "title": "Looking at a fit does not change it, except with plot_structure", "statement": "Take any session that creates and edits parameters, scatterers, structures, models, datasets and objectives and calls residuals, chisqr, logp, logl, logpost, model(x, p), plot, plot_ellipsdata, plot_structure, StructureSE.plot and covar in any order, where varying parameters have no constraints, no samples are drawn and approx_derivative probes with vectors of the length it is given. Deleting every call that only looks (evaluations and model calls without values, plot, plot_ellipsdata, profiles, save, covar) leaves all residuals, chi-squared, priors and likelihoods as they are. plot_structure is not such a call: if it succeeds it acts like structure.reverse_structure = False, if drawing fails like nothing or like reverse_structure = reverse; a reversed structure whose residual is 0 has another one after the plot. At the end of any session, also with samples and constraints, the residuals are the differences between measurement and Maxwell's theory as in C130, and, if no attribute is replaced, covar, model(x, p) and StructureSE.plot give what C109-C114, C14 and C91 are about.", "quantifier": "all sessions of any length", "why_tests_cant": "The claim ranges over every history of calls; a test exercises one or two call sequences.", "anchors": ["refellips/objectiveSE.py:ObjectiveSE.plot", "refellips/objectiveSE.py:ObjectiveSE.covar", "refellips/objectiveSE.py:ObjectiveSE.residuals", "refellips/reflect_modelSE.py:ReflectModelSE.model", "refellips/structureSE.py:StructureSE.plot", "tools/plottools.py:plot_structure", "tools/plottools.py:plot_ellipsdata"]}
{"id": "C148", "title": "coh_tmm agrees with the admittance method; half-wave layers and quarter-wave mirrors", "statement": "Away from total reflection and within the opaque cut-off, r and t from coh_tmm are those obtained from the product of the characteristic matrices (cos, -i sin / Y; -i Y sin, cos) of the layers. A layer whose phase is a multiple of pi changes no reflected amplitude wherever it lies in a stack, and the transmitted one at most in sign. N periods of two transparent quarter-wave layers reflect (Y0 - Y)/(Y0 + Y) with Y = (YH/YL)^(2N) YB in both polarisations and at all angles, so psi and delta are known in closed form; as N grows psi tends to 45 degrees, and delta becomes exactly 180 degrees below and exactly 360 degrees above the Brewster angle of the two layers. At that angle the p amplitude is that of the bare backing for every N.", "quantifier": "all stacks, all numbers of periods, angles and indices", "why_tests_cant": "The domain is a continuum of reals (or unbounded lists of them); a test samples finitely many points.", "anchors": ["refellips/reflect_modelSE.py:coh_tmm", "refellips/reflect_modelSE.py:Delta_Psi_TMM"]}
{"id": "C149", "title": "refellips.test tells pytest what was asked and reports its verdict", "statement": "refellips.test calls pytest at most once, with the command line -l, the extra options, one -v less than verbose, --cov with the path of the package, the marker expression of the label (not slow for fast, nothing for full) and after --pyargs the given tests or the package. It raises KeyError if the package is not imported, ValueError for doctests or a verbose text that is no number, and passes on exceptions of pytest. It returns True exactly when pytest returns 0 or exits with code 0. Two things are not as one would wish: SystemExit without a code, which is success for Python, gives False, and a test name given as a text is split into characters.", "quantifier": "all arguments and all behaviours of pytest", "why_tests_cant": "Arguments are texts and lists of any length and pytest may do anything; a test makes a few calls.", "anchors": ["refellips/__init__.py:_PytestTester.__call__"]}
{"id": "C150", "title": "Coatings of quarter-wave layers", "statement": "The reflected amplitudes of any stack of transparent layers, each an odd number of quarter waves thick, are real: (y0 - Y)/(y0 + Y), where each layer turns the admittance Y beneath it into y^2/Y. Psi and delta follow from them; where only s is reflected psi is 0, where only p is reflected psi is 90, where neither is reflected there is no psi (nan), and there is no delta in these cases. One layer suppresses a polarisation exactly when its admittance is the geometric mean of those around it; a perfect antireflection coating at normal incidence has neither psi nor delta; away from normal incidence one layer between different media cannot suppress both polarisations.", "quantifier": "all refractive indices, numbers and orders of layers, thicknesses, angles and wavelengths (transparent media without total reflection)", "why_tests_cant": "The domain is a continuum of reals (or unbounded lists of them); a test samples finitely many points.", "anchors": ["refellips/reflect_modelSE.py:coh_tmm", "refellips/reflect_modelSE.py:Delta_Psi_TMM"]}
{"id": "C151", "title": "Negative take_every and dropdatapoints", "statement": "open_M2000file with integers: a negative dropdatapoints takes every n-th point counted from the last one, backwards, in single measurements and in every step of a time series; the sign of take_every has no effect; for integers that are not negative nothing differs from C76 and C77. The points of -n are in general not those of n (refuted).", "quantifier": "all files, tables and integers", "why_tests_cant": "The domain is a continuum of reals (or unbounded lists of them); a test samples finitely many points.", "anchors": ["refellips/dataSE.py:open_M2000file", "refellips/dataSE.py:_open_M2000file_standard", "refellips/dataSE.py:_open_M2000file_kinetic"]}
{"id": "C152", "title": "Mixing of media in double precision", "statement": "overall_ri with the linear approximation, in IEEE double precision with numpy's complex arithmetic: for transparent media and a volume fraction between 0 and 1 the index is within 11*2^-53 relative of the exact one and exactly on the real axis; with volume fraction 0 or 1 the index of the film or of the solvent comes back bit for bit, although it is squared and rooted (a negative index loses its sign), because the square root of a rounded square is the number again; for absorbing media both parts of the dielectric function are within 11*2^-53 of the mixture of the squared moduli. Bit for bit is false of Maxwell-Garnett (3 in 5, nothing of the 5) and of Bruggeman (3 in 3); for transparent media Maxwell-Garnett is within 75*K*2^-53 relative of the exact index, K the ratio of the larger dielectric constant to the smaller.", "quantifier": "all doubles that are zero or between 2^-100 and 2^100 in absolute value; all volume fractions in [0,1]", "why_tests_cant": "The domain is a continuum of reals (or unbounded lists of them); a test samples finitely many points.", "anchors": ["refellips/structureSE.py:overall_ri"]}
{"id": "C153", "title": "What an evaluation uses now; the order of Parameters", "statement": "In any session a model computes exactly what the numbers of its structure's present attributes give: components in order, thickness, roughness, solvent fraction and materials of each, name, reversal, contraction, mixing rule, depolarisation factor, solvent, phase offset and delta convention; the wavelength left behind is that computation's. A scatterer lists its Parameters group by group (Tauc-Lorentz: amplitudes, broadenings, energies, Einf, Eg), a slab lists thickness, material, roughness, solvent fraction, a model lists the phase offset, the components from the top and the solvent. The constructor of a structure stores all its arguments.", "quantifier": "all sessions, all models, all data; all scatterers, components and structures", "why_tests_cant": "The domain is a continuum of reals (or unbounded lists of them); a test samples finitely many points.", "anchors": ["refellips/objectiveSE.py:ObjectiveSE", "refellips/reflect_modelSE.py:ReflectModelSE", "refellips/structureSE.py:StructureSE"]}
{"id": "C154", "title": "Horiba files whose table has no rows", "statement": "If the section DATA of a Horiba file consists of the line of column names only, closed by a blank line, its number of rows is taken from the number of characters of that line: the non-blank lines that follow the section, at most as many as the line has characters less one, are read as rows. So a file without rows can give a dataset with points that belong to no section.", "quantifier": "all files that consist of sections, all cut-offs, all float parsers", "why_tests_cant": "The domain is a continuum of reals (or unbounded lists of them); a test samples finitely many points.", "anchors": ["refellips/dataSE.py:open_HORIBAfile"]}
{"id": "C155", "title": "The mixing rules compared; what fraction and shape do", "statement": "For transparent media overall_ri keeps Wiener's bounds: the squared index lies between the harmonic and the arithmetic mean of the squared indices, weighted with the volume fractions, for all three rules. Bruggeman lies between the Maxwell-Garnett mixtures with the one and the other medium as host (for depolarisation factor 1/3 the Hashin-Shtrikman bounds); Maxwell-Garnett itself is not symmetric in the media. More of the medium with the higher index gives a strictly higher index, so for different media the index determines the volume fraction. A greater depolarisation factor never gives a higher index.", "quantifier": "all indices > 0, all volume fractions in [0,1], all depolarisation factors in [0,1] (below 1 for Bruggeman)", "why_tests_cant": "The domain is a continuum of reals (or unbounded lists of them); a test samples finitely many points.", "anchors": ["refellips/structureSE.py:overall_ri"]}
