{"id": "C01", "title": "Universe values stay in [0,1]", "statement": "Every call that advances a universe (CCA, Lenia, CODE, RandomStepCA, MetaCA, NCA, RxnDfn forward, and get_frame mode 0) returns cells that all lie in [0,1], whatever the input cells are, and this stays true after any number of calls. (Arithmetic that leaves the finite numbers is reported separately and excluded.)", "quantifier": "all CA objects, all update functions and kernels, all input grids (also outside [0,1]), all step counts", "why_tests_cant": "Range must hold for every rule, kernel, dt and every reachable state, not the sampled ones.", "anchors": ["yuca/ca/continuous.py:CCA.forward", "yuca/ca/continuous.py:CCA.get_frame", "yuca/ca/common.py:CA.forward", "yuca/lenia.py", "yuca/code.py", "yuca/random_step_ca.py", "yuca/metaca.py", "yuca/ca/reaction_diffusion.py"]}
{"id": "C02", "title": "A step preserves the shape or raises", "statement": "A forward step either returns a grid of exactly the input shape or raises; it raises when the channel count differs from external_channels, when the circular padding exceeds the grid size, or when the number of update functions differs from internal_channels.", "quantifier": "all grid shapes, channel counts, odd kernel sizes and padding modes", "why_tests_cant": "Infinitely many inputs; a finite test suite samples only some of them.", "anchors": ["yuca/ca/continuous.py:CCA.forward", "yuca/ca/continuous.py:CCA.genesis", "yuca/ca/common.py:CA.initialize_neighborhood_layer"]}
{"id": "C03", "title": "Identity convolution is the identity", "statement": "With the default identity kernel and internal_channels a multiple m of external_channels, output channel k of id_conv equals input channel k div m exactly, for every padding mode; with equal channel counts id_conv returns the universe unchanged. When internal_channels is not a multiple of external_channels every output channel is the sum of all input channels.", "quantifier": "all universes, channel counts, padding modes, grid sizes", "why_tests_cant": "Infinitely many inputs; a finite test suite samples only some of them.", "anchors": ["yuca/ca/common.py:CA.initialize_id_layer", "yuca/ca/common.py:CA.id_conv", "yuca/ca/continuous.py:CCA.add_identity_kernel"]}
{"id": "C04", "title": "Neighbourhood convolution is the toroidal weighted sum", "statement": "In circular mode, the neighbourhood value of a cell is the sum over kernel offsets (dy,dx) of kernel weight times the cell at ((i+dy) mod H,(j+dx) mod W) of the channel in the same group.", "quantifier": "all kernels of odd size, all grids at least as large as the padding, all cells", "why_tests_cant": "Infinitely many inputs; a finite test suite samples only some of them.", "anchors": ["yuca/ca/common.py:CA.initialize_neighborhood_layer", "yuca/ca/common.py:CA.neighborhood_conv"]}
{"id": "C05", "title": "Translation equivariance", "statement": "With circular convolution, rolling a universe by any offset and then stepping gives the same result as stepping and then rolling, for any number of steps.", "quantifier": "all CCA/Lenia/RxnDfn/NCA/CODE/RandomStepCA/MetaCA objects in circular mode, all grids, all offsets, all step counts", "why_tests_cant": "A relation between two executions over all offsets and all states.", "anchors": ["yuca/ca/continuous.py:CCA.forward", "yuca/lenia.py", "yuca/ca/reaction_diffusion.py", "yuca/ca/neural.py", "yuca/code.py", "yuca/metaca.py"]}
{"id": "C06", "title": "Reflection and transposition equivariance", "statement": "With a neighbourhood kernel produced by get_kernel and the default identity kernel, mirroring the universe vertically or horizontally, or transposing it, commutes with stepping.", "quantifier": "all kernel configs accepted by get_kernel, all update functions, all grids, all step counts", "why_tests_cant": "A relation between two executions for every kernel and state.", "anchors": ["yuca/kernels.py:get_kernel", "yuca/ca/continuous.py:CCA.forward"]}
{"id": "C07", "title": "Batch elements evolve independently", "statement": "For fixed-step automata, element b of the result of stepping a batch equals the result of stepping element b alone. For the adaptive-step CODE automaton this is false: the step size is chosen from the maximum error over the whole batch.", "quantifier": "all batches, all CA parameters", "why_tests_cant": "Infinitely many inputs; a finite test suite samples only some of them.", "anchors": ["yuca/ca/continuous.py:CCA.forward", "yuca/code.py:CODE.adaptive_euler"]}
{"id": "C08", "title": "Glaberish update rule", "statement": "One CCA step maps every cell to clamp(u + dt * sum_c w_c((1-id_c) G_c(n_c) + id_c P_c(n_c)), 0, 1) where w_c = 1/(external*internal); all external channels receive the same update.", "quantifier": "all CCA objects in functional mode, all grids, all cells", "why_tests_cant": "Infinitely many inputs; a finite test suite samples only some of them.", "anchors": ["yuca/ca/continuous.py:CCA.update_universe", "yuca/ca/continuous.py:CCA.initialize_weight_layer", "yuca/ca/continuous.py:CCA.forward"]}
{"id": "C09", "title": "Glaberish with equal functions is Lenia", "statement": "When the genesis and persistence functions are equal, a CCA step and a Lenia step of the same parameters give the same grid.", "quantifier": "all update functions, kernels, identity kernels, grids", "why_tests_cant": "Infinitely many inputs; a finite test suite samples only some of them.", "anchors": ["yuca/ca/continuous.py:CCA.update_universe", "yuca/lenia.py:Lenia.update_universe"]}
{"id": "C10", "title": "A dead universe stays dead exactly when genesis at zero is non-positive", "statement": "The all-zero universe is a fixed point of a CCA step if the summed genesis value at 0 is non-positive, and for positive dt only then; for a Gaussian genesis in growth mode this is mu^2 >= 2 ln 2 (sigma+1e-9)^2.", "quantifier": "all CCA objects with positive dt, all grid sizes, all step counts", "why_tests_cant": "Infinitely many inputs; a finite test suite samples only some of them.", "anchors": ["yuca/ca/continuous.py:CCA.forward", "yuca/wrappers/halting_wrapper.py:SimpleHaltingWrapper.step"]}
{"id": "C11", "title": "Alive mask", "statement": "With four or more channels, forward first zeroes every channel of each cell whose fourth channel is not above alive_threshold; with fewer channels no mask is applied; get_frame never applies it, so forward and get_frame agree below four channels and can differ at four.", "quantifier": "all universes, thresholds, channel counts", "why_tests_cant": "Infinitely many inputs; a finite test suite samples only some of them.", "anchors": ["yuca/ca/common.py:CA.alive_mask", "yuca/ca/continuous.py:CCA.forward", "yuca/ca/continuous.py:CCA.get_frame"]}
{"id": "C12", "title": "Simulated time accumulates exactly dt per step", "statement": "After reset and any sequence of forward, get_frame and reset calls, t_count equals dt times the number of forward calls since the last reset; get_frame does not advance time.", "quantifier": "all call sequences", "why_tests_cant": "Ranges over all call histories.", "anchors": ["yuca/ca/continuous.py:CCA.forward", "yuca/ca/continuous.py:CCA.reset", "yuca/ca/continuous.py:CCA.get_frame"]}
{"id": "C13", "title": "Half-precision path agrees up to rounding and keeps the range", "statement": "The float16 CPU path computes the same step as the ordinary path with rounding inserted; for any monotone rounding fixing 0 and 1 its output is in [0,1], and with exact rounding it equals the ordinary path.", "quantifier": "all rounding functions with these laws, all universes", "why_tests_cant": "Infinitely many inputs; a finite test suite samples only some of them.", "anchors": ["yuca/ca/continuous.py:CCA.forward", "yuca/ca/continuous.py:CCA.update_universe"]}
{"id": "C14", "title": "Per-step change is bounded", "statement": "If update functions take values in [-1,1] and both identity and cells are in [0,1], no cell changes by more than dt/external_channels in a CCA step.", "quantifier": "all universes in [0,1], all such update functions, equal channel counts", "why_tests_cant": "Infinitely many inputs; a finite test suite samples only some of them.", "anchors": ["yuca/ca/continuous.py:CCA.forward", "yuca/activations.py"]}
{"id": "C15", "title": "Activation value ranges", "statement": "Gaussian mode 0 is in (0,1] and growth mode in (-1,1]; GaussianMixture and DoubleGaussian are clamped to [0,1] or [-1,1]; CosOverX2 mode 0 is in [0,2]; SmoothIntervals mode 0 is in [0,k] for k intervals; SmoothLifeKernel is 0/1 valued.", "quantifier": "all real inputs and parameters for which the formula is finite", "why_tests_cant": "Infinitely many inputs; a finite test suite samples only some of them.", "anchors": ["yuca/activations.py"]}
{"id": "C16", "title": "DoGaussian growth mode can only shrink", "statement": "DoGaussian in growth mode is strictly negative everywhere (and can be below -1, down to -3), so a CCA whose genesis and persistence functions are all DoGaussian growth-mode never increases any cell of a universe in [0,1] and the total mass never increases.", "quantifier": "all parameters, all universes in [0,1], all step counts", "why_tests_cant": "Infinitely many inputs; a finite test suite samples only some of them.", "anchors": ["yuca/activations.py:DoGaussian.forward", "yuca/ca/continuous.py:CCA.default_init"]}
{"id": "C17", "title": "GaussianMixture parameter interpretation", "statement": "A parameter list whose length is a positive multiple of 3 is read as (amplitude, mu, sigma) triples, an even length not divisible by 3 as (mu, sigma) pairs with amplitude 1, any other odd length raises IndexError at construction and an empty list raises IndexError on first use; the value is the clamped amplitude-weighted sum.", "quantifier": "all parameter lists, all inputs", "why_tests_cant": "Infinitely many inputs; a finite test suite samples only some of them.", "anchors": ["yuca/activations.py:GaussianMixture"]}
{"id": "C18", "title": "Smooth intervals approximate indicator functions", "statement": "At an input at distance at least d from every interval bound, SmoothIntervals differs from the number of intervals containing the input by at most 2k exp(-4 d/alpha), for k intervals.", "quantifier": "all interval lists with ordered bounds, all inputs, all alpha>0", "why_tests_cant": "Infinitely many inputs; a finite test suite samples only some of them.", "anchors": ["yuca/activations.py:SmoothIntervals"]}
{"id": "C19", "title": "Normalised kernels are non-negative with sum below one", "statement": "Every non-Laplacian kernel from get_kernel or the get_*_kernel builders has non-negative entries, at least one zero entry for the fitted families, sum S/(1e-9+S) < 1 (S the shifted sum), so exactly all-zero if the profile is constant on the grid; MooreLike and InnerMoore sum to exactly 1.", "quantifier": "all radii >= 1, all kernel parameters", "why_tests_cant": "Infinitely many inputs; a finite test suite samples only some of them.", "anchors": ["yuca/kernels.py"]}
{"id": "C20", "title": "Kernel shape and radial symmetry", "statement": "A kernel of radius r has shape (1,1,2r+1,2r+1) and entries at equal distance from the centre are equal, so it is invariant under flips and transposition; InnerMoore is always 3x3, and for any other name radius 0 gives no finite kernel, except SmoothLifeKernel, which gives the 1x1 zero kernel (comparisons with nan are false). Kernels may be given with two dimensions; with three, or when not square, no automaton can be built.", "quantifier": "all radii, all kernel configs", "why_tests_cant": "Infinitely many inputs; a finite test suite samples only some of them.", "anchors": ["yuca/kernels.py:get_kernel"]}
{"id": "C21", "title": "Laplacian kernels sum to zero", "statement": "The finite-difference Laplacian and the LaplacianOfGaussian kernel sum to exactly zero, the latter with absolute values summing to one, so they map any constant grid to zero and conserve total mass in circular mode.", "quantifier": "all radii >= 1, all sigma > 0, all grids", "why_tests_cant": "Infinitely many inputs; a finite test suite samples only some of them.", "anchors": ["yuca/kernels.py:get_laplacian_kernel", "yuca/activations.py:LaplacianOfGaussian", "yuca/ca/reaction_diffusion.py"]}
{"id": "C22", "title": "Neighbourhood values of a unit-range grid are in [0,1]", "statement": "For a grid with cells in [0,1] and a normalised kernel the neighbourhood convolution is in [0,1] for every padding mode when internal_channels is a multiple of external_channels; otherwise the channels are summed, the values lie in [0, external_channels] and can exceed 1.", "quantifier": "all grids in [0,1], all normalised kernels, all padding modes", "why_tests_cant": "Infinitely many inputs; a finite test suite samples only some of them.", "anchors": ["yuca/kernels.py:get_kernel", "yuca/ca/common.py:CA.neighborhood_conv"]}
{"id": "C23", "title": "Unknown kernel names are rejected; builders agree with get_kernel", "statement": "get_kernel raises AssertionError for any other kernel name, and get_gaussian_kernel, get_gaussian_mixture_kernel, get_cosx2_kernel and get_dogaussian_kernel with unit r_scale equal get_kernel with the corresponding config.", "quantifier": "all names, all radii and parameters", "why_tests_cant": "Infinitely many inputs; a finite test suite samples only some of them.", "anchors": ["yuca/kernels.py"]}
{"id": "C24", "title": "CCA parameter vector round trip", "statement": "After set_params(p) with a vector of the right length, get_params returns p (each genesis and persistence entry rounded once to the storage type); a vector too short for the function parameters raises and a longer one ignores the tail; set_params changes neither amplitudes, modes, channel counts nor dt.", "quantifier": "all CCA objects, all parameter vectors", "why_tests_cant": "Infinitely many inputs; a finite test suite samples only some of them.", "anchors": ["yuca/ca/continuous.py:CCA.get_params", "yuca/ca/continuous.py:CCA.set_params"]}
{"id": "C25", "title": "set_params(get_params()) keeps the dynamics exactly for Gaussian-mixture kernels", "statement": "Re-applying a CCA's own parameters leaves its step function unchanged if its neighbourhood kernel came from a Gaussian (keyword arguments in the order mu, sigma) or GaussianMixture config; for other kernels (MooreLike, SmoothLifeKernel, CosOverX2, DoGaussian, a Gaussian given sigma first) it silently replaces the kernel and the dynamics change.", "quantifier": "all CCA objects, all grids; plus a witness for the failure", "why_tests_cant": "Infinitely many inputs; a finite test suite samples only some of them.", "anchors": ["yuca/ca/continuous.py:CCA.set_params", "yuca/ca/common.py:CA.update_kernel_params"]}
{"id": "C26", "title": "Other parameter vectors round trip", "statement": "Lenia, NCA, RxnDfn, CPPN, CPPNPlus and ParamsAgent: set_params followed by get_params returns the vector (with abs+clip to [1e-4,1] when ParamsAgent filters), and the lengths add up as documented.", "quantifier": "all objects and vectors of matching length", "why_tests_cant": "Infinitely many inputs; a finite test suite samples only some of them.", "anchors": ["yuca/lenia.py", "yuca/ca/neural.py", "yuca/ca/reaction_diffusion.py", "yuca/cppn.py", "yuca/params_agent.py"]}
{"id": "C27", "title": "Configuration save/load round trip", "statement": "make_config followed by load_config reproduces the step function for single-channel CCA objects loaded from a config whose update functions are parameterised by (mu,sigma) pairs of GaussianMixture; it does not for SmoothIntervals (intervals are lost), amplitude mixtures (amplitudes lost), non-default identity kernels (lost), or several internal channels (unusable). The padding mode of a configuration is circular, zeros, reflect or replicate; any other text is refused.", "quantifier": "all configs in the stated class, all grids; witnesses for each failure", "why_tests_cant": "Must hold for every config; the existing tests compare only a few keys.", "anchors": ["yuca/ca/continuous.py:CCA.make_config", "yuca/ca/continuous.py:CCA.load_config"]}
{"id": "C28", "title": "Saved kernels go stale after set_params", "statement": "Once a CCA has a neighbourhood kernel config, changing its parameters with set_params does not change the kernel written by make_config, so the saved config's kernel differs from the live one.", "quantifier": "all CCA objects with a kernel config, all parameter vectors", "why_tests_cant": "Infinitely many inputs; a finite test suite samples only some of them.", "anchors": ["yuca/ca/continuous.py:CCA.make_config", "yuca/ca/continuous.py:CCA.set_params", "yuca/cmaes.py:CMAES.rank_population"]}
{"id": "C29", "title": "A fresh CCA's config does not describe its rule and make_config is not idempotent", "statement": "The first make_config of a freshly constructed CCA reports a fixed Gaussian mixture (0.15000001, 0.015) independent of the actual update functions; the second call reports the actual parameters.", "quantifier": "all fresh CCA objects", "why_tests_cant": "Infinitely many inputs; a finite test suite samples only some of them.", "anchors": ["yuca/ca/continuous.py:CCA.make_config"]}
{"id": "C30", "title": "make_config mutates the caller's config", "statement": "load_config keeps references into the dictionary it was given; a later make_config or set_kernel_radius writes into it, so loading the same dictionary into a second CCA gives a different rule.", "quantifier": "all configs and CCA objects; a witness with SmoothIntervals", "why_tests_cant": "Depends on aliasing across call histories.", "anchors": ["yuca/ca/continuous.py:CCA.load_config", "yuca/ca/continuous.py:CCA.make_config", "yuca/ca/common.py:CA.set_kernel_radius"]}
{"id": "C31", "title": "Overwriting the config a CCA was built from makes it unloadable", "statement": "If a CCA constructed with ca_config=F saves its config to F, then restoring F never terminates normally (unbounded recursion); otherwise restoring a file whose instant_kwargs has no ca_config terminates.", "quantifier": "all file systems, all recursion depths", "why_tests_cant": "Non-termination cannot be shown by a finite test.", "anchors": ["yuca/ca/continuous.py:CCA.__init__", "yuca/ca/continuous.py:CCA.load_config", "yuca/ca/continuous.py:CCA.restore_config"]}
{"id": "C32", "title": "restore_config path resolution", "statement": "restore_config strips newlines, prefers an existing path, then the ca_configs directory, and otherwise leaves the CA unchanged without raising.", "quantifier": "all paths and file systems", "why_tests_cant": "Infinitely many inputs; a finite test suite samples only some of them.", "anchors": ["yuca/ca/continuous.py:CCA.restore_config"]}
{"id": "C33", "title": "Changing the kernel radius", "statement": "set_kernel_radius(r) makes the kernel (2r+1) wide, updates get_kernel_radius and the stored config, keeps every other parameter, and raises when no kernel config has been set; NCA.set_kernel_config leaves the convolution layer on the old kernel.", "quantifier": "all CA objects, all radii >= 1", "why_tests_cant": "Infinitely many inputs; a finite test suite samples only some of them.", "anchors": ["yuca/ca/common.py:CA.set_kernel_radius", "yuca/ca/neural.py:NCA.set_kernel_config"]}
{"id": "C34", "title": "Life-like configs simulate Life", "statement": "A CCA loaded from get_life_like_config(birth, survival) started from a 0/1 grid stays within 1e-4 of the exact Life-like automaton's trajectory: for all time when birth is a subset of survival (Conway), and with linearly growing error otherwise; small perturbations per step (rounding) do not change this.", "quantifier": "all toroidal grids of size >= 3, all B/S rules, all 0/1 initial states, all step counts", "why_tests_cant": "Error accumulation over unboundedly many steps.", "anchors": ["yuca/configs.py:get_life_like_config", "yuca/ca/continuous.py:CCA.forward", "yuca/activations.py:SmoothIntervals", "yuca/kernels.py:get_kernel"]}
{"id": "C35", "title": "The glider pattern glides forever", "statement": "The get_glider pattern placed on a torus moves by one cell diagonally every four steps of a CCA loaded with Conway's rule, forever, up to a fixed small error.", "quantifier": "all step counts", "why_tests_cant": "Unbounded time.", "anchors": ["yuca/patterns.py:get_glider", "yuca/configs.py:get_life_like_config"]}
{"id": "C36", "title": "Gray-Scott initial grid is a homogeneous equilibrium", "statement": "For f>0, k>=0 with sqrt(f) >= 2(f+k), initialize_grid returns a grid in [0,1] on which an RxnDfn step is the identity, for every dt, dx and diffusion rates; outside this region the grid is not finite.", "quantifier": "all parameters in the region, all grid sizes, all step counts", "why_tests_cant": "Infinitely many inputs; a finite test suite samples only some of them.", "anchors": ["yuca/ca/reaction_diffusion.py:RxnDfn.initialize_grid", "yuca/ca/reaction_diffusion.py:RxnDfn.update_universe"]}
{"id": "C37", "title": "Diffusion conserves mass", "statement": "In circular mode the diffusion terms of the Gray-Scott update sum to zero over the grid, so the total update is the sum of the reaction terms.", "quantifier": "all grids and parameters", "why_tests_cant": "Infinitely many inputs; a finite test suite samples only some of them.", "anchors": ["yuca/ca/reaction_diffusion.py:RxnDfn.update_universe"]}
{"id": "C38", "title": "RxnDfn config round trip", "statement": "make_config then load_config reproduces diffusion rates, feed and kill rates, dt, dx and the step function; get_kernel_radius is not restored after set_kernel_radius.", "quantifier": "all RxnDfn objects", "why_tests_cant": "Infinitely many inputs; a finite test suite samples only some of them.", "anchors": ["yuca/ca/reaction_diffusion.py:RxnDfn.make_config", "yuca/ca/reaction_diffusion.py:RxnDfn.load_config"]}
{"id": "C39", "title": "Adaptive step selection terminates within bounds", "statement": "CODE.forward terminates when min_dt>0, uses a step in [min_dt, max_dt] whenever the previous step allowed it, accepts a larger step only when its error is below the threshold, and raises (unbound error value) if 2*prev_dt or max_dt is below min_dt.", "quantifier": "all grids, thresholds, previous steps; all step counts", "why_tests_cant": "Loop termination for all inputs.", "anchors": ["yuca/code.py:CODE.adaptive_euler"]}
{"id": "C40", "title": "CODE and RandomStepCA time bookkeeping", "statement": "t_count after any run equals the sum of the steps used, increases by at least the minimum step each call, so a run until time T takes at most T/min_dt+1 calls; get_dt raises after the first forward because dt is no longer a tensor.", "quantifier": "all runs", "why_tests_cant": "Ranges over all histories.", "anchors": ["yuca/code.py", "yuca/random_step_ca.py", "yuca/ca/common.py:CA.get_dt"]}
{"id": "C41", "title": "MetaCA momentum is reset by reset or a shape change", "statement": "After reset, or when the grid shape changes, MetaCA.forward behaves as from zero momentum; otherwise momentum accumulates ddt times each update; get_frame shows first-order dynamics instead.", "quantifier": "all histories and grids", "why_tests_cant": "Hidden state across calls.", "anchors": ["yuca/metaca.py"]}
{"id": "C42", "title": "NCA updates are bounded", "statement": "An NCA update is in [-1,1] for any weights, so no cell changes by more than dt per step; in evaluation mode it is a function of weights and grid only.", "quantifier": "all weights, grids, activations", "why_tests_cant": "Infinitely many inputs; a finite test suite samples only some of them.", "anchors": ["yuca/ca/neural.py:NCA.update_universe", "yuca/ca/neural.py:NCA.initialize_weight_layer"]}
{"id": "C43", "title": "Storing a pattern never overwrites a stored pattern", "statement": "Librarian.store writes to name+counter with the least unused counter, leaves every existing .npy file unchanged, and terminates for every directory content; a crash between its two writes leaves all stored patterns intact.", "quantifier": "all directory contents, names, crash points", "why_tests_cant": "All states and crash points.", "anchors": ["yuca/zoo/librarian.py:Librarian.store"]}
{"id": "C44", "title": "Stored metadata can be read back", "statement": "load after store returns the stored array, and config name, commit hash, notes and entry point for fields without commas and newlines, each with its trailing newline and notes with a leading space as written; fields with commas are truncated.", "quantifier": "all field strings", "why_tests_cant": "Infinitely many inputs; a finite test suite samples only some of them.", "anchors": ["yuca/zoo/librarian.py:Librarian.store", "yuca/zoo/librarian.py:Librarian.load"]}
{"id": "C45", "title": "The pattern index lists stored patterns", "statement": "After store, update_index lists the new name, sorted, unless the name itself contains one of the filtered substrings, in which case it is silently hidden.", "quantifier": "all names and directory contents", "why_tests_cant": "Infinitely many inputs; a finite test suite samples only some of them.", "anchors": ["yuca/zoo/librarian.py:Librarian.update_index"]}
{"id": "C46", "title": "Animation frames play in chronological order", "statement": "The frame file names written by save_fig_sequence sort lexicographically in step order for every number of steps below 10^10.", "quantifier": "all step counts", "why_tests_cant": "Infinitely many inputs; a finite test suite samples only some of them.", "anchors": ["yuca/utils.py:save_fig_sequence", "yuca/utils.py:make_gif"]}
{"id": "C47", "title": "Masks are 0/1 discs and need even square inputs", "statement": "get_bite_mask and get_aperture return 0/1 masks of the image's shape for even square images in exact arithmetic and raise for odd or non-square ones; with double precision they also raise for some even sizes (e.g. 58). np.arange gives the height of an even image or one point more, so in double precision the mask is the exact one or the call raises ValueError.", "quantifier": "all image sizes and radii", "why_tests_cant": "Infinitely many inputs; a finite test suite samples only some of them.", "anchors": ["yuca/utils.py:get_bite_mask", "yuca/utils.py:get_aperture"]}
{"id": "C48", "title": "Work distribution covers the population exactly once, in order", "statement": "For two or more workers the batches sent to the workers partition 0..population-1 in order, so gathered fitness values line up with agents; one worker raises ZeroDivisionError.", "quantifier": "all population sizes and worker counts", "why_tests_cant": "Infinitely many inputs; a finite test suite samples only some of them.", "anchors": ["yuca/cmaes.py:CMAES.mantle"]}
{"id": "C49", "title": "Parallel evaluation equals serial evaluation under every schedule", "statement": "For any interleaving of the mantle and the arms, no deadlock occurs and the gathered fitness list equals the serial one for a fitness that depends only on parameters and seed.", "quantifier": "all schedules, populations, worker counts", "why_tests_cant": "All interleavings.", "anchors": ["yuca/cmaes.py:CMAES.mantle", "yuca/cmaes.py:CMAES.arm"]}
{"id": "C50", "title": "Truncation selection keeps the best agents", "statement": "With selection mode 0 the elites are the elite_keep best agents in non-increasing fitness order, whatever order the sort gives to ties; elite_keep is between 1 and the population size.", "quantifier": "all fitness lists and all valid sorts", "why_tests_cant": "Infinitely many inputs; a finite test suite samples only some of them.", "anchors": ["yuca/cmaes.py:CMAES.update_population", "yuca/cmaes.py:CMAES.rank_population"]}
{"id": "C51", "title": "Elitism preserves the best agent, but not all elites", "statement": "For populations of at least 8, after update_population agent 0 has the parameters of the best agent; for smaller populations no elite is kept; for 24 or more a lower elite can be lost because agents are overwritten in place.", "quantifier": "all populations, fitness lists, samples; witness for the loss", "why_tests_cant": "Infinitely many inputs; a finite test suite samples only some of them.", "anchors": ["yuca/cmaes.py:CMAES.update_population"]}
{"id": "C52", "title": "Covariance update is symmetric positive semidefinite", "statement": "The covariance computed by update_population is symmetric and positive semidefinite for every elite set and mean.", "quantifier": "all elite sets and means", "why_tests_cant": "Infinitely many inputs; a finite test suite samples only some of them.", "anchors": ["yuca/cmaes.py:CMAES.update_population"]}
{"id": "C53", "title": "Early stop ranks the wrong agents", "statement": "At an early stop rank_population is called with the fitness of the agents that update_population has already replaced, so the config saved as best need not belong to the agent with the best fitness.", "quantifier": "all runs; witness", "why_tests_cant": "Infinitely many inputs; a finite test suite samples only some of them.", "anchors": ["yuca/cmaes.py:CMAES.mantle", "yuca/cmaes.py:CMAES.rank_population"]}
{"id": "C54", "title": "Seeds are not independent", "statement": "In one CMAES run over several seeds every later seed starts from the previous seed's elites (agents that are parameter vectors start as the elites, joint agents are given them with the first picture, pattern networks start afresh), and all seeds append to one log. A co-evolution under a tag that contains 'pattern' raises TypeError at its first picture.", "quantifier": "all seed lists; witness", "why_tests_cant": "Infinitely many inputs; a finite test suite samples only some of them.", "anchors": ["yuca/cmaes.py:CMAES.mantle", "yuca/cmaes.py:CMAES.reset", "yuca/cmaes.py:CMAES.initialize_population"]}
{"id": "C55", "title": "Coevolution saves the wrong rule", "statement": "In coevolution the config saved as best uses the leading entries of the joint parameter vector, which are pattern-network weights, instead of the rule parameters.", "quantifier": "all parameter vectors", "why_tests_cant": "Infinitely many inputs; a finite test suite samples only some of them.", "anchors": ["yuca/cmaes.py:CMACES", "yuca/cmaes.py:CMAES.rank_population", "yuca/cppn.py:CPPNPlus"]}
{"id": "C56", "title": "Halting rewards are bounded", "statement": "SimpleHaltingWrapper rewards lie in [-0.5001,0] and HaltingWrapper accuracies in [0,1] with rewards in [-1,0].", "quantifier": "all CA behaviours and batches", "why_tests_cant": "Infinitely many inputs; a finite test suite samples only some of them.", "anchors": ["yuca/wrappers/halting_wrapper.py"]}
{"id": "C57", "title": "Early exit of the halting rollout is sound", "statement": "If the CA keeps the zero universe at zero, stopping the rollout when the grid mean is non-positive gives the same final grid as running all steps.", "quantifier": "all CA step functions with values in [0,1], all initial grids and step counts", "why_tests_cant": "Infinitely many inputs; a finite test suite samples only some of them.", "anchors": ["yuca/wrappers/halting_wrapper.py:SimpleHaltingWrapper.step"]}
{"id": "C58", "title": "Centred initial grids", "statement": "Zeroing the outer quarter of a random grid keeps exactly the cells with dim//4 <= index < dim-dim//4 for dim >= 4; for dim < 4 everything is zeroed.", "quantifier": "all dimensions and grids", "why_tests_cant": "Infinitely many inputs; a finite test suite samples only some of them.", "anchors": ["yuca/wrappers/halting_wrapper.py:SimpleHaltingWrapper.step", "yuca/cmaes.py:CMAES.save_gif"]}
{"id": "C59", "title": "Glider reward telescopes", "statement": "The displacement reward is the sum of per-step centroid displacements corrected for wrap-around; with no wrap it telescopes to last minus first centroid; zero steps raises.", "quantifier": "all trajectories", "why_tests_cant": "Infinitely many inputs; a finite test suite samples only some of them.", "anchors": ["yuca/wrappers/glider_wrapper.py:GliderWrapper.meta_step"]}
{"id": "C60", "title": "np_shift is a toroidal shift", "statement": "np_shift(grid, shift) for shifts in {-1,0,1}^2 reads cell ((i+s0) mod n, (j+s1) mod m).", "quantifier": "all grids and shifts", "why_tests_cant": "Infinitely many inputs; a finite test suite samples only some of them.", "anchors": ["yuca/analyze.py:np_shift"]}
{"id": "C61", "title": "Grid entropy bounds", "statement": "The Phanes grid entropy is between -log2(1+1e-9) and 8 for every grid, and the histogram counts every cell exactly once.", "quantifier": "all grids", "why_tests_cant": "Infinitely many inputs; a finite test suite samples only some of them.", "anchors": ["yuca/analyze.py:get_grid_entropy", "yuca/analyze.py:Phanes"]}
{"id": "C62", "title": "The joint histogram of the conditional entropy is wrong", "statement": "The table built by get_conditional_grid_entropy sums to 65026 per cell rather than 1 per cell, because it counts agreements of indicator values instead of joint occurrences.", "quantifier": "all grids", "why_tests_cant": "Infinitely many inputs; a finite test suite samples only some of them.", "anchors": ["yuca/analyze.py:get_conditional_grid_entropy"]}
{"id": "C63", "title": "CPPN patterns are bounded and need one or two channels", "statement": "CPPN.get_action values lie in [0,1] for all weights; the network input has 16*2^(E-1) channels while it expects 16*E, so only one or two external channels work.", "quantifier": "all weights, dims, channel counts", "why_tests_cant": "Infinitely many inputs; a finite test suite samples only some of them.", "anchors": ["yuca/cppn.py"]}
{"id": "C64", "title": "Command-line dispatch", "statement": "evolve selects the CA class, wrapper and algorithm by the documented name matching, with SimpleHaltingWrapper preferred over HaltingWrapper and pattern over coevolution; an argument containing a dash starts a new group, other arguments join the group before, and a first argument without a dash raises.", "quantifier": "all argument strings", "why_tests_cant": "Infinitely many inputs; a finite test suite samples only some of them.", "anchors": ["yuca/evolve.py"]}
{"id": "C65", "title": "Every reachable CCA is well formed", "statement": "Whatever sequence of construction, load_config, restore_config, set_params, set_kernel_config, set_kernel_radius, make_config, save_config and set_dt calls that return normally, the CCA is well formed (odd mirror-symmetric kernels, matching channel counts and padding modes), so the properties of the step function apply to it.", "quantifier": "all call sequences, arguments, file systems and random draws", "why_tests_cant": "Infinitely many inputs; a finite test suite samples only some of them.", "anchors": ["yuca/ca/continuous.py:CCA"]}
{"id": "C66", "title": "Bundled configurations", "statement": "get_orbium_config, get_geminium_config and get_smooth_life_config load into every CCA for every radius of at least 1 and give the stated kernels, update functions and time step; Orbium and Geminium objects survive saving and loading.", "quantifier": "all radii, objects and intervals", "why_tests_cant": "Infinitely many inputs; a finite test suite samples only some of them.", "anchors": ["yuca/configs.py"]}
{"id": "C67", "title": "Cropping", "statement": "Librarian.crop with non-negative bounds returns exactly the rows row[0]..row[1]-1 and columns column[0]..column[1]-1 that exist.", "quantifier": "all matrices and bounds", "why_tests_cant": "Infinitely many inputs; a finite test suite samples only some of them.", "anchors": ["yuca/zoo/librarian.py:Librarian.crop"]}
{"id": "C68", "title": "prep_input batches", "statement": "For even square single images, prep_input with an explicit channel count returns batches whose entries are the image inside the aperture and outside that element's bite plus noise_level times noise, zero in extra channels, within [0, 1+noise_level] for images and noise in [0,1]; without a channel count it raises for images with more than one channel.", "quantifier": "all images, radii, noise and batch sizes", "why_tests_cant": "Infinitely many inputs; a finite test suite samples only some of them.", "anchors": ["yuca/utils.py:prep_input"]}
{"id": "C69", "title": "Animations show every state in order", "statement": "save_fig_sequence writes an animation showing the first state twice and then every saved state once in order, stopping at the first vanishing state; it makes none for a vanishing start or a single step and raises for zero steps.", "quantifier": "all automata, states, step counts up to 10^10 and speedups", "why_tests_cant": "Infinitely many inputs; a finite test suite samples only some of them.", "anchors": ["yuca/utils.py:save_fig_sequence", "yuca/utils.py:make_gif"]}
{"id": "C70", "title": "Fitness is the mean reward", "statement": "get_fitness seeds the generators, resets the environment before every replicate and returns the mean reward and mean live proportion over all steps of all replicates, so it lies between the bounds of the rewards; zero steps or zero replicates raise ZeroDivisionError.", "quantifier": "all environments, step counts, replicate counts and seeds", "why_tests_cant": "Infinitely many inputs; a finite test suite samples only some of them.", "anchors": ["yuca/cmaes.py:CMAES.get_fitness", "yuca/cmaes.py:CMACES.get_fitness"]}
{"id": "C71", "title": "Starting box of an analysis", "statement": "The random box of analyze_universe fits its slice exactly for even sizes (and sizes 1 and 3), where it fills the cells from b//2 to b//2+b with b = dim//2 and zero elsewhere; every other odd size raises. Pattern starts keep exactly the cells of the slice.", "quantifier": "all sizes, batches and random values", "why_tests_cant": "Infinitely many inputs; a finite test suite samples only some of them.", "anchors": ["yuca/analyze.py:Phanes.analyze_universe"]}
{"id": "C72", "title": "Mortality, fertility and last steps", "statement": "analyze_universe records one measure per step until the grid mean is zero; mortality is the share of samples with no positive mean, fertility the share with a live cell on the edge, and last_step the first step after which a sample's mean is not positive (-1 if none). The recorded entropies have a mean from -log2(1+1e-9) to 8 and a deviation of at most half of that range.", "quantifier": "all automata, step counts and non-negative grids", "why_tests_cant": "Infinitely many inputs; a finite test suite samples only some of them.", "anchors": ["yuca/analyze.py:Phanes.analyze_universe"]}
{"id": "C73", "title": "Autocorrelation is bounded", "statement": "Phanes.autocorrelate of two batches of equal shape with at least two cells gives one number in [-1,1] for each pair of channels, the product of the standardised cells summed over samples and positions; exchanging the batches transposes the table, and its diagonal adds up to the autocorrelation of all cells taken together, which is the only entry for one channel. Constant grids give 1; fewer cells give no finite value; batches of different size or a larger second grid raise. What is recorded are mean, deviation, least and greatest entry: the deviation is at most half the distance of the extremes, and with one channel it is zero and the others agree.", "quantifier": "all grids", "why_tests_cant": "Infinitely many inputs; a finite test suite samples only some of them.", "anchors": ["yuca/analyze.py:Phanes.autocorrelate"]}
{"id": "C74", "title": "Step predictor forward pass", "statement": "A freshly built StepPredictor has two layers and four distinctly named parameters per repetition. Its forward pass runs ceil(repeats/2) passes, pass k using layers 2k and 2k+1 only; every pass adds to each cell the logistic function of a combination of rectified window sums with zero padding. So every cell rises strictly, by less than the number of passes, the later half of the layers is never read, and an even number of repetitions computes what one less computes. Wrong channel counts, dropout outside [0,1] and missing layers raise.", "quantifier": "all well-formed predictors, universes and dropout masks", "why_tests_cant": "Infinitely many inputs; a finite test suite samples only some of them.", "anchors": ["yuca/step_predictor.py:StepPredictor"]}
{"id": "C75", "title": "Training of the step predictor never completes", "statement": "StepPredictor.fit with at least one epoch raises whatever the data: after the first display epoch it saves the model below the path of the progress file it has just written. It leaves at most the progress file of epoch 0, which holds the exponentially weighted averages of the losses of that epoch; without a validation loader it raises TypeError, with an empty one or a zero display interval ZeroDivisionError; no epochs change nothing; without layers it raises ValueError before anything else.", "quantifier": "all optimisers, data, masks, file trees and epoch counts", "why_tests_cant": "Infinitely many inputs; a finite test suite samples only some of them.", "anchors": ["yuca/step_predictor.py:StepPredictor.fit"]}
{"id": "C76", "title": "Evaluation loss of the step predictor", "statement": "The evaluation loss is the total squared error over all batches divided by the number of samples, so it is non-negative, zero exactly if every batch is predicted exactly, and for one batch it is the number of cells per sample times the mean squared error that training minimises.", "quantifier": "all predictors and batches", "why_tests_cant": "Infinitely many inputs; a finite test suite samples only some of them.", "anchors": ["yuca/step_predictor.py:StepPredictor.evaluate"]}
{"id": "C77", "title": "Data, test file and names of a step predictor run", "statement": "The script takes the first tenth of the samples for validation and the rest for training, keeping inputs with their targets; with fewer than ten samples validation is empty. The test file is the training file itself unless its name contains train, as for both defaults. Run names with equal settings agree exactly if the creation times agree modulo 1000 seconds.", "quantifier": "all data sets, file names and times", "why_tests_cant": "Infinitely many inputs; a finite test suite samples only some of them.", "anchors": ["yuca/step_predictor.py"]}
{"id": "C78", "title": "Attempts of a clone", "statement": "clone_from_ca trains max_iterations networks per configuration, whether or not the threshold has been met, each for max_steps steps or up to the first step whose error is below the threshold. The number of hidden channels starts as given and is then a quarter more each time, rounded down and capped: up to 3 channels never grow, from 4 on the number rises until it is max_hidden_channels and stays there.", "quantifier": "all configurations, networks, optimisers and limits", "why_tests_cant": "Infinitely many inputs; a finite test suite samples only some of them.", "anchors": ["yuca/clone.py:clone_from_ca"]}
{"id": "C79", "title": "What a clone saves", "statement": "The reported best error is the least of all errors measured for the configuration. The weights saved are those of the first iteration that attained it as they are after its last step, which is at least one optimiser step after the measured ones; if no error is a number, weights from an earlier configuration are saved again (or None). The loss and the recorded relative error are the same non-negative number, zero exactly for equal tensors, and the kernels handed to the network do not affect it.", "quantifier": "all configurations, networks, error sequences and limits", "why_tests_cant": "Infinitely many inputs; a finite test suite samples only some of them.", "anchors": ["yuca/clone.py:clone_from_ca"]}
{"id": "C80", "title": "Files of a clone run", "statement": "The placeholder ca_config in the save path becomes the configuration name without extension, for the first configuration only; after that all configurations are saved to the same file, which ends up holding the clone of the last. Verdicts come in the order of the configurations up to the first that cannot be loaded, and say the threshold is met exactly if the best error is below it.", "quantifier": "all lists of configurations and paths", "why_tests_cant": "Infinitely many inputs; a finite test suite samples only some of them.", "anchors": ["yuca/clone.py:clone_from_ca"]}
{"id": "C81", "title": "Arguments and defaults of the activation classes", "statement": "Gaussian, DoGaussian, PolynomialFunction, CosOverX2, SmoothIntervals and SmoothLifeKernel take exactly the arguments they document, with the stated defaults, where a number may be given as float, integer or one-element array and mode counts by truth value; with such arguments they never raise, except that bounds given as a flat non-empty array raise IndexError. (What other kinds of values do is not modelled.) GaussianMixture without parameters is one Gaussian with mean 0.5 and deviation 0.15. DoubleGaussian needs arrays for mean and deviation, so its own defaults raise.", "quantifier": "all argument dictionaries", "why_tests_cant": "Infinitely many inputs; a finite test suite samples only some of them.", "anchors": ["yuca/activations.py"]}
{"id": "C82", "title": "A new CCA", "statement": "A CCA built without configuration has the channel counts, peaks, radius, padding mode and threshold given or the defaults 1, 1, 3, 13, circular and 0.1, time step 0.1 and 3 kernel parameters per peak. In the first eight channels genesis and persistence share mean and deviation, which lie in [0,1] and are 0.15 and 0.015 up to the drawn deviations, and are each Gaussian or DoGaussian in growth mode as drawn; later channels have polynomials with eight drawn coefficients, the i-th divided by 10^i.", "quantifier": "all keyword dictionaries and random draws", "why_tests_cant": "Infinitely many inputs; a finite test suite samples only some of them.", "anchors": ["yuca/ca/continuous.py:CCA.default_init"]}
{"id": "C83", "title": "New adaptive and random-step automata", "statement": "A new CODE automaton tries 0.5, 0.375, ... down to 0.01 for its first step and takes the first with error below 0.001; after n calls its time is the sum of n steps in [0.01, 0.5]. A new RandomStepCA takes steps r/5 + 0.05 for draws r, so n calls take time between n/20 and n/4. Before the first call both report the time step of the underlying CCA.", "quantifier": "all automata, grids, draws and call counts", "why_tests_cant": "Infinitely many inputs; a finite test suite samples only some of them.", "anchors": ["yuca/code.py", "yuca/random_step_ca.py"]}
{"id": "C84", "title": "Configuration round trip of neural automata", "statement": "For an NCA in working order, make_config succeeds and loading the config into any NCA object gives an automaton with the same steps, frames and parameters, which makes the same config again; likewise through save_config and restore_config. New objects are in working order, and full parameter vectors, time steps and loading complete configs keep them so. With kernel arguments in the config the loaded neighbourhood kernel is the Gaussian mixture of the kernel parameters whatever kernel is named; without them it is the named kernel and there are no kernel parameters, so a named kernel put in by set_kernel_config does not survive: the loaded automaton has another layer and lacks the kernel parameters. The identity kernel config written is never read.", "quantifier": "all NCA objects in working order, configs, file systems and random draws", "why_tests_cant": "Infinitely many inputs; a finite test suite samples only some of them.", "anchors": ["yuca/ca/neural.py:NCA.make_config", "yuca/ca/neural.py:NCA.load_config", "yuca/ca/neural.py:NCA.set_params"]}
{"id": "C85", "title": "Constructing neural automata", "statement": "An NCA takes channel counts, radius, peaks, padding, threshold, dropout rate and activation from its arguments with the stated defaults, unknown activations becoming Gaussian; a new one has squared random weights, time step 0.1 and the default kernel parameters. Given a config file with instant_kwargs it ignores all other arguments and is what loading that config into any object gives. Given a file that does not exist, construction succeeds but the object has no layers and every use raises AttributeError until a config with instant_kwargs is loaded. Any object with layers holds arguments naming no file; a file naming itself is never loaded at any recursion depth.", "quantifier": "all keyword dictionaries, file systems and random draws", "why_tests_cant": "Infinitely many inputs; a finite test suite samples only some of them.", "anchors": ["yuca/ca/neural.py:NCA.__init__", "yuca/ca/neural.py:NCA.restore_config"]}
{"id": "C86", "title": "Exceptions on malformed inputs", "statement": "A kernel whose leading dimensions are neither 1 nor those of the layer's weight raises RuntimeError when the layer is initialised, and so do target lists of different lengths; position grids have the shape (1,1,dim,dim) for every radius but 0. An update of a population smaller than the population size raises IndexError. A run that evolves patterns ends by giving the first agents the last elites, and raises IndexError if it has none; another run of no generations raises UnboundLocalError. Loading a stored pattern whose array or metadata file is of the wrong kind raises ValueError.", "quantifier": "all inputs that are malformed in the stated way", "why_tests_cant": "Infinitely many inputs; a finite test suite samples only some of them.", "anchors": ["yuca/ca/common.py", "yuca/cmaes.py", "yuca/wrappers/halting_wrapper.py", "yuca/wrappers/glider_wrapper.py", "yuca/zoo/librarian.py:Librarian.load"]}
{"id": "C87", "title": "Browsing the pattern library in the demonstration server", "statement": "The entry on display is always the last of the index. Next goes to the first following entry whose recorded commit is not 'none', previous to the last such entry before, reset shows the same one; next then previous comes back, and pressing next once per entry shows every entry once. The index stays a rotation of the first one through every history of a library whose entries can all be shown. A pattern is shown exactly when it is one image of at most 90x90 cells, centred up to three cells. If every entry is hidden, next and previous never end; a pattern stored by the librarian is never hidden, even with the commit hash 'none'. An entry that fails to show disappears from the index for good, and no history ever adds or duplicates entries.", "quantifier": "all libraries, automata, failures and histories of button presses and timer updates", "why_tests_cant": "Infinitely many inputs; a finite test suite samples only some of them.", "anchors": ["gecco_bokeh_app/main.py:reset_next_pattern", "gecco_bokeh_app/main.py:reset_prev_pattern", "gecco_bokeh_app/main.py:reset_this_pattern"]}
{"id": "C88", "title": "Running, pausing and speed of the demonstration server", "statement": "Through every history one periodic update is registered while the simulation runs and none while it is paused, always with the current period, which is 128 ms times a power of two up to 8192 ms; the run and speed buttons never fail. The speed buttons keep a running simulation running and a paused one paused, and change nothing but the period. The step counter is the number of successful updates since the server started: choosing another pattern does not reset it.", "quantifier": "all libraries, automata, failures and histories of button presses and timer updates", "why_tests_cant": "Infinitely many inputs; a finite test suite samples only some of them.", "anchors": ["gecco_bokeh_app/main.py:go", "gecco_bokeh_app/main.py:faster", "gecco_bokeh_app/main.py:slower", "gecco_bokeh_app/main.py:update"]}
{"id": "C89", "title": "Which parameters training can change", "statement": "set_params, loading a configuration, changing the kernel radius, moving to a device and no_grad leave no parameter of a CCA requiring gradients, and only adding a new update function makes any trainable again; a parameter once frozen never is trainable again. A new CCA is frozen unless use_grad is set and neither a found configuration nor a parameter file is given, in which case its update functions and weights are all trainable until one of those calls. The kernels never are. parameters() covers the whole rule unless functions were added by hand. So training the predictor of the halting wrapper never changes the rule it is evaluating. A neural automaton's weights are trainable exactly if yes_grad was called and nothing freezing or replacing them came after, whatever use_grad was.", "quantifier": "all constructor arguments, nested configurations and histories of calls", "why_tests_cant": "Infinitely many inputs; a finite test suite samples only some of them.", "anchors": ["yuca/ca/continuous.py:CCA.no_grad", "yuca/ca/continuous.py:CCA.include_parameters", "yuca/ca/neural.py:NCA.yes_grad", "yuca/wrappers/halting_wrapper.py:HaltingWrapper.step"]}
{"id": "C90", "title": "The predictor of the halting wrapper", "statement": "A new predictor has num_blocks blocks of three 3x3 convolutions (channels to 32 to 32 to channels) holding the drawn weights, six parameters per block registered under different names, and a final convolution with two outputs in mode 2 and one otherwise; a dropout rate outside [0,1] raises ValueError if there is a block. On grids with its channel count and sides of at least 2^num_blocks the prediction for a sample and output is the mean over the pooled plane of the logistic of the final window over the rectified, dropout-scaled and 2x2-averaged blocks; anything else raises RuntimeError. Predictions lie strictly between 0 and 1, and in evaluation mode depend on the network and that sample alone. With an automaton that answers, step completes in modes 0 to 2 after eight training steps with one prediction per sample and output; other modes raise ValueError and smaller grids RuntimeError.", "quantifier": "all weights, dropout masks, grids, batch sizes, block counts, automata and learning rules", "why_tests_cant": "Infinitely many inputs; a finite test suite samples only some of them.", "anchors": ["yuca/wrappers/halting_wrapper.py:HaltingWrapper.init_model", "yuca/wrappers/halting_wrapper.py:HaltingWrapper.forward", "yuca/wrappers/halting_wrapper.py:HaltingWrapper.step"]}
{"id": "C91", "title": "Constructing the wrappers", "statement": "HaltingWrapper and GliderWrapper given a configuration file have exactly the rule of that file, as a new CCA with the same arguments loading it would, whatever log is given too; loading it a second time never fails. So with both files the wrappers ignore the evolved parameters that CCA with the same arguments takes from the log: the grids differ after a step. Without a configuration, or if the file does not exist, they have what CCA gives; with a log only the parameters are the first of the best agent of the last generation. The action space of GliderWrapper has the channels of the configuration, not its own external_channels. Sampled actions of the halting wrappers are accepted and read back; without kernel parameters every action raises AttributeError.", "quantifier": "all keyword dictionaries, configurations, logs and random draws", "why_tests_cant": "Infinitely many inputs; a finite test suite samples only some of them.", "anchors": ["yuca/wrappers/halting_wrapper.py:HaltingWrapper.__init__", "yuca/wrappers/halting_wrapper.py:SimpleHaltingWrapper.__init__", "yuca/wrappers/glider_wrapper.py:GliderWrapper.__init__"]}
{"id": "C92", "title": "The notebook's smooth Life", "statement": "The smooth step function of the notebook helpers is get_smooth_steps_fn of activations.py and SmoothIntervals without rescaling. Its kernels ignore the kernel function they are given, are positive, sum to one and are symmetric, so that convolve2d is the sum over the torus; the two kernels of the animation notebook are exactly the eight neighbours, an eighth each, and the cell. Its rule intervals are in eighteenths, so counts up to 3 are read as meant, 4 is half of each of 4 and 5, and 5 to 8 are read as one more: one step of a board of zeros and ones is a step of the rule so read, and B36/S23 is not simulated. The Glaberish version of B3/S23 follows Life for all time on every torus, with dead cells to within 1/100000 and live ones to within 1/30, and its glider glides; the Lenia version takes the same single steps but does not follow Life: dead cells beside a block keep growing.", "quantifier": "all rule lists, boards, tori, kernels and numbers of steps", "why_tests_cant": "Infinitely many inputs; a finite test suite samples only some of them.", "anchors": ["notebooks/my_helpers.py:get_smooth_interval", "notebooks/my_helpers.py:get_kernel", "notebooks/my_helpers.py:get_smooth_steps_fn", "notebooks/my_helpers.py:get_conv_fn", "notebooks/my_helpers.py:get_glider", "yuca/activations.py:get_smooth_steps_fn", "notebooks/glaberish_animations.ipynb"]}
{"id": "C93", "title": "Analysing a directory of configurations", "statement": "Phanes.analyze_multiverse saves the analysis of each file with npy in its name into ca_analysis beside the parent of the directory it was given: inside the working directory if the directory is written with a slash at the end, beside it if not, so that the directory taken by default by the class puts the results outside the working directory. Files whose names agree up to the extension share one result file and only the last is kept. If all configurations carry constructor arguments, or none does, each result is the analysis of that file alone, whatever was analysed before; in a mixed directory the order of the listing decides, and may decide whether the run ends with an exception. If every configuration can be analysed alone, the run reaches the end. An exception keeps the results of the files before and stops; the configurations themselves are never overwritten unless the directory is the one of the results. Without the ca_analysis directory, or with no steps, nothing is saved. An automaton can be analysed on an even grid exactly if it has one external channel, its kernels fit and its functions are as many as its internal channels and defined; odd grids from five on never.", "quantifier": "all directories, listings, configurations, files, random draws and working directories", "why_tests_cant": "Infinitely many inputs; a finite test suite samples only some of them.", "anchors": ["yuca/analyze.py:Phanes.__init__", "yuca/analyze.py:Phanes.analyze_multiverse", "yuca/analyze.py:Phanes.analyze_universe"]}
{"id": "C94", "title": "Starting a search", "statement": "With at most one worker a search starts no process and is its own mantle. With W >= 2, and IN_MPI not set, it starts exactly W processes with its own arguments: one mantle and the arms 1 to W-1, agreeing on W, none of which starts another. They get its environment with IN_MPI and MKL_NUM_THREADS set to 1; OMP_NUM_THREADS stays what it was, its name being misspelt. The search succeeds exactly if all its processes do, and success is then reported once by each. Each generation is divided as C48 has it, every agent once. With one worker the first generation raises ZeroDivisionError; with a negative number nobody is evaluated. Where IN_MPI is set already nothing is started, and a generation can be completed exactly if MPI has as many processes as were asked for; alone it raises ZeroDivisionError.", "quantifier": "all worker counts, arguments, environments, population sizes and process numbers", "why_tests_cant": "Infinitely many inputs; a finite test suite samples only some of them.", "anchors": ["yuca/cmaes.py:CMAES.mpi_fork", "yuca/cmaes.py:CMAES.search", "yuca/cmaes.py:CMAES.mantle"]}
{"id": "C95", "title": "Committing a test report", "statement": "test_commit runs the tests, writes the report, and commits it with the last line of the report that contains TOTAL as summary, whatever the exit status of the tests. Without such a line it raises UnboundLocalError after adding its remark to the report, and commits nothing. The shell takes the commit command as meant, message and summary being one argument each, exactly if the message has no single quote; otherwise it may be no command at all, without anybody being told, or have further arguments taken from the message.", "quantifier": "all reports, messages and effects of commands", "why_tests_cant": "Infinitely many inputs; a finite test suite samples only some of them.", "anchors": ["test_commit.py:test_commit"]}
{"id": "C96", "title": "Growth functions from intervals and from channels; targets", "statement": "get_smooth_steps_fn gives the function of SmoothIntervals without rescaling and raises TypeError on integers. GaussianMetaMixture needs three channels, of which later ones make no difference, and no width of -1e-7; each value of its single-channel result is the Gaussian of channel 0 around channel 1 with width channel 2 at the same place, in (0,1] or rescaled in (-1,1], and 1 exactly where channel 0 equals channel 1. make_target adds a batch dimension to a three-dimensional array and changes no value, raises IndexError for fewer dimensions, and drops further ones exactly if they are of size one or the image is empty.", "quantifier": "all intervals, inputs, shapes and values", "why_tests_cant": "Infinitely many inputs; a finite test suite samples only some of them.", "anchors": ["yuca/activations.py:get_smooth_steps_fn", "yuca/activations.py:GaussianMetaMixture.forward", "yuca/utils.py:make_target"]}
{"id": "C97", "title": "The puffer puffs for ever", "statement": "Under B368/S245 the pattern of get_puffer on an empty plane has, after 170 k steps, moved 13 k columns to the right, and besides it exactly k full blocks of four rows and two columns are alive, 13 columns apart: 16 + 8 k live cells. So its population has no bound, and the pattern at one time is never the pattern at another, moved by anything. At every step it is symmetric about its middle row and stays within two rows of where it started and four columns behind. On a torus of 14 rows or more it does the same, wherever it is put, for as many rounds as leave 14 columns free; and the automaton with the Life-like configuration for the rule follows it there to within 2/1000000 per step for the first nine rounds, or as long as the sum of the rounding errors allows. The smaller pattern of the same name in the notebook helpers is the same puffer 53 steps earlier.", "quantifier": "all numbers of steps and rounds, boards, positions and rounding errors", "why_tests_cant": "Infinitely many inputs; a finite test suite samples only some of them.", "anchors": ["yuca/patterns.py:get_puffer", "yuca/configs.py:get_life_like_config", "notebooks/my_helpers.py:get_puffer"]}
{"id": "C98", "title": "How fast nearby grids move apart", "statement": "With fewer than four channels, one step of an automaton takes two grids that differ by at most e in every entry to grids that differ by at most q e, and raises on both or neither. For an automaton with the identity kernel, a kernel of the dispatcher and the equal weights, q is 1 plus dt (L + 2 M) / channels, where L and M bound slope and size of the growth functions: every class but SmoothLifeKernel has such bounds on every interval. For Lenia rules, whose two growth functions agree, the term in M is absent; Orbium has q = 10, Geminium 5, SmoothLife 146, at every radius. Gray-Scott has 1 + dt (max(du,dv) / dx^2 + 3 + |f| + |k|), and neural automata the product of the layers' bounds. After n steps the difference is at most q^n e, and a run in which each step is off by up to d is within q^n e + d (q^n - 1) / (q - 1) of the exact run. From four channels on there is no such q, because the alive mask switches whole cells off; nor is there a slope for SmoothLifeKernel's step function.", "quantifier": "all automata, kernels, growth functions, grids, numbers of steps and errors", "why_tests_cant": "Infinitely many inputs; a finite test suite samples only some of them.", "anchors": ["yuca/ca/continuous.py:CCA.forward", "yuca/lenia.py", "yuca/ca/reaction_diffusion.py:RxnDfn.forward", "yuca/ca/neural.py:NCA.forward", "yuca/activations.py"]}
{"id": "C99", "title": "Smaller time steps: the automata follow a flow", "statement": "With fewer than four channels, n steps of size t/n converge as n grows, to exactly one grid, the flow of the start after time t; after n steps the distance is at most (t/n)(M/2)(exp(L t) - 1), where M and L bound size and slope of the update (L = (L'+2 M')/channels for every configured automaton; 89 for Orbium, 38 for Geminium, 145 for SmoothLife, with M = 1). Flows add up in time, start from nearby grids within exp(L t) of each other, move at most M per time, and obey the automaton's equation: one step of size h is within h^2 L M / 2 of the flow; any curve the steps follow up to a multiple of h^2 is the flow. A run with steps of any sizes up to h0 is within h0 (M/2)(exp(L t) - 1) of the flow, so two runs that take the same total time are close; this covers CODE, which draws the step by its own error estimate, and RandomStepCA, at the time each records. A grid is fixed by one positive step size exactly if by all, exactly if the flow rests on it. For the growth x itself the flow is min(1, x exp(t)).", "quantifier": "all automata, grids, times, step sizes and sequences of them", "why_tests_cant": "Infinitely many inputs; a finite test suite samples only some of them.", "anchors": ["yuca/ca/common.py:CA.set_dt", "yuca/ca/continuous.py:CCA.forward", "yuca/ca/reaction_diffusion.py:RxnDfn.forward", "yuca/ca/neural.py:NCA.forward", "yuca/code.py", "yuca/random_step_ca.py"]}
{"id": "C100", "title": "The project's own tests, for all inputs", "statement": "What the unit tests assert of a few inputs holds for all of them, or fails for some. A Gaussian is strictly largest at its mean; a difference of Gaussians vanishes there and has opposite signs on its two sides. Kernels of the four normalised classes with default parameters sum to 1 within 5e-6 for every radius. Whatever is drawn, a CCA made from scratch steps every grid of its channels that the padding has room for, keeps its shape, returns 1, 2, 2, 3 and 4 tensors in frame modes 0 to 4, and takes and returns every non-negative parameter vector of its length. The initial grid of a reaction-diffusion automaton, of any size, has the tested values within 5e-6. An aperture keeps the centre and takes something away from every non-negative image with a positive corner. Three assertions depend on the draw: that a mask is 0 at the centre, that a bite mask sums to more than the image, and that a misspelt keyword gives something other than the value passed.", "quantifier": "all parameters, radii, draws, grids, images, vectors and sizes", "why_tests_cant": "Infinitely many inputs; a finite test suite samples only some of them.", "anchors": ["testing/yuca/test_activations.py", "testing/yuca/test_kernels.py", "testing/yuca/test_utils.py", "testing/yuca/ca/test_continuous.py", "testing/yuca/ca/test_reaction_diffusion.py"]}
{"id": "C101", "title": "The modes of a CCA: what they keep, lose and cannot do", "statement": "The constructor, loader and restorer of a CCA, modelled for every value of ca_mode, coincide with those of functional mode when no keyword or file names another mode. In neurofunctional mode they succeed and fail alike and give the same object except for the weights layer: two random layers with a rectifier between, which every load draws anew and set_params, set_kernel_radius, set_kernel_config, set_dt, make_config and save_config keep. After every sequence of calls the object is well formed, so what is proved of well-formed automata holds in every mode. Per cell the layers act on the same growths that functional mode averages. In any other mode (such as neural) no grid can be stepped, because the default update functions are missing, while parameters can be read and written. Saving and loading keeps everything but the weights: outside functional mode, an automaton that changes any grid can come back as a different automaton. With one internal channel, which every loaded automaton that steps has, and fewer than four external ones, a channel never decreases, or never increases, over all runs: a grid that comes back, moved or not, is a still life, so there are no oscillators and no gliders, and every cell of every run converges.", "quantifier": "all modes, keyword arguments, configurations, draws, sequences of calls, grids and runs", "why_tests_cant": "Infinitely many inputs; a finite test suite samples only some of them.", "anchors": ["yuca/ca/continuous.py:CCA.__init__", "yuca/ca/continuous.py:CCA.load_config", "yuca/ca/continuous.py:CCA.restore_config", "yuca/ca/continuous.py:CCA.initialize_weight_layer", "yuca/ca/continuous.py:CCA.default_init", "yuca/ca/continuous.py:CCA.forward"]}
{"id": "C102", "title": "What a recorded run leaves behind", "statement": "save_fig_sequence with make_gif, modelled with the files it reads, writes and removes. If nothing is in the way, a run of at least two steps from a living grid gives an animation that shows the first picture twice, then the pictures of the run in order, then the frames with higher numbers that lay in the directory before; the directory of frames is gone, the directories above it and that of the animation exist, and no other file has changed. With the default paths and no leftovers this always works. A call that returns leaves nothing at or below the path of the frames, so an animation put there, as by the tag gif_frames, is lost; whether it returns or raises, no path elsewhere changes. An automaton that raises leaves its frames behind, and the next run with names of the same width plays them after its own. A missing directory above that of the animation raises after the run. One step, or a dead start, gives no animation; no step raises; a mode in which get_frame returns a tuple raises at the second step. A grid with values in [0,1] is always drawn with bytes: channels 0 to 3 one by one, two channels as green and blue, one through the colour map; inversion complements the first three bytes and not opacity. Equal pictures mean channels equal within 1/255; later channels and batch entries are not shown. The run stops exactly at a grid without a value of 0.001 or more.", "quantifier": "all files, paths, tags, automata, grids, numbers of steps, speeds and colour maps", "why_tests_cant": "Infinitely many inputs; a finite test suite samples only some of them.", "anchors": ["yuca/utils.py:save_fig_sequence", "yuca/utils.py:make_gif"]}
{"id": "C103", "title": "Devices: what moves with an automaton", "statement": "A tensor is taken as its device and whether it has no dimension; torch combines operands of one device only, except that CPU tensors without dimension go anywhere. A continuous automaton steps grids of at most one device, and does so exactly when its layers, my_device, growth parameters and time step are there or go with it; otherwise it raises a RuntimeError. For every history of calls its state is told by the device named last, where the layers are, the time step and the parameters added since the last move. An automaton made for a GPU steps nothing until it is moved, has its parameters set or its kernel changed. to_device leaves the time step behind: one set on a GPU does not follow to the CPU, so such an automaton is stuck there and the recording of a search fails after its first step, leaving it on the CPU; RandomStepCA escapes. A configuration with arguments decides the device, whatever device was asked for. nn.Module.to keeps my_device, so the benchmark of lenia.py steps nothing on a GPU. A neural automaton read from a file whose kernel has no arguments is not moved. RxnDfn moves as a whole, but its load_config returns to the CPU. It then steps grids of the CPU until a step or rate is set, where set_params repairs the rates only, and moving it puts everything in one place again. Where a neural automaton steps is told, for every history of calls, by its layers' device, if they share one, and its time step. GliderWrapper.to_device leaves its automaton where it is; SimpleHaltingWrapper always works; HaltingWrapper.to_device raises before reset, and reset after a move puts the predictor on the CPU.", "quantifier": "all automata, devices, keyword arguments, nested configurations, sequences of calls and numbers of steps", "why_tests_cant": "Infinitely many inputs; a finite test suite samples only some of them.", "anchors": ["yuca/ca/common.py:CA.set_dt", "yuca/ca/common.py:CA.set_kernel_radius", "yuca/ca/continuous.py:CCA.to_device", "yuca/ca/continuous.py:CCA.__init__", "yuca/ca/continuous.py:CCA.load_config", "yuca/ca/neural.py:NCA.to_device", "yuca/ca/reaction_diffusion.py:RxnDfn.to_device", "yuca/wrappers/glider_wrapper.py:GliderWrapper.to_device", "yuca/wrappers/halting_wrapper.py:HaltingWrapper.to_device", "yuca/wrappers/halting_wrapper.py:SimpleHaltingWrapper.to_device", "yuca/cmaes.py:CMAES.save_gif", "yuca/random_step_ca.py:RandomStepCA.get_new_grid"]}
{"id": "C104", "title": "Sparse universes die out", "statement": "Where growth functions are at most -c on neighbourhoods in [0, M], and no neighbourhood of a universe exceeds M, every cell of a continuous automaton loses at least c times the time that has passed (divided by the number of channels) or reaches 0, and no neighbourhood ever exceeds M again; so from a step that can be told in advance on nothing is left. The same holds for Lenia, for steps of any lengths, for CODE, for the automaton that draws its steps and for the limit of ever smaller steps. Gaussian, mixture and smooth interval growth functions sink so, at a rate given by how far M is below their centres. Orbium: with no neighbourhood above 1/10 a universe is empty after 12 steps, with no cell above 1/10 after 2. Geminium: the same with 3/20. SmoothLife: with no neighbourhood above 1/5 it is empty after 2 steps, with no cell above 1/5 after 1. Gray-Scott with a narrow 3 x 3 Laplacian of a Gaussian and a small enough step: v at most M <= f + k shrinks by a factor in every step, and if M < f + k all such universes go to u = 1, v = 0 uniformly; a new automaton does so from v at most 1/10. Uniform Gray-Scott states at rest are u = 1, v = 0 and the solutions of u v = f + k, f (1 - u) = (f + k) v; if f < 4 (f + k)^2 only the first. Without the bound on v, or with functions that do not sink, universes need not die out.", "quantifier": "all automata, growth functions, kernels, grids, step lengths and numbers of steps meeting the stated conditions", "why_tests_cant": "Infinitely many inputs; a finite test suite samples only some of them.", "anchors": ["yuca/ca/continuous.py:CCA.forward", "yuca/ca/continuous.py:CCA.update_universe", "yuca/lenia.py", "yuca/code.py:CODE.forward", "yuca/random_step_ca.py:RandomStepCA.forward", "yuca/ca/reaction_diffusion.py:RxnDfn.forward", "yuca/ca/reaction_diffusion.py:RxnDfn.update_universe", "yuca/configs.py:get_orbium_config", "yuca/configs.py:get_geminium_config", "yuca/configs.py:get_smooth_life_config"]}
{"id": "C105", "title": "Predictors train and evaluate one global network", "statement": "fit and evaluate of a StepPredictor call the global name model, which only the script binds. On the object that it names they act as C75 and C76 say; training raises, but the network keeps what the first epoch taught it. On any other object, evaluation returns the loss of the named one if that is in evaluation mode, and depends on dropout masks if it is not; training changes no weight of any object and records losses of the named one under the own tag. When nothing binds the name, evaluation and training with samples raise NameError. Evaluation never changes a network, a file or the mode of another object.", "quantifier": "all objects, modes, networks, optimisers, data, masks, file trees and epoch counts", "why_tests_cant": "Infinitely many inputs; a finite test suite samples only some of them.", "anchors": ["yuca/step_predictor.py:StepPredictor.fit", "yuca/step_predictor.py:StepPredictor.evaluate"]}
{"id": "C106", "title": "Reports of the step predictor's script", "statement": "Predictions are made sample by sample, so an evaluation loss does not depend on how the samples are shuffled and cut into batches. end_evaluate writes its three losses exactly if all three can be computed and the file can be written. The script with at least one epoch raises in its first run and writes no report. Without epochs, and with at least ten samples, it writes one report for every seed and each of 1, 2 and 4 repetitions, under different names, with the mean errors of the untrained networks over training, validation and test samples, and nothing else; with fewer than ten samples it raises ZeroDivisionError and writes nothing.", "quantifier": "all data, seeds, shuffles, initial weights, times and file trees", "why_tests_cant": "Infinitely many inputs; a finite test suite samples only some of them.", "anchors": ["yuca/step_predictor.py:StepPredictor.end_evaluate", "yuca/step_predictor.py:StepPredictor.evaluate"]}
{"id": "C107", "title": "Floating point: the range of cells, and NaN", "statement": "The step of a continuous automaton is taken in IEEE 754 floats of any format, or in float16 with float32 arithmetic as on a CPU, with the products of a convolution added up in any order and bracketing, with or without fused steps. Every operation gives the exact result rounded to a nearest float. Whatever a universe holds (NaN and infinities included), after any step every cell is NaN or a number from 0 to 1, in every run. With circular padding and growth functions that answer NaN with NaN, a NaN reaches in each step all channels of all cells within the radius of the neighbourhood, so n steps fill the whole grid of its batch element if its sides are at most 2 n r + 1. Rules that cannot overflow (weights from -1 to 1, bounded growth and time step, windows that the significand can count), with a weight per channel or with two neural layers, never make a NaN: a batch element of numbers from 0 to 1 keeps them, whatever other batch elements hold. The identity kernel is exact; other totals may depend on the order of addition.", "quantifier": "all formats, automata, universes, orders of addition, steps and runs", "why_tests_cant": "Infinitely many inputs; a finite test suite samples only some of them.", "anchors": ["yuca/ca/continuous.py:CCA.forward", "yuca/ca/continuous.py:CCA.update_universe", "yuca/ca/common.py:CA.neighborhood_conv"]}
{"id": "C108", "title": "Floating point: the clock stops", "statement": "The time an automaton records is a float to which dt is added in every step. If dt is strictly between 2^(k-1) and 2^k, the clock of a format with P bits rises in every step until it is exactly 2^(P+k), and after that never changes again, although the universe goes on. With dt = 0.1 in float32 that is 2^21, in float16 2^8. If dt is 2^j the clock is exactly n dt for the first 2^P steps and stands still at 2^(P+j) from then on.", "quantifier": "all formats, time steps and numbers of steps", "why_tests_cant": "Infinitely many inputs; a finite test suite samples only some of them.", "anchors": ["yuca/ca/continuous.py:CCA.forward", "yuca/ca/continuous.py:CCA.reset"]}
{"id": "C109", "title": "Floating point: the Gaussian", "statement": "In float32 the eps of 1e-9 added to the width of a Gaussian makes no difference at all for widths of 1/32 and more; for Orbium's width it does. With a width from 0 to 1 and a positive eps the Gaussian takes every number to a number from -1 to 1, given only that the library's exp gives numbers from 0 to 1 for arguments below zero, and takes NaN to NaN; so automata with Gaussian growth never make a NaN in the sense of C107, in float32 and in float16 on a CPU. In float16 itself eps is 0, and a Gaussian of width 0 makes a NaN at its centre.", "quantifier": "all formats, exponential functions, centres, widths, arguments and automata", "why_tests_cant": "Infinitely many inputs; a finite test suite samples only some of them.", "anchors": ["yuca/activations.py:Gaussian.forward"]}
{"id": "C110", "title": "Floating point: how far a step and a run are from real numbers", "statement": "Take an automaton whose rule cannot overflow (C107), with layers whose absolute weights sum up to at most I, K and A per output, and growth functions of slope L and size M that the library computes with an error of at most alpha. Each time the float automaton steps a universe of numbers from 0 to 1, the automaton over real numbers with the same weights, threshold and time step steps it too, and no cell of the two results differs by more than an explicit bound in these numbers, the sizes of the windows, the time step, the precision and the least step of the format. The bound holds for any order of addition, any number of channels (with the mask of living cells), every format and float16 on a CPU. With fewer than four channels, where the rule multiplies differences by at most q (C98), all runs of the float automaton have a run of the real one beside them, and after n steps they differ by at most the error of one step times 1 + q + ... + q^(n-1). For float32, a 3 x 3 neighbourhood and Orbium's width of growth a step is off by less than 1/20000. The two layers with relu between them that neural automata mix channels with are within an explicit bound of the same layers over real numbers; relu itself makes no error. Steps and runs of automata with these layers are within explicit bounds in the same way.", "quantifier": "all formats, automata, universes, orders of addition, steps and runs meeting the stated conditions", "why_tests_cant": "Infinitely many inputs; a finite test suite samples only some of them.", "anchors": ["yuca/ca/continuous.py:CCA.forward", "yuca/ca/continuous.py:CCA.update_universe", "yuca/ca/common.py:CA.neighborhood_conv"]}
{"id": "C111", "title": "Floating point: accuracy of the Gaussian", "statement": "Divisions give the exact quotient rounded to a nearest float. If the library's exp is off by at most beta below zero, arguments and centre are within 2^A, the width is at least 2^-B and the exponent range has room for these, then the Gaussian growth function computed in floats differs from the Gaussian over real numbers by at most beta + 11 u, and in its mode from -1 to 1 by at most 2 beta + 26 u, where u is the unit roundoff of the format: wherever the argument lies and however narrow the Gaussian is within these limits. So rules with Gaussian growth meet the conditions of C110.", "quantifier": "all formats of at least 11 bits, exponential functions, centres, widths, arguments and rules meeting the stated conditions", "why_tests_cant": "Infinitely many inputs; a finite test suite samples only some of them.", "anchors": ["yuca/activations.py:Gaussian.forward", "yuca/ca/continuous.py:CCA.forward"]}
{"id": "C112", "title": "Floating point: the Gray-Scott step", "statement": "Every universe of two channels with room for the kernels has a step, whatever order sums are added in. From any floats, every cell is NaN or a number from 0 to 1 after a step. A NaN in one channel takes the other channel of its cell with the next step, spreads in its own channel as far as the kernel reaches in every step, and fills both channels of its batch in the end. Rules with the class's identity kernel, and weights, parameters, time step and dx^2 within bounds that leave room in the exponent range keep numbers from 0 to 1 numbers from 0 to 1; U-Skate world's parameters in float32 are such with every kernel of weights up to 2^86 and less than 2^24 - 4 cells. Where a batch has no v, exactly none comes into being: rounding does not seed the reaction. Each time the float automaton steps a universe of numbers from 0 to 1 the one over real numbers with the same parameters steps it too, and no cell differs by more than an explicit bound; with a kernel of 3 x 3 cells and weight 1, U-Skate world in float32 is off by at most 1/400000 per step. Over n steps the errors add up, each multiplied at most by the factor of C98 in every later step.", "quantifier": "all formats, rules, universes, orders of addition, steps and runs meeting the stated conditions", "why_tests_cant": "Infinitely many inputs; a finite test suite samples only some of them.", "anchors": ["yuca/ca/reaction_diffusion.py:RxnDfn.forward", "yuca/ca/reaction_diffusion.py:RxnDfn.update_universe"]}
{"id": "C113", "title": "Floating point: sums without error", "statement": "If the factors of a sum of products are multiples of 2^E1 and 2^E2, and the absolute products add up to at most 2^(P+E1+E2), then a format with P bits that reaches so far adds them up without any error, in whatever order and with or without fused multiply-adds; beyond that weight this fails. So a convolution layer with such weights gives, on such a universe, exactly what it gives over real numbers. With weights of 1/8 around a centre of 0, a universe of zeros and ones has its live neighbours counted exactly in every format of 3 bits or more. In Gray-Scott, with the class's identity kernel, channels filtered separately, parameters that stay finite and weights of that kind that add up to 0, such as the nine-point stencil of get_laplacian_kernel, a batch with u = 1 and v = 0 in every cell stays exactly so in every run.", "quantifier": "all formats, sums, layers, rules, universes, orders of addition and runs meeting the stated conditions", "why_tests_cant": "Infinitely many inputs; a finite test suite samples only some of them.", "anchors": ["yuca/ca/common.py:CA.neighborhood_conv", "yuca/ca/reaction_diffusion.py:RxnDfn.update_universe", "yuca/kernels.py:get_laplacian_kernel"]}
{"id": "C114", "title": "What a seed decides", "statement": "seed_all takes a seed exactly if numpy does, from 0 to 2^32 - 1. A search seeds both generators with its seed once, and with generation times seed for every evaluation, so it raises ValueError exactly if such a product reached in its generations is out of range. Every search with generators is a run in the sense of C50 to C54 for some random inputs. In one process a generation depends on no earlier draw; the first one does not depend on the seed, later ones only on the product; with truncation selection, and environments that do not draw from numpy, the agents drawn after a generation are made from the first normal numbers of the product's stream, so after generation 0 from the same ones for every seed, and for seed 0 from the same ones in every generation. With arms the mantle's generator is not seeded again and draws on from the stream of the seed, so the two kinds of search end differently. With a RandomWrapper the fitness is decided by the clock alone, through at most 1000 seeds.", "quantifier": "all generators, fitness functions, settings, seeds, generations and states", "why_tests_cant": "Infinitely many inputs; a finite test suite samples only some of them.", "anchors": ["yuca/utils.py:seed_all", "yuca/cmaes.py:CMAES.get_fitness", "yuca/cmaes.py:CMAES.mantle", "yuca/cmaes.py:CMAES.sample_distribution", "yuca/wrappers/random_wrapper.py:RandomWrapper.step"]}
{"id": "C115", "title": "What the configurations of a search describe", "statement": "A search writes parameters into the automaton of its environment, logs a configuration of it for every elite and saves one for the best. Watching these calls does not change the search of C50 to C54. There is one logged configuration per logged elite, in order. With a halting environment and an automaton that was not loaded from a configuration, all of them, and the file of the best, have the kernel of the very first elite; only the update functions follow the elites, from the second configuration on. An automaton loaded from a configuration keeps the kernel of that one. With an environment that ignores its action the configurations before the last generation have the parameters of the last initial agent a picture was drawn of; when patterns are evolved all are those of the automaton given. So a logged configuration, and the file of the best, need not describe the agent they stand for. The log holds the recorded elite vectors. The search leaves the automaton with the last agent it drew a picture of; and how often it writes parameters, in up to seven generations, is an explicit product of its settings. It first writes the agents of its first pictures, then in a halting environment each agent of the first generation in order, once per replicate; every vector it writes has the length of the parameters. Without replicates the first evaluation raises ZeroDivisionError. The calls succeed if every vector fits and makes a kernel. Every configuration logged or written by a search that started from a constructed automaton can be loaded; loading the file of the best gives the kernel of the first elite and the update functions of the best.", "quantifier": "all settings, environments, seeds, random inputs, automata and file trees", "why_tests_cant": "Infinitely many inputs; a finite test suite samples only some of them.", "anchors": ["yuca/cmaes.py:CMAES.get_elite_configs", "yuca/cmaes.py:CMAES.rank_population", "yuca/cmaes.py:CMAES.mantle", "yuca/ca/continuous.py:CCA.make_config", "yuca/ca/continuous.py:CCA.set_params"]}
