# Formal model of yuca (Rocq / Coq 8.16.1)

## Layout

* `rocq/theories/` - all Coq files, built with the flags already in `_CoqProject`.
  * `Base.v`, `Tensor.v`, `PyDict.v` - errors, finite sums, python slices, 4-D tensors, padding, convolution, broadcasting, dictionaries.
  * `M*.v` - the model, function by function; every definition cites file and lines.
  * `S*.v` - small independent specifications (toroidal sums, Life, rolls, sorting, files, ...).
  * `P*.v` - proofs.
  * `T*.v` - the theorems of each property (`C<nn>_...`), concrete cases next to them, `Print Assumptions` at the end.
* `properties.jsonl` - the properties; `MANIFEST.json` - which theorems prove which; `seeded/LOG.jsonl` - mutation log.

A theorem whose name ends in `_refuted` shows by a witness that something one might expect does not hold; the
property it belongs to says so in words. No theorem is `_partial`.

## Trusted base

* Coq's kernel (8.16.1), including its virtual machine (`vm_compute`).
* Axioms: only these of the standard library, as `Print Assumptions` at the end of each `T*.v` lists them:
  `ClassicalDedekindReals.sig_forall_dec`, `ClassicalDedekindReals.sig_not_dec`,
  `FunctionalExtensionality.functional_extensionality_dep`, and for the theorems using analysis of the logarithm or
  inverse trigonometric functions `Classical_Prop.classic`.
* The transcription of Python to Gallina, checked by reading only (no dependency of the project is installed, nothing was run).
* What torch, numpy, scipy, MPI, bokeh and the shell do, as written down in the model of each call.

## Modelling decisions

General:

* Numbers: floats are real numbers (`R`). Rounding, overflow and NaN propagation are not modelled, except in
  MFloat and MFloatRd (below) and where stated (half-precision path with an abstract rounding, `np.arange` lengths in binary64,
  per-step rounding errors in the theorems about Life). A division by zero, a negative square root or the mean of nothing is the value
  `Err NonFinite`, never a default number. Conversion to uint8 is the integer part.
* Floats: MFloat takes the step of a CCA once more in IEEE 754 arithmetic, with the operations of the standard library's
  `Coq.Floats.SpecFloat` (definitions, no axioms), of any precision and exponent range, and with the conversions of the
  float16 path. A convolution is any value that adding its products can give, in any order and bracketing, with fused or
  separate steps. So kernels that do not add products (Winograd, FFT), reduced-precision modes (TF32), flushing of
  subnormals and kernels with an even side are outside the model. Growth functions are relations, so `exp` need not be
  rounded correctly or be the same for every cell. MFloatRd takes the
  Gray-Scott step in floats likewise, with weights, parameters, dx and dt in the format of the universe (the class makes
  them float32, so this is the case of a float32 universe; with others torch promotes) and dx**2 as dx times dx.
  Constructors, configurations and training are not taken in floats.
* Exceptions are values: `res A = Ok a | Err e` with the Python exception class in `e`. A failed call leaves no state, except
  where the partial state matters: the demonstration server, the analysis of a directory and test_commit keep it.
  `Err Unmodelled` marks paths outside the model; no theorem gives a success there.
* Tensors: record of four dimensions and a flat row-major data list (as torch stores them). Views that share memory are copies.
* Convolution is modelled as torch does it: pad, then valid cross-correlation with groups.
* Randomness (numpy/torch generators), fitness functions, listings of directories, optimisers and training are
  arguments of the model functions (oracles); theorems quantify over them.
* Python dictionaries are association lists; config sub-dictionaries that the code shares by reference live in an
  explicit heap (MConfig). Keyword dictionaries of constructors are passed by value.
* Loops are structural recursion or fuel with an explicit out-of-fuel error that theorems exclude (or prove for all fuel).
* Wall times, printed messages and argparse are left out.
* Devices: only in MDevice, where tensors are nothing but their place. Assumed of torch: operands of one operation share a device, except CPU tensors without dimension; convolutions and torch.cat make no exception; nn.Module.to moves registered parameters in place. The operations of a growth function are taken at once. Half precision, CODE and channel counts are left out there.

Particular files:

* File system: a finite map from paths to contents; directories are entries. Librarian names contain no slash.
* CMAES: agents are their parameter vectors; the quotient int(P/(W-1)) is integer division. MPI is channels with
  a capacity and rendezvous (MMpi); mpirun starts local processes that get the environment handed to it (MFork).
* Random numbers of a search: MEvo takes them as given, by time; MSeed threads the states of both generators through it, where the
  environment carries nothing else from one evaluation to the next and pictures are any function of the generators.
* Configurations of a search: MElite, for CCAs in functional mode and one process; of an environment step only the write into the automaton is kept, and of a log only the elite vectors.
* Wrappers take the automaton (MWrap), and the halting wrapper the optimiser step and the dropout masks (MHalt), as arguments.
* Step predictor: Adam is an oracle; in MPredict the global `model` that `fit` uses is the object it is called on, in MPredObj it is a name;
  the tag is one path component; losses are printed by an oracle; loading an empty training set is left out.
* Clone: training is abstract, int(1.25 h) is 5 h / 4, the directory of the logs exists.
* Neural automata: configurations by value, numeric settings parsed up front, drawn weights of the right shape.
* CCA modes: MConfig is functional mode, MModes every mode (related by C101); the weights drawn in other modes are oracles.
* Recorded runs: MUtils has the loop of save_fig_sequence over the frames alone, MFilm with paths and pictures. Paths are lists of names below the working directory, without slashes or characters special to the shell; a GIF is the list of pictures handed to Pillow (which may merge equal ones); values whose bytes would wrap around are not modelled.
* Gradient flags: functional mode, values of parameters left out, configuration files resolved to trees.
* Demonstration server: automaton as an argument (its module is not part of this commit); widgets, picture and step message left out.
* Notebook helpers: arrays as functions; kernels no larger than the array; alpha not 0.
* Directory analysis: paths as strings; which files and directories exist as oracles.
* test_commit: the shell is blanks, single quotes and plain characters; an unterminated quote is an error.

## Modelled and not modelled

Modelled: all of `yuca/ca`, `activations`, `kernels`, `configs`, `code`, `lenia`, `metaca`, `random_step_ca`, `cppn`,
`params_agent`, `cmaes`, `evolve`, `clone`, `step_predictor`, `wrappers`, `zoo/librarian`, `analyze`, `utils`
(except as listed below); `get_glider` and `get_puffer` of `patterns`; `gecco_bokeh_app/main.py` (event handlers);
`notebooks/my_helpers.py` (dynamics); `test_commit.py`.

Not modelled: `plot.py` and the plotting functions of `utils`, `my_helpers` and the notebooks; widgets of the server;
`Phanes.autocorrelate_old` (starts a debugger); CPPN and agent methods that only move tensors; the
literal arrays in `patterns` (pacman, geminium, orbium, smooth puffer) and the patterns read from files;
`bokeh_server_extension.py`, `setup.py`, the tests.

## Properties

| Id | Model / theorems | Proof method |
|----|------------------|--------------|
| C01 | MCommon, MCca, MRd, MNca / TDyn | clamp range, induction over steps |
| C02 | shape checks in conv, broadcast, genesis / TDyn | case analysis, witness |
| C03 | id layer: padding and grouped convolution / TDyn | sums with a single non-zero term |
| C04 | neighbourhood layer / TDyn | index arithmetic against a Z.modulo specification (SGrid) |
| C05, C06 | whole step / TDyn | reindexing of sums, equivariance lemmas (PEqv), induction |
| C07 | whole step, CODE / TDyn | index-wise equality; witness for CODE |
| C08, C09 | update_universe, weight layer / TDyn | algebra |
| C10 | step on the zero grid / TDyn | sign analysis, ln and exp |
| C11-C14 | forward, get_frame, t_count, f16 path / TDyn | case analysis, induction over call lists |
| C15-C18 | MActivations / TKern | real analysis |
| C19-C23 | MKernels / TKern | sums, lattice symmetry |
| C24-C26 | get/set params / TConfig | list segmentation |
| C27-C33 | configuration heap machine, fuelled restore (MConfig) / TConfig | invariants, witnesses, divergence for all fuel |
| C34, C35 | MConfigs, MCca / TLife | Life on booleans (SLife), error propagation, induction over time, glider by computation |
| C36-C38 | MRd / TRd | field algebra, sums |
| C39-C41 | CODE, RandomStepCA, MetaCA (MCca) / TDyn | geometric loop bound, induction |
| C42 | MNca / TNca | tanh range |
| C43-C45 | file system map, strings (MLibrarian) / TLibrarian | pigeonhole, string lemmas |
| C46, C47 | MUtils / TUtils | decimal padding order; SpecFloat computation |
| C48-C55 | MEvo, MMpi / TEvo, TMpi | list partition, transition system invariants, sorting, quadratic forms, witnesses |
| C56-C59 | MWrap / TWrap | bounds, induction |
| C60-C62 | MAnalyze / TAnalyze | index arithmetic, concavity of log, counting |
| C63 | MCppn / TCppn | range, arithmetic on powers of two |
| C64 | MDispatch / TDispatch | case analysis |
| C65 | MConfig / TConfig | invariant over all histories of calls |
| C66 | MConfigs / TLife | execution of the loader on symbolic configurations |
| C67 | MLibrarian / TLibrarian | python slices |
| C68, C69 | MUtils, MText / TUtils | list lemmas, file map |
| C70 | MEvo, MCoevo / TEvo | sums |
| C71-C73 | MAnalyze / TAnalyze | case analysis, Cauchy-Schwarz |
| C74-C77 | MPredict / TPredict | range of the network, induction over epochs and batches, file map |
| C78-C80 | MClone / TClone | induction over attempts, file map |
| C81 | MActivations / TDefaults | case analysis over dictionaries |
| C82, C83 | MCca, MConfig / TDefaults | execution of the constructor on symbolic arguments |
| C84, C85 | MNcaConf / TNcaConf | round trip, fuelled restore |
| C86 | all of the above / TErrors | case analysis |
| C87, C88 | MApp / TApp | invariant over all histories of events |
| C89 | MGrad / TGrad | simulation of the configuration machine by one of flags, invariants |
| C90 | MHalt / THalt | shape calculus, range of the logistic function |
| C91 | MWrapNew / TWrapNew | the configuration machine run twice; witness |
| C92 | MNote / TNote | sums over kernels, contraction of the error, witness |
| C93 | MMulti / TMulti | induction over the listing, file map, witnesses |
| C94 | MFork / TFork | finite process tree, refinement to MMpi |
| C95 | MTool / TTool | small shell lexer, induction over strings |
| C96 | MMeta / TMeta | index-wise equality |
| C97 | MPatterns / TPuffer | two patterns far apart do not interact; induction over rounds; one round by computation |
| C98 | MCca, MRd, MNca / TLip | slope and bound of every growth function; every layer takes in at most the sum of its weights; induction over steps |
| C99 | MCca, MRd, MNca / TFlow | Euler steps over a field with a slope: doubling the number of steps gives a Cauchy sequence of grids; limit cell by cell by completeness of R; bridge from each kind of automaton to such a field |
| C100 | MActivations, MKernels, MConfig, MRd, MUtils / TTests | bounds on exp and sqrt 2; which grids a fresh object accepts; monotone sums; witnesses for the assertions that depend on the draw |
| C101 | MModes, MConfig, MCca / TModes | simulation of the general constructor and loader by the functional ones; invariant over call sequences; sign of the two layers; monotone bounded runs |
| C102 | MFilm, MUtils / TFilm, TGif | invariant of the loop over the file tree; sorted listing of the frames; frame conditions for every outcome; cell-by-cell bytes |
| C103 | MDevice / TDevice | exact condition of a step; a summary of any history kept as an invariant; induction over nested configurations |
| C104 | SFade / TFade | comparison of neighbourhoods along runs; a maximum principle for diffusion; geometric decay |
| C105 | SPredObj / TPredObj | objects, modes and the global name as a world; simulation of fit by fit on the named object |
| C106 | SPredObj / TPredObj | predictions commute with picking rows; permutations; induction over the runs of the script |
| C107 | MFloat / SFloatN / TFloat, TFloatN | rounding of SpecFloat proved to be to nearest; induction over totals; invariants of runs |
| C108 | MFloat / PFloatC / TFloat | spacing of floats around the clock; progress by at least one least step; ties to even for powers of two |
| C109 | MFloat / TFloat | spacing; signs of quotients and squares; uniqueness of the float of a value |
| C110 | MFloat / SRound / TRound, SFloatN, PFloatN, PFloatM, TFloatN | error terms of sums of products and of stored results; error of a step cell by cell; induction over runs with C98 |
| C111 | MFloat / SRound / TRound | correct rounding of division (sticky remainder); relative errors through square, quotient and exponential |
| C112 | MFloatRd / SFloatRd / TFloatRd | division by dx^2 that stays finite; exact zeros of v through sums and products; rounding errors through the rates |
| C113 | SExact / PExact / TExact | multiples of a power of two with small sums are representable, so no rounding happens; exact counts and the exact background of Gray-Scott |
| C114 | MSeed / SSeed / PSeed, PSeedX / TSeed | generators threaded through the search; simulation of MEvo by splicing random inputs, induction over generations and seeds; witness for arms |
| C115 | MElite / SElite / PElite, PEliteW-Z / TElite | search split into calls and their execution; erasing the calls gives MEvo; invariant of the automaton over any call sequence; witness |
