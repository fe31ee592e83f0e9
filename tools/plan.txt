C01 `Outfile.v`: strings as `string`, rfind/substr modelled; theorem by induction on the path.
C02 `Outfile.v`/`Opt.v`: decimal printing of the stage index is injective, hence names differ.
C03 `Options.v`: case analysis over an arbitrary string.
C04 `Options.v`: dispatch function over argc and an optional option string; README option `scan` is a refutation.
C05 `Toml.v`: table = association list; the reader is a fold over the program's key list; induction over keys.
C06 `Toml.v` (lists, padding) and `Axis.v` (reals, Fourier sums unchanged by zero padding).
C07 `Alloc.v`: parity lemma and array-size record.
C08 `Tensor.v`: flat index arithmetic on nat, read/write lemmas on lists with explicit bounds checking.
C09 `Tensor.v`: the true operator= ; refutation with shapes 1x1 <- 2x3; true variant when shapes agree.
C10 `Diff.v`: construction loop by loop over R; exactness via finite trigonometric sums, induction on the degree.
C11 `Diff.v`: entrywise closed form, antisymmetry, circulance, bounds.
C12 `Newton.v`: generic number type with boolean comparison, residual function as a parameter; loop invariant.
C13 `Newton.v`: invariant under a total order; with NaN the statement is refuted.
C14 `Newton.v`: true on CONVERGED/MAX_ITERATIONS, refuted on LINESEARCH_FAILED.
C15 `Newton.v`: instrumented trace of calls; counting by induction.
C16 `R1.v`: residual and Jacobian over R; exact second-order Taylor identity, and `is_derive`.
C17 `R1.v`+`Newton.v`: object state updated by the residual callback; refuted on line-search failure.
C18 `Helicity.v`: telescoping of quadrant differences; winding number defined independently via unwrapped quadrant lift.
C19 `Helicity.v`: list reversal, rotation, stuttering.
C20 `RandomGen.v`: reals, exp/ln monotonicity.
C21 `RandomGen.v`: state machine with abstract step.
C22 `RandomGen.v`: constructor decision table; swap refuted, range symmetric proved.
C23 `Scan.v`: one-process loop as a function of a list of attempts and clock readings; invariant; merged by sum.
C24 `Scan.v`: spec_float comparisons; true for non-NaN diagnostics, refuted with NaN.
C25 `Scan.v`: bounded writes; refuted for max_keep_per_proc = 0.
C26 `Scan.v`: invariant.
C27 `ScanDet.v`: generator streams composed with the scan loop.
C28 `Collect.v`: MPI processes as programs, FIFO channels, nondeterministic scheduler; invariant over reachable states.
C29 `Scan.v`/`Collect.v`: collective-operation matching; refuted by a two-process clock history; proved when save_period is never exceeded.
C30 `R1.v`: real inequality L_grad_B <= 1/kappa.
C31 `Axis.v`/`Scan.v`: R0 at phi=0 and phi=pi/nfp equals the crude sums.
C32 `Grid.v`: mixed radix decode; bijection by induction on dimensions.
C33 `Grid.v`: reals.
C34 `Farm.v`: transition system master/workers/channels; inductive invariant.
C35 `Farm.v`: buffered sends: progress + decreasing measure; synchronous sends: refutation by a reachable stuck state.
C36 `Farm.v`: final columns = map eval.
C37 `Farm.v`+`MScan.v`: invariant linking received set, KEPT counter and flags.
C38 `MScan.v`: pack then unpack is the identity per named quantity.
C39 `MScan.v`: non-exclusive filters; counting inequalities.
C40 `MScan.v`: record update per parameter name, frame conditions; findings for short arrays.
C41 `Opt.v`: lists with masks; round trip by induction.
C42 `Opt.v`: blocks with lengths; writes cover 0..n_terms-1 exactly.
C43 `Opt.v`: reals, sum of squares.
C44 `Opt.v`: GSL driver as arbitrary callback count within its contract.
C45 `Opt.v`: mask evolution by induction on the refinement step.
C46 `Opt.v`: checks precede evaluations.
C47 `Opt.v`: fold over stages with arbitrary optimiser.
C48 `Toml.v`: uninitialised variable is UB; refuted.
C49 `R1.v`: reals.
C50 `Axis.v`: reals; algebraic identities with derivatives via Coquelicot.
C51 `Axis.v`: sums over the grid.
C52 `R2.v`: weighted means.
C53 `R2.v`: row-by-row assembly versus equations.
C54 `R2.v`: sign of squared sums.
C55 `RSing.v`: arbitrary roots as input, exact arithmetic with explicit NaN branches.
C56 `RSing.v`: elimination identity; refuted in degenerate cases; proved under non-degeneracy.
C57 `RSing.v`: companion matrix eigen-equation over C.
C58 `R1.v`: algebra.
C59 `NetCDF.v`: row-major with reversed dimensions = column-major.
C60 `NetCDF.v`: writer and reader as lists of (name, field); lookup theorem.
C61 `NetCDF.v`: table of labels; `iter_curvature_term` refuted.
C62 `Scan.v`: the loop as a function of clock readings; it ends as soon as a limit is reached.
C63 `Newton.v`: log of the calls of the residual; the k-th trial point is state - step/2^k.
C64 `Opt.v`: invariant over the calls of the minimizer; refuted if its first iteration fails.
C65 `Opt.v`: the first report is made from the initial state vector.
C66 `Opt.v`: every array access of the optimization is in bounds (no UB outcome), induction over stages and refinements.
C67 `Opt.v`: loop bound of the history.
C68 `Opt.v`: sizes of all history arrays after the run.
C69 `Axis.v`: mode numbers n*nfp up to the cube in an `int`; UB exactly when they overflow.
C70 `Axis.v`: extrema and weighted means over the grid.
C71 `Axis.v`+`Diff.v`: the Boozer differentiation matrix is the chain rule.
C72 `R2.v`, `Jet.v`: the position vector as a polynomial in r and a trigonometric polynomial in theta; jets give |B|.
C73 `R2.v`, `Jet.v`: the flux through the cross-section by the jet of the Jacobian.
C74 `R2.v`, `Jet.v`: J x B = grad p order by order from the assembled rows and the linear solve.
C75 `RSing.v`: triple product of the derivatives of the position, coefficient by coefficient.
C76 `NetCDFOut.v`: the writer as a list of puts; independent list of variables in `NetCDFNames.v`.
C77 `NetCDF.v`: `get_string` passes a buffer without terminator to `std::string`; refutation.
C78 `GradGradB.v`: the field along a displaced point to second order equals B + grad B + half grad grad B.
C79 `GradGradB.v`: tangential slice equals derivative of grad B with the Frenet connection.
C80 `GradGradB.v`: the two sets of 27 formulas agree under the second-order equations.
C81 `GradGradB.v`: definition of the scale length by the norm of the tensor, minimum over the grid.
C82 `R2.v`, `R3Spec.v`: jets of the two forms of the field with the third-order terms; the constant part of the coefficient of r^3 is proportional to the difference from the reported multiple.
C83 `R3Spec.v`, `Order.v`: from C72, C74 and C82 by G + iota I times the Jacobian = (covariant field) . (field line); the factor is cancelled.
C84 `R2.v`: maxima of lists of arrays.
C85 `Run.v`: the members as maps from names; a relation on pairs of objects with equal inputs that every step of calculate() preserves for the members assigned so far; the writer reads only those.
C86 `Run.v`: as C85, from arbitrary contents of memory before the constructor.
C87 `Run.v`: an outcome logic (`fine`) for every step, from the shapes that allocate() establishes.
C88 `Run.v`, `NetCDFOut.v`: the contents of the file (C76) and the members that calculate() keeps.
C89 `Run.v`, `RunView.v`: the file as a function of the results of the stages.
C90 `Run.v`: the constructor by name and the input file lead to objects with equal inputs; then as C85.
C91 `RunView.v`, `RunShown.v`: the file as a function of the results of the stages; then C16, C49 and C17 for these results.
C92 As C91, with C50, C51 and C70.
C93 As C91, with C72 and C73; the surfaces are rebuilt from the arrays of the file.
C94 As C91, with C52 to C54, C81, C82 and C84.
C95 As C91, with C55 to C57 and C75.
C96 The view of an output file (RunView) is extended by the tensors of rank 3 and 4 and read in RunShown (shown_grad_B, shown_grad_grad_B, shown_displacement); C58, C78, C79 and C81 are transferred to the values in the file.
C97 The view also gives d2_l_d_phi2, d_d_phi and the arrays that are never assigned; the derivatives are those of the Fourier series of AxisFacts, the matrices those of C10 and C71.
C98 NewtonLast: an invariant of the two loops of newton_solve, that the residual array and the data of the callbacks come from the same evaluation, and what each status says about it; transferred to the file with RunView.
C99 OptQsc instantiates the routines of Opt.v with the calculation of Run.v and shows that they meet what C41-C47 assume of them (with the set of objects that calculate can be called for as invariant); RunFacts (results forget the history) and C85 then give the comparison with single runs, NetCDFFacts and optimization_file_partial what is in the file.
C100 multiopt_chain (C47) reduces each stage to a single optimization with the routines of OptQsc, to which C99 applies; OptMulti (stages_throw) says which stage an exception comes from.
C101 ScanQsc instantiates the physics of the scan with the phases of Run; attempt_ends shows by following the filters that an attempt is a prefix of calculate() and that a kept one is all of it; run_between (ScanFacts) carries the invariant `prepared object, fixed inputs` from attempt to attempt; RunInput turns a successful calculate() into a plain run.
C102 ScanFile says which members of the scan object hold the merged results; parallel_scan_complete (C28) gives the merged results of every collection, kept_is_run (C101) says that each kept configuration is a run, and scan_file (C59) gives the file; reading the variables back by name joins them.
C103 Instantiate the optimization in the model of the parameter scan (MScan.v) with the multi-stage optimizer and the calculation of Run.v; combine the description of the output (C36-C38) with C100 and with the file of a run.
C104 MScanFile.v: the members of the object of class MultiOptScan from which write_netcdf() writes (multiopt_scan_write_netcdf.cpp), with the writer of NetCDFOut.v. Properties_MScanFile.v: the file describes the results at the points of the grid (from C36-C38 and the theorems on the NetCDF file), and, with C103, each entry is what a single run writes.
C105 ScanDraw.v: whole_scan, which constructs the generators (ScanDet.v) and runs the loop with the calculation (ScanQsc.v). Proof: an invariant on the generators (each is reachable from its constructor), C20 for each draw, and an induction over the loop for the log of attempts; then C101 for the saved configurations.
C106 ScanInput.v: Scan::defaults, Scan::input with the padding of the limits, and Scan::run up to the communication. Proof: the reading satisfies the section specification (C05, C06); the variables keep their types, so the object meets the hypotheses of C102, C105 and C24; these are combined for each entry of the output file.
C107 OptInput.v: Opt::defaults, Opt::input and Opt::run. Proof: the reading satisfies the section specification (C05, C06, C46), so the object meets the hypotheses of C99 and of the theorems about the history and the refinement (C41-C47); these are combined.
C108 MultiInput.v: MultiOpt::input and MultiOpt::run up to the writing of the files. Proof: the objects read for the stages meet the hypotheses of C47 and C100; the evaluations of each stage are related to its start (C41-C46), and the start to the end of the stage before; the sizes of the lists of varied modes follow by induction on the stages.
C109 The defaults are listed by key in a specification separate from the stores of the model. Proof: a key that is absent leaves the variable as the constructor set it (C05, C46, C106), and the lists are compared with the stores key by key.
