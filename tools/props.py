import json
P=[]
def p(title,statement,quant,why,anchors):
    P.append(dict(id="C%02d"%(len(P)+1),title=title,statement=statement,quantifier=quant,why_tests_cant=why,anchors=anchors))
# --- command line, files, options
p("Output file name","Running any job on input path D/qsc_in.X writes D/qsc_out.X.nc; a path whose last component does not begin with 'qsc_in.' is rejected with an error; the directory part is preserved, two different inputs never map to the same output, and the output is never the input file itself.",
 "every input path string","the set of path strings is infinite; tests try a handful",["src/outfile.cpp: qsc::outfile","src/qsc.cpp: Qsc::run"])
p("Per-stage file names of a multi-stage optimisation","The files written for the stages of one MultiOpt job are pairwise different and different from the name a single job would use.",
 "every input path and every number of stages","unbounded number of stages and paths",["src/multiopt.cpp: MultiOpt::run"])
p("order_r_option validation","order_r_option accepts exactly the strings r1, r2 and r2.1, sets the order flags to the documented combination, and rejects anything else.",
 "every string","infinite set of strings",["src/validate.cpp: Qsc::validate"])
p("Command dispatch","The driver exits with status 1 on a wrong argument count, selects exactly one job kind from general_option (default: single), rejects any unknown option, and accepts every option value the README documents.",
 "every argument count and option string","infinite set of option strings",["src/driver.cpp: qsc::driver","README.md"])
p("Unknown input keys are rejected","Reading an input section succeeds only if every key in the section is one the program reads; any misspelt key is an error, and a key that is absent leaves the documented default untouched.",
 "every table of keys and values","arbitrary tables of keys",["src/toml_util.cpp: toml_read, toml_unused","src/qsc_input.cpp","src/scan_input.cpp","src/opt_input.cpp"])
p("Axis coefficient arrays are padded harmlessly","After reading the input the four axis Fourier arrays have the same length (the maximum of the given lengths), given coefficients are kept, added ones are zero, and the axis curve they describe (R, Z and their derivatives at every angle) is unchanged by the padding.",
 "all array lengths and coefficient values, all angles","all lengths and all real coefficients",["src/qsc_input.cpp: Qsc::input","src/toml_util.cpp: pad_vector","src/init_axis.cpp: Qsc::init_axis"])
p("Grid size is odd and arrays fit","After allocate() the number of grid points is odd, is the requested number or one more, and every per-grid-point array and matrix has exactly matching dimensions.",
 "every requested nphi and order of expansion","all grid sizes",["src/allocate.cpp: Qsc::allocate"])
# --- vector/matrix
p("Matrix and tensor storage","For in-range indices, Matrix, Rank3Tensor and Rank4Tensor elements occupy distinct in-range storage cells covering the whole buffer; reading returns the last value written to that element; set_row changes exactly that row.",
 "all dimensions, indices, values and write histories","all dimensions and histories",["src/vector_matrix.hpp: Matrix::operator(), Rank3Tensor, Rank4Tensor","src/vector_matrix.cpp: set_row, resize"])
p("Matrix assignment keeps a matrix usable","After A = B, A has B's number of rows and columns and A(i,j) = B(i,j) for all in-range (i,j).",
 "all matrix shapes","all pairs of shapes",["src/vector_matrix.hpp: Matrix::operator="])
p("Spectral differentiation is exact","The differentiation matrix applied to grid samples of any trigonometric polynomial of degree below N/2 (in the period xmax-xmin) gives exactly the samples of its derivative, in exact arithmetic.",
 "every N, interval, degree < N/2 and coefficients","all N and all polynomials",["src/differentiation_matrix.cpp: differentiation_matrix"])
p("Differentiation matrix structure","The differentiation matrix is antisymmetric, circulant, kills constants, and its accesses to its work arrays are in bounds.",
 "every N >= 1 and interval","all N",["src/differentiation_matrix.cpp: differentiation_matrix"])
# --- newton
p("Newton convergence report is truthful","If newton_solve returns CONVERGED then the returned residual is the residual function at the returned state and its squared norm is below tolerance squared; MAX_ITERATIONS is returned only when that is not so.",
 "every residual and Jacobian function, linear solver, initial state, limits and tolerance","all functions and states",["src/newton.cpp: newton_solve"])
p("Newton never makes things worse","The squared residual norm at the state newton_solve returns is not larger than at the initial guess, whatever the exit status.",
 "every residual function, state, limits","all functions and states",["src/newton.cpp: newton_solve"])
p("Newton output is consistent on line search failure","On every exit the residual array handed back is the residual at the state handed back.",
 "every residual function, state, limits","rare failing histories",["src/newton.cpp: newton_solve"])
p("Newton cost and call discipline","newton_solve makes at most 1 + max_newton*max_linesearch residual evaluations and max_newton Jacobian evaluations, and every Jacobian evaluation immediately follows a residual evaluation at the same state.",
 "every residual function, state, limits","all histories",["src/newton.cpp: newton_solve","src/calculate_r1.cpp: sigma_eq_jacobian comment"])
# --- sigma
p("Sigma Jacobian is the derivative of the sigma residual","The matrix filled for the Newton solve is exactly the derivative of the discretised sigma equation with respect to the unknown vector.",
 "all states, axis shapes, parameters, grid sizes","continuum of states",["src/calculate_r1.cpp: sigma_eq_residual, sigma_eq_jacobian"])
p("Reported iota and sigma solve the sigma equation","After solve_sigma_equation the object's iota and sigma are those of the state Newton returned; when Newton reports convergence they satisfy the discretised equation to the tolerance and sigma at phi=0 is sigma0.",
 "all axis shapes and parameters, all Newton exits","all exits incl. rare failures",["src/calculate_r1.cpp: solve_sigma_equation"])
# --- helicity
p("Helicity is well defined","calculate_helicity never raises its 'not a multiple of 4' error, and the helicity equals the signed number of turns of the normal vector's quadrant sequence times sG*spsi.",
 "every sequence of normal vectors (any grid size, incl. NaN entries) and signs","all sequences",["src/helicity.cpp: calculate_helicity"])
p("Helicity symmetries","Reversing the direction of the axis data or the sign product negates the helicity; starting the grid at another point leaves it unchanged; repeated points do not matter.",
 "every normal vector sequence","all sequences",["src/helicity.cpp: calculate_helicity"])
# --- random
p("Random samples stay in range","Random::get returns a value in [min,max] for linear and log, with magnitude in that range and both signs for 2-sided log; all-zero limits return 0.",
 "all limits accepted by the constructor and all generator outputs in [0,1]","continuum",["src/random.cpp: Random::Random, Random::get"])
p("Deterministic sequence positions","For deterministic generators set_to_nth(n) leaves the generator exactly where n successive get() calls from a fresh generator leave it, whatever happened before.",
 "every n and history","all n and histories",["src/random.cpp: Random::set_to_nth"])
p("Sign/limit policy of Random","Construction fails exactly for the documented bad limits; swapping min and max never has any effect on the samples.",
 "all limits and options","continuum of limits",["src/random.cpp: Random::Random comment lines 9-17"])
# --- scan
p("Scan counters balance","In every process and in the merged output, attempts = kept + sum of all rejection counters, at every checkpoint and at the end.",
 "every sequence of sampled configurations, filter settings, clock readings and process counts","all histories and schedules",["src/scan_random.cpp: Scan::random","src/scan_collect_results.cpp"])
p("Kept configurations pass every filter","Unless keep_all is set, every configuration saved by a scan satisfies each *_to_keep criterion.",
 "all sampled configurations incl. non-finite diagnostics","NaN-producing configurations are rare",["src/scan_random.cpp: Scan::random"])
p("Scan storage bounds","A scan process never stores more than max_keep_per_proc configurations and never writes outside its buffers.",
 "all histories and limits","all histories",["src/scan_random.cpp: Scan::random"])
p("Scan solve counters","n_sigma_eq_solves and n_r2_solves count the configurations that passed the earlier filters; kept <= n_r2_solves <= n_sigma_eq_solves <= attempts at order r2.",
 "all histories","all histories",["src/scan_random.cpp: Scan::random"])
p("Deterministic scans do not depend on the number of processes","With deterministic=true and a per-process attempt limit, P processes with limit M examine together exactly the configurations one process examines with limit P*M, in rank order.",
 "all P, M, limits and distributions","all process counts",["src/scan_random.cpp: Scan::random lines 31-64"])
p("Gathered scan results are complete","Whatever order messages travel in, process 0's merged arrays are the concatenation in rank order of every process's kept configurations, with all columns of a configuration kept together and counters summed.",
 "all process counts, kept counts and message schedules","all MPI schedules",["src/scan_collect_results.cpp: collect_results"])
p("Scan checkpoints cannot hang the job","A scan with several processes always terminates, also when intermediate saves are enabled.",
 "all clock readings on all processes","timing-dependent schedules",["src/scan_random.cpp lines 85-97","src/scan_collect_results.cpp: MPI_Barrier"])
p("The curvature pre-filter is sound","A configuration rejected by the cheap curvature filter would also have been rejected by the min_L_grad_B filter.",
 "all configurations","continuum",["src/scan_random.cpp line 162","src/grad_B_tensor.cpp: calculate_grad_B_tensor"])
p("The crude R0 pre-filter is sound","A configuration rejected by the crude R0 check has R0 <= 0 at some toroidal angle.",
 "all axis coefficients","continuum",["src/scan_random.cpp lines 120-142"])
# --- multiopt scan
p("Scan grid enumeration","Every combination of grid values is visited by exactly one scan index and each index 0..n-1 corresponds to exactly one combination.",
 "all numbers of dimensions and grid sizes","all sizes",["src/multiopt_scan.cpp: eval_scan_index, init"])
p("Scan grid values","Each scanned parameter's grid starts at its min, ends at its max, and is monotone, for linear and logarithmic spacing.",
 "all limits and sizes >= 2","continuum",["src/multiopt_scan.cpp: init"])
p("Every scan point evaluated exactly once","Under every message schedule, each index is handed to exactly one worker, evaluated once, and its result stored once in its own column; at the end every worker has been told to stop.",
 "all process counts, scan sizes and schedules","all MPI schedules",["src/multiopt_scan.cpp: scan, proc0_recv"])
p("Parameter scan terminates","Under every message schedule the master/worker exchange terminates without deadlock.",
 "all process counts, scan sizes, schedules and MPI send modes","all MPI schedules",["src/multiopt_scan.cpp: scan"])
p("Scan output independent of schedule","The merged output of a parameter scan is a function of the input only: it does not depend on the number of workers or message order.",
 "all process counts and schedules","all MPI schedules",["src/multiopt_scan.cpp: scan, proc0_recv, filter_global_arrays"])
p("Intermediate saves are consistent","At any time during a parameter scan the saved arrays contain exactly the kept configurations among the results received so far; the internal count check never fires.",
 "all schedules and prefixes","all prefixes of all schedules",["src/multiopt_scan.cpp: proc0_recv, filter_global_arrays"])
p("No column mix-ups in a parameter scan","Each saved quantity (scan_iota, scan_weight_B20, scan_R0c, ...) of a kept configuration is the value that quantity had when the configuration was evaluated.",
 "all configurations","58+8*n columns, all values",["src/multiopt_scan.cpp: eval_scan_index lines 538-619, filter_global_arrays lines 777-857"])
p("Parameter scan counters","In a parameter scan attempts equals the number of evaluated points, kept + rejections >= attempts, and each rejection counter <= attempts - kept.",
 "all configurations and schedules","all histories",["src/multiopt_scan.cpp: eval_scan_index, proc0_recv"])
p("Scanned parameters are applied to the right stage","Evaluating a scan index changes exactly the scanned parameters of exactly the requested stages (all stages for stage -1), with the grid value of that index; other inputs keep their reference value.",
 "all parameter lists, stages, indices","all parameter lists",["src/multiopt_scan.cpp: eval_scan_index"])
# --- opt
p("Optimisation state vector round trip","Packing the free parameters into the state vector and unpacking it restores exactly the same configuration, and unpacking any vector changes only parameters marked as varied, each by its own entry.",
 "all choices of free parameters and values","all subsets and values",["src/optimize.cpp: init_parameters, set_state_vector, unpack_state_vector"])
p("Residual vector is filled exactly","set_residuals writes every one of the n_terms entries exactly once and no other entry, for every choice of weights.",
 "all weights and grid sizes","all weight combinations",["src/optimize.cpp: init_residuals, set_residuals"])
p("Objective equals half the sum of squared residuals","The reported objective function equals half the squared norm of the residual vector given to the optimiser, and is the sum of the reported terms of non-zero weight.",
 "all weights and configurations","continuum",["src/optimize.cpp: set_residuals"])
p("Iteration history never overflows","The optimisation records at most max_iter iterations over all Fourier refinements, and every record is stored in bounds.",
 "all max_iter, refinements and optimiser behaviours within GSL's contract","all histories",["src/optimize.cpp: optimize, gsl_callback"])
p("Fourier refinement schedule","At refinement step k exactly the k lowest added modes of R0c and Z0s are varied, added R0s/Z0c modes never are, added coefficients start at zero, and user-specified choices for original modes are untouched.",
 "all lengths and refinement counts","all sizes",["src/optimize.cpp: optimize"])
p("Optimisation input validation","A job whose vary_* arrays or nphi array have the wrong length is rejected before any evaluation.",
 "all array lengths","all lengths",["src/optimize.cpp: optimize","src/opt_input.cpp"])
p("Multi-stage optimisation chaining","Stage j+1 starts from the configuration at which stage j ended, stages run in order, and the total evaluation count is the sum over stages.",
 "all stage counts and optimiser behaviours","all stage counts",["src/multiopt.cpp: MultiOpt::optimize"])
p("Missing nopts is an error","A multiopt input without nopts (or with nopts < 1) is rejected.",
 "all inputs","uninitialised memory is invisible to tests",["src/multiopt.cpp: MultiOpt::input"])
# --- physics in exact arithmetic
p("First order shape","X1c*Y1s = sG*spsi at every grid point, elongation >= 1, and elongation is the ratio of the axes of the first-order ellipse.",
 "all axis shapes with non-zero curvature, all sigma","continuum",["src/calculate_r1.cpp: r1_diagnostics"])
p("Frenet frame","The tangent, normal and binormal computed for the axis are orthonormal and right handed, curvature is non-negative and d(tangent)/dl = curvature*normal.",
 "all axis Fourier coefficients and angles with non-degenerate curve","continuum",["src/init_axis.cpp: init_axis"])
p("Arclength and Boozer angle","|G0|/B0 is the mean of dl/dphi, axis_length is the length sum, and the Boozer angle starts at 0, increases and closes up to 2*pi/nfp over one field period.",
 "all axis shapes and grid sizes","continuum",["src/init_axis.cpp: init_axis"])
p("Field-strength statistics","The arclength-weighted mean of B20_anomaly vanishes, B20_residual >= 0 and vanishes only for constant B20, and grid minima/maxima bound every grid value.",
 "all configurations","continuum",["src/calculate_r2.cpp"])
p("Second-order solve","Any solution of the assembled 2*nphi linear system satisfies the two continuous second-order equations at every grid point, with the back-substituted Y2s, Y2c satisfying their defining relations.",
 "all configurations and grid sizes","continuum",["src/calculate_r2.cpp: calculate_r2"])
p("Mercier criterion","DMerc = DWell + DGeod and DGeod <= 0 for every configuration.",
 "all configurations","continuum",["src/mercier.cpp: mercier"])
p("Singularity radius is a singularity","Whenever r_hat_singularity_robust is below its 'none found' value 1e30, the surface Jacobian (to the order kept) vanishes at that radius for some poloidal angle where its poloidal derivative is within tolerance of zero.",
 "all configurations, whatever roots the eigen-solver returns","continuum",["src/r_singularity.cpp: calculate_r_singularity"])
p("No singularity is missed","Every positive radius at which the truncated Jacobian and its poloidal derivative vanish is at least r_hat_singularity_robust (in exact arithmetic).",
 "all configurations","degenerate configurations are measure zero",["src/r_singularity.cpp: calculate_r_singularity"])
p("Quartic roots","The eigenvalues of the matrix handed to LAPACK are exactly the complex roots of the quartic.",
 "all coefficients with non-zero leading one","continuum",["src/quartic_roots.cpp: quartic_roots"])
p("Gradient tensor of B","The grad B tensor is symmetric in (t,n), its remaining antisymmetric part vanishes for a converged current-free solution, its trace is the derivative of X1c*Y1s, and L_grad_B <= 1/curvature.",
 "all configurations","continuum",["src/grad_B_tensor.cpp: calculate_grad_B_tensor"])
# --- netcdf
p("NetCDF array layout","A matrix written to the output file is read back by index-reversing readers as the same matrix: element (i,j) of the program is element [j][i] of the file variable.",
 "all shapes and values","all shapes",["src/netcdf_writer.cpp: put"])
p("NetCDF round trip","Reading a file written by Qsc::write_netcdf restores every scalar and vector that read_netcdf reads, at every order of expansion.",
 "all configurations","all values",["src/qsc_write_netcdf.cpp","src/read_netcdf.cpp"])
p("Optimisation history columns are labelled correctly","Each iter_* variable of the optimisation output contains the history of the quantity it is named after.",
 "all optimisation histories","needs distinguishing values for every column",["src/opt_write_netcdf.cpp","src/optimize.cpp: gsl_callback"])
# --- appended while modelling
p("A random scan ends when, and only when, a limit is reached","A process of a random scan stops after at most max_attempts_per_proc attempts when that is positive, within one attempt after max_seconds have passed, and it stops only because of one of these two or because it has kept max_keep_per_proc configurations.",
 "all settings, clocks, random sequences","all clock histories",["src/scan_random.cpp: random"])
p("Newton steps with halving","newton_solve evaluates the residual exactly at the initial guess and then, per iteration, at x+d, x+d/2, x+d/4, ..., where x is the current state and d solves J(x) d = -F(x), until the residual norm is below that of x or max_linesearch_iterations trials were made; the last trial is the next state.",
 "all residual and Jacobian functions, linear solvers, initial guesses, settings","all functions and traces",["src/newton.cpp: newton_solve"])
p("The final configuration of an optimization is the last recorded one","When an optimization returns and something was recorded, the configuration in the object (which the next stage starts from, and which is written as the result) is the configuration of the last entry of the iter_* arrays.","all inputs, all sequences of evaluations of the minimizer","Depends on how the minimizer ends; tests see minimizers that converge",["src/optimize.cpp: Opt::optimize, gsl_callback, gsl_residual_function"])
p("The first record is the starting configuration","The first entry of the iter_* arrays is the configuration of the input file (of the end of the previous stage, for later stages), with the new Fourier modes equal to zero.","all inputs, any number of stages and refinement steps","Tests look at a few stages",["src/optimize.cpp: Opt::optimize","src/multiopt.cpp: MultiOpt::optimize","src/opt_allocate.cpp: Opt::allocate"])
p("An optimization never accesses arrays out of bounds","Reading and running an optimization with any number of stages, refinement steps and parameters never reads or writes outside an array, for any behaviour of the minimizer that keeps the size of the state vector and reports at most the number of iterations it was given.","all inputs whose axis arrays have the same size, all minimizers","An access out of bounds often goes unnoticed in a test",["src/optimize.cpp","src/opt_allocate.cpp","src/multiopt.cpp"])
p("max_iter bounds what is recorded","An optimization records at most max_iter configurations, and records none (and evaluates none) if max_iter is 1 or less.","all inputs, all minimizers","Boundary of a loop shared between minimizer and callback",["src/optimize.cpp: Opt::optimize, gsl_callback"])
p("What a parameter scan assumes of the optimization holds","When an optimization that is part of a parameter scan finishes, the arrays that the scan reads from it have at least the sizes that the scan reads, whatever parameters are scanned.","all stages, refinements, scanned parameters and values, if max_iter of the first stage is at least 1","Sizes depend on stages, refinement and scanned modes together",["src/multiopt_scan.cpp","src/optimize.cpp","src/opt_allocate.cpp"])
p("Axis frequencies and int","Initialising the axis is free of undefined behaviour for every set of equally long coefficient arrays whose largest frequency n*nfp is at most 1290; for a larger one the cubes of the frequency overflow int.","all coefficient arrays, field periods, grids and values","all lengths and nfp",["src/init_axis.cpp: Qsc::init_axis"])
p("Axis statistics","grid_min_R0 and grid_max_curvature bound every grid value and are attained; mean_R and mean_Z are arclength-weighted means, the standard deviations vanish only for constant R or Z, and rms_curvature is at most grid_max_curvature.","all axis shapes and grid sizes","all shapes",["src/init_axis.cpp: Qsc::init_axis"])
p("Derivative along the Boozer angle","The matrix used for every derivative along the axis is exact on trigonometric polynomials of degree below nphi/2: it returns df/dphi divided by d(Boozer angle)/dphi at every grid point.","all axis shapes, grids and polynomials","all polynomials and sizes",["src/init_axis.cpp: Qsc::init_axis"])
p("The strength of the field at second order","For every second-order solution, whatever the linear solve returned, the surfaces, B20, G2 and iota that are reported satisfy the equation for |B| = B0(1 + r eta_bar cos theta) + r^2(B20 + B2s sin 2theta + B2c cos 2theta) up to terms of order r^3.","all axis shapes, grid points, angles, parameters and solutions of the linear system, right or wrong","an asymptotic statement in r for a continuum of inputs",["src/calculate_r2.cpp: Qsc::calculate_r2"])
p("Flux and Jacobian at second order","For every second-order solution the surfaces enclose the toroidal flux pi B0 r^2 and the Jacobian of (r, theta, varphi) is that of Boozer coordinates, up to the order kept.","all axis shapes, grid points, angles, parameters and solutions of the linear system, right or wrong","an asymptotic statement in r for a continuum of inputs",["src/calculate_r2.cpp: Qsc::calculate_r2"])
p("The second-order solution is an equilibrium","Where sigma solves its equation and the linear system is solved, the magnetic field given by the surfaces and iota equals the field given by the pressure gradient and the currents, up to the order kept, so the solution is an MHD equilibrium to that order.","all axis shapes, grid points, angles and parameters","an asymptotic statement in r for a continuum of inputs",["src/calculate_r2.cpp: Qsc::calculate_r2","src/calculate_r1.cpp: Qsc::sigma_eq_residual"])
p("The Jacobian coefficients used by the singularity search are those of the coordinates",
"The five coefficients g0, g1c, g20, g2s, g2c from which r_singularity is computed are the coefficients of the expansion in r of the Jacobian of the surfaces that the second-order solution describes: sqrt(g) = r (g0 + r g1c cos(theta) + r^2 (g20 + g2s sin(2 theta) + g2c cos(2 theta))) + O(r^4), with g0 never zero and g1c = -2 eta_bar g0.",
"all axes with nonvanishing curvature, all first- and second-order inputs, all values of sigma, iota, X20, Y20, all grid points and poloidal angles",
"five polynomial formulas with up to twenty terms each in eighteen functions; a sample cannot settle an identity for all values",
["src/r_singularity.cpp: Qsc::calculate_r_singularity"])
p("Output files contain what their variables are named after","For a single configuration, a random or deterministic scan, and a scan of optimizations, the output file contains exactly one variable for each documented name whose order of expansion is enabled, in the order of the writer, and its value is that of the quantity it is named after; every array is written with the lengths of its dimensions.","all objects whose arrays have the sizes of their dimensions; all values; zero configurations kept included","some hundred variables of arbitrary shape and value, each of which could be swapped, dropped or mislabelled",["src/qsc_write_netcdf.cpp: Qsc::write_netcdf","src/scan_write_netcdf.cpp: Scan::write_netcdf","src/multiopt_scan_write_netcdf.cpp: MultiOptScan::write_netcdf","src/netcdf_writer.cpp: NetCDFWriter"])
p("Reading strings from an output file","A string written to an output file can be read back.","all strings","undefined behaviour depends on the contents of uninitialised memory",["src/read_netcdf.cpp: NetCDFReader::get_string"])
p("The reported first and second derivatives of the field reproduce the field near the axis","After a second-order calculation, the Taylor polynomial of degree two built from sG B0, the reported grad B tensor and the reported grad grad B tensor agrees with the magnetic field of the solution (field strength squared over G + iota I, times the derivative of the position along the field line) up to terms of third order in the distance from the axis, in all three components and for every poloidal angle; the mixed elements (n,b,k) and (b,n,k) are equal.","every axis without points of vanishing curvature, every sigma, iota, current, pressure, B2s, B2c, X20 and Y20, every grid point, every angle","A test compares the tensor with stored numbers for a few configurations, or the two formulas in the code with one another; neither shows that the 27 formulas are the derivatives of the field.",["src/grad_B_tensor.cpp: Qsc::calculate_grad_grad_B_tensor","src/calculate_r2.cpp: Qsc::calculate_r2"])
p("The grad grad B tensor along the axis is the derivative of the grad B tensor","The elements (t,i,k) of the reported grad grad B tensor are the components of the derivative of the reported grad B tensor along the axis, with the turning of the Frenet frame taken into account, and (i,t,k) = (t,i,k), wherever the differentiation matrix obeys the product rule for the products involved.","every axis without points of vanishing curvature, every sigma, iota and second-order coefficients, every grid point","The identity involves derivatives of products of arrays on the grid; a test sees only the discretisation error for one configuration.",["src/grad_B_tensor.cpp: Qsc::calculate_grad_grad_B_tensor"])
p("The two calculations of the grad grad B tensor agree","calculate_grad_grad_B_tensor_alt returns the tensor that calculate_grad_grad_B_tensor stores: exactly in all but two elements, and in the elements (t,n,t) and (t,t,n) wherever the differentiation matrix obeys the product rule for X1c Y1s.","every axis without points of vanishing curvature, every sigma, iota, current, pressure, B2s, B2c, X20 and Y20, every grid point, all 27 elements","The unit test compares the two for a few configurations within a tolerance; equality of 27 pairs of polynomials in forty variables is a statement about all values.",["src/grad_B_tensor.cpp: Qsc::calculate_grad_grad_B_tensor_alt","src/grad_B_tensor.cpp: Qsc::calculate_grad_grad_B_tensor"])
p("L_grad_grad_B is a positive length bounded by the radius of curvature","For positive B0, the reported L_grad_grad_B is the square root of 4 B0 over the size of the tensor, is a positive number at most sqrt(2) times the radius of curvature of the axis, L_grad_grad_B_inverse is its inverse, and grid_min_L_grad_grad_B is its smallest value on the grid.","every axis without points of vanishing curvature, every positive B0, every sigma, iota and second-order coefficients, every grid point","That the division and the root are always defined, and the bound, concern every configuration.",["src/grad_B_tensor.cpp: Qsc::calculate_grad_grad_B_tensor"])
p("The third-order terms make the mean flux balance at the next order","The third-order coefficients X3c1, Y3c1, Y3s1 reported for order r2.1 and r3 are one common multiple of the first-order coefficients X1c, Y1c, Y1s; with them the component along the axis of the magnetic field in its two forms (contravariant and covariant) agrees at the next order in r when averaged over the poloidal angle, and no other multiple achieves this.","every axis without zero curvature, every resolution and grid point, every value of the physical parameters, sigma, iota, X20, Y20","It is an identity between functions of r and theta for all inputs; a test compares a few digits of one configuration.",["src/calculate_r2.cpp:calculate_r2p1"])
p("The Jacobian has the right mean at third order","With the third-order terms, the Jacobian of the coordinates times the square of the reported field strength equals the flux derivative times G + iota I through order r^3 up to terms in cos 2theta and sin 2theta, so the mean field strength is accurate to second order.","every axis without zero curvature, grid point and parameters for which the sigma equation and the second-order equations hold","An asymptotic statement about all small r cannot be observed by finitely many evaluations.",["src/calculate_r2.cpp:calculate_r2p1"])
p("Maxima of the third-order terms","grid_max_XY3, grid_max_d_XY3_d_varphi and grid_max_d2_XY3_d_varphi2 are the largest absolute values over the grid of the third-order coefficients, of their first and of their second derivatives.","every configuration with at least one grid point","The maximum must include every array at every grid point for all inputs.",["src/calculate_r2.cpp:calculate_r2p1"])
p("Results do not depend on the past of an object","An object that init() prepared gives, when calculate() is called, results that depend only on its current input parameters: not on what was calculated or stored in it before. Two objects with equal inputs but different pasts give the same result of Newton's method and write identical output files, or stop with the same exception.","every two histories of an object: init, then any sequence of calculations and changes of members, of any length","The claim ranges over all sequences of earlier calculations; a stale array or an unset member shows only for particular pasts.",["src/qsc.cpp:Qsc::init","src/qsc.cpp:Qsc::calculate","src/allocate.cpp"])
p("A run depends only on the input file","The result of Qsc::run and the output file are determined by the input file: not by the contents of uninitialised memory of the object.","every input file and every two contents of the memory before construction","Uninitialised memory is usually zero in tests; the claim is about all contents of it.",["src/qsc.cpp:Qsc::Qsc","src/qsc.cpp:Qsc::run"])
p("A run has defined behaviour","For input files whose values are acceptable (0 <= nphi < 2^30, nfp >= 1, a non-empty axis whose frequencies do not overflow), a run accesses no memory out of bounds and overflows no integer, for any number of grid points, Fourier modes and order; it writes the output file or stops with an exception. In exact arithmetic and with external routines that succeed it always writes the output file.","every input file, floating-point arithmetic and behaviour of the external routines","Sizes are unbounded, and undefined behaviour may be invisible in a test run.",["src/qsc.cpp:Qsc::run","src/allocate.cpp","src/init_axis.cpp","src/calculate_r1.cpp","src/calculate_r2.cpp","src/qsc_write_netcdf.cpp"])
p("The output file records the inputs","The output file contains the input parameters that were used: the values of the input file, or the documented defaults; nphi is the odd number used, and the axis coefficients are padded with zeros.","every input file for which the run succeeds, and any arithmetic","It must hold for every combination of given and absent keys and every value.",["src/qsc.cpp:Qsc::run","src/qsc_input.cpp","src/qsc_write_netcdf.cpp"])
p("Derivatives in the output file are consistent","Every array d_X_d_varphi in the output file is the product of the matrix d_d_varphi in the file and the array X in the file, and every array d2_X_d_varphi2 is the product of the matrix and d_X_d_varphi.","every input file for which the run succeeds, every such array and grid point, and any arithmetic","It concerns all values of all arrays for all inputs; swapping two assignments changes only values that tests compare with a tolerance, if at all.",["src/calculate_r1.cpp","src/calculate_r2.cpp","src/qsc_write_netcdf.cpp"])
p("Configurations of the papers by name","Constructing a configuration by the name of a section of the papers and writing the output file gives exactly what the input file with the published parameters gives; every other name is refused with an exception.","every name, every content of uninitialised memory, and any arithmetic","The constructor leaves members unset that the other constructor sets; equality must hold for all contents of memory and all names.",["src/configurations.cpp:Qsc::Qsc","src/qsc.cpp:Qsc::defaults"])
p("The first-order solution in the output file","From the output file alone: iota_N = iota + helicity nfp; at every grid point where the curvature is not 0, X1c curvature = eta_bar, X1c Y1s = sG spsi and Y1c = Y1s sigma, and the elongation is the ratio of the largest and the smallest distance of the elliptical cross-section from the axis; grid_max_elongation is the largest of them and mean_elongation lies between 1 and it; sigma at the first point is sigma0 unless the line search failed; and if Newton's method reported convergence, the residual of the sigma equation, from the values in the file, is less than newton_tolerance in the file.","every input file for which the run succeeds with sG and spsi +1 or -1 and eta_bar not 0, every content of memory, every result of LAPACK; real arithmetic","It links many variables of the file for all inputs; an error that keeps each array plausible (a swapped sign, a stale member) passes tests on chosen configurations.",["src/calculate_r1.cpp","src/qsc_write_netcdf.cpp"])
p("The axis in the output file","From the output file alone: phi is the uniform grid of one field period; R0 and Z0 are the Fourier series of the input file; d_l_d_phi, curvature and torsion are those of the curve with the cylindrical coordinates R0, Z0 (Frenet's formulas, as derivatives of the curve); axis_length, G0, the Boozer angle, the means and standard deviations, the smallest R0 and largest curvature are those of the arrays in the file.","every input file for which the run succeeds with at least one field period; every grid point; where needed, where the speed and the curvature are not 0; real arithmetic","The formulas must hold for all Fourier coefficients; tests compare a few configurations with numbers from another code.",["src/init_axis.cpp","src/qsc_write_netcdf.cpp","src/qsc_input.cpp"])
p("The magnetic field in the output file","Take the surfaces X, Y, Z to the second order in r and |B| to the second order in r from the arrays of an output file, with the derivatives in the file.  Then |x_varphi + iota x_theta|^2 B^2 = (G + iota I)^2 and sqrt(g) B^2 = (dpsi/dr) (G + iota I), up to terms of the order r^3: to this order the file describes flux surfaces on which the field strength is the one in the file.","every input file of order r2 or higher for which the run succeeds, with signs +1 or -1 and B0, eta_bar, the speed and the curvature not 0; every grid point and angle; any result of the linear solver; real arithmetic","It is an identity between all second-order arrays of the file; tests compare each with a reference, for a few inputs.",["src/calculate_r2.cpp","src/qsc_write_netcdf.cpp"])
p("The second- and third-order results in the output file","From the output file alone: if the linear solver solves its systems, the arrays satisfy the two second-order equations at every grid point; the mean, anomaly, residual and variation of B20, Mercier's criterion, d2_volume_d_psi2, L_grad_grad_B and its minimum and bound by the curvature, and the maxima over the grid are those of the arrays in the file; at order r2.1, the third-order terms are lambda_for_XY3 times the first-order ones, with their maxima.","every input file of order r2 or higher for which the run succeeds, with signs +1 or -1 and B0, eta_bar, the speed and the curvature not 0 (for some items B0 > 0 or iota_N not 0); real arithmetic","The identities tie dozens of variables together for all inputs.",["src/calculate_r2.cpp","src/qsc_write_netcdf.cpp"])
p("The singularity in the output file","From the output file alone: the Jacobian of the surfaces in the file is r K(r, theta) + O(r^4) with K of degree two in r; r_hat_singularity_robust is positive and at most 1e30, and where it is less, K vanishes at that radius, at an angle at which the derivative of K is below the tolerance; r_singularity_robust is the smallest of them, and beta is - mu0 p2 r_singularity_robust^2 / B0^2, at most 1e30.","every input file of order r2 or higher for which the run succeeds, as in C93, every result of the eigenvalue routine, single or double precision tolerances; real arithmetic","The roots come from an eigenvalue routine; that the reported radius is a zero of the Jacobian of the surfaces in the same file must hold whatever the routine returns.",["src/r_singularity.cpp","src/qsc_write_netcdf.cpp"])
p("The output file contains the gradients of the field","For a completed run whose recorded grid has no point of zero curvature or zero speed and whose parameters are admissible: in the recorded grad_B_tensor the tangent row and column are sG B0 curvature and zeros; its trace vanishes but for the recorded differentiation matrix's error in the product X1c Y1s; its (n,b)-(b,n) difference is the recorded current but for the residual of the sigma equation and a product-rule error; L_grad_B is its scale length, at most the radius of curvature, with grid_min_L_grad_B the minimum. At second order the field of the recorded surfaces equals, up to order r^3, the Taylor polynomial made of B0, grad_B_tensor and grad_grad_B_tensor of the file; the second derivatives are symmetric, and along the tangent they are the derivative of the recorded grad_B_tensor.","every input table, initial object, solver, eigenvalue routine and completed run with a regular grid; every grid point, poloidal angle and component","tests look at single numbers of single configurations; that the tensors stored in the file belong to the surfaces stored in the same file at every point is a claim about all runs and an expansion in r",["src/qsc_write_netcdf.cpp: Qsc::write_netcdf","src/grad_B_tensor.cpp: calculate_grad_B_tensor, calculate_grad_grad_B_tensor"])
p("The output file contains the derivatives of the axis and exact differentiation matrices","For a completed run with nfp >= 1: R0p, R0pp, R0ppp, Z0p, Z0pp, Z0ppp of the file are the first three derivatives, at the recorded phi, of the axis that the input coefficients define; d_l_d_phi is the speed and d2_l_d_phi2 its derivative where the speed is positive; the recorded d_d_phi differentiates every trigonometric polynomial of degree below nphi/2 exactly and the recorded d_d_varphi gives its derivative with respect to the Boozer angle. At order r2.1 the third-order arrays that the program never calculates are recorded as zeros.","every input table, initial object, solvers and completed run; every grid point; every trigonometric polynomial below half the grid size","the derivative of a function, and exactness for every trigonometric polynomial, are not something a finite set of comparisons can establish; nor is it that no history leaves other values in the unused arrays",["src/init_axis.cpp: Qsc::init_axis","src/qsc_write_netcdf.cpp: Qsc::write_netcdf","src/differentiation_matrix.cpp: qsc::differentiation_matrix"])
p("Whether Newton's method converged can be told from the output file","The status of Newton's method is not among the variables of the output file. For every completed run, whatever the status: the recorded sigma at the first grid point is the recorded sigma0; and the method converged if and only if the sum of the squares of the residual of the sigma equation, calculated from the recorded sigma, iota_N, curvature, torsion, currents and differentiation matrix, is below the square of the recorded newton_tolerance. This includes the case that the line search failed, where the recorded sigma and iota are those of the rejected trial.","every input table, initial object, linear solvers (also wrong ones) and completed run, with every status","a test checks the status of a run or the residual of a file, not that the two agree for all inputs and all behaviours of the linear solver",["src/newton.cpp: qsc::newton_solve","src/calculate_r1.cpp: Qsc::sigma_eq_residual, Qsc::solve_sigma_equation","src/qsc_write_netcdf.cpp: Qsc::write_netcdf"])
p("An optimization reports what single runs give","Every number that an optimization writes about the configurations it went through is the number that a run of the code for this configuration alone writes: entry i of the variables iter_iota, iter_eta_bar, iter_axis_length, iter_min_L_grad_B, iter_r_singularity and so on is the number in the output file of a plain run with the inputs of the i-th configuration reported, and the part of the output file about the configuration is the output file of a plain run with the inputs of the last configuration evaluated. Nothing of the configurations evaluated before is left in it. The inputs that cannot be varied (nfp, B0, I2, p2, sG, spsi, the limits of Newton's method, the order) are those of the input file throughout. The optimization has defined behaviour whatever the minimizer does, and with solvers that succeed it ends normally.","every input, every sequence of points that the minimizer evaluates and reports, every grid, every number of Fourier modes and refinement step, and every content of memory before","The object is used again for thousands of configurations with different sizes, and the sequence is chosen by an external minimizer; a test sees a few of these sequences",["src/optimize.cpp: Opt::optimize","src/opt.cpp: Opt::run","src/qsc.cpp: Qsc::calculate","src/opt_write_netcdf.cpp: Opt::write_netcdf"])
p("An optimization in several stages gives what single runs give","Each stage of an optimization in several stages writes a file whose part about the configuration is the output file of a plain run with the inputs of the last configuration the stage evaluated, and whose variables about the iterations hold the numbers that plain runs with the inputs of the configurations reported write; nothing of the stages before is left in it but the configuration from which it continues. The inputs that cannot be varied are those of the file in all stages. The behaviour is defined, and with solvers that succeed the optimization ends normally if in each stage the lists of varied modes have the size of the arrays when the stage begins, something is varied and there is a term.","every number of stages, every sequence of refinements, every input, every sequence of points that the minimizer evaluates, every content of memory before","The object passes through all stages and changes its size at each refinement; a test sees a few sequences of stages",["src/multiopt.cpp: MultiOpt::optimize","src/optimize.cpp: Opt::optimize","src/qsc.cpp: Qsc::calculate","src/opt_write_netcdf.cpp: Opt::write_netcdf"])
p("What a random scan records about a configuration is what a run for it alone gives",
"In a random scan, with the calculation the code really does: for every configuration that is kept, in every intermediate report and in the last one, there is a plain run of the code whose input file has the inputs of the scan and the numbers and Fourier amplitudes recorded for the configuration, and whose output file contains the axis length, minimum R0, maximum curvature, iota, elongation, scale lengths, standard deviations, helicity and, at order r2 and r2.1, the second-order results that the scan records. Nothing is left over from the configurations attempted before, at whichever filter those attempts stopped. The scan has defined behaviour, and it ends with an exception only if the calculation of some configuration does or if the order is not valid.",
"every arithmetic, solver, sequence of random draws and clock readings, every contents of the object and of the memory before the scan, every report and every configuration in it; limits: grid below about 2^30 points, nfp times the highest mode at most 1290, room for at least one configuration",
"one object is reused for all attempts, and an attempt stops at any of thirteen filters; a result left from an earlier attempt would show up only for particular sequences of draws, and tests compare scans with stored values",
["scan_random.cpp: Scan::random", "qsc.cpp: Qsc::calculate, Qsc::init", "calculate_r1.cpp", "calculate_r2.cpp", "qsc_write_netcdf.cpp"])
p("The output file of a parallel random scan lists runs of the code",
"Let any number of processes run a random scan with the same input, each with its own memory, random numbers and clock, and reach collect_results equally often. Then the collections complete whatever the order of messages, and in each file that process 0 writes, entry j of every scan_* variable belongs to the j-th kept configuration in rank order: the inputs the file lists together with the inputs of the scan define a configuration such that a run of the code for it alone writes the numbers that the scan file lists (axis length, min_R0, max_curvature, iota, elongation, L_grad_B, standard deviations, helicity; at order r2 also the second-order results). n_scan is the number of kept configurations, and attempts, n_sigma_eq_solves, rejected_due_to_* and the fractions are the exact counts over all processes.",
"all inputs with sizes within limits, all numbers of processes, all random numbers, clocks, initial memory, message orders and buffering, every save",
"the statement compares every entry of a file with a separate run, for all schedules and all numbers of processes; a test compares one scan with a few runs",
["src/scan_random.cpp: Scan::random", "src/scan_collect_results.cpp: Scan::collect_results", "src/scan_write_netcdf.cpp: Scan::write_netcdf", "src/qsc.cpp: Qsc::run"])
p("A parameter scan saves what runs of the single configurations give","When a parameter scan ends, every configuration it lists is the one in which the optimization at a point of the grid has ended, and a plain run of the code whose input file has the inputs of that configuration writes a file whose values of the rotational transform, the axis length, the extrema, the second-order and third-order quantities and the helicity are the entries of the scan_* arrays at that position; the arrays scan_eta_bar, scan_sigma0, scan_B2c, scan_B2s, scan_p2 and scan_R0c, R0s, Z0c, Z0s hold the inputs of that run, and all other inputs but nphi are those of the input file of the scan. An optimization at a point of the grid never has undefined behaviour.","all input files with order r2.1 and at least two iterations in each stage, grids, numbers of processes, schedules, minimizers and solvers","the values pass through a minimizer, messages between processes, packed arrays and filters; a test compares a few numbers of one scan",["multiopt_scan.cpp: MultiOptScan::scan, eval_scan_index, filter_global_arrays","multiopt.cpp: MultiOpt::optimize","opt.cpp: Opt::run","qsc.cpp: Qsc::calculate"])
p("The output file of a parameter scan lists what runs for the single configurations write",
 "When a parameter scan (general_option = multiopt_scan) has ended, its NetCDF file contains: the number of configurations kept, the number of attempts and of rejections for each filter, and the fractions computed from them; the fixed settings of the input file (nfp, sG, spsi, B0, I2, the Newton parameters, the limits of the filters); and, for each p below n_scan, as entry p of the variables scan_*, the inputs and results of one configuration: those which a single run of the code, started from exactly the inputs of this configuration at order r2.1, writes to its own file. No entry is mixed up with that of another configuration, another variable, or another mode of the axis.",
 "every input of the scan within the sizes stated, every number of workers and every schedule of the messages between the processes, every point of the grid, every behaviour of the minimizer and every kept configuration",
 "the order in which results arrive depends on the schedule, and the file is compared by no test with files of single runs",
 ["src/multiopt_scan_write_netcdf.cpp: MultiOptScan::write_netcdf","src/multiopt_scan.cpp: MultiOptScan::filter_global_arrays"])
p("The configurations of a random scan lie within the limits of the input file",
 "Every configuration that a random scan looks at has eta_bar, sigma0 and, at order r2 and above, B2c, B2s and p2 within the limits given for them, and each amplitude of the axis R0c[j], R0s[j], Z0c[j], Z0s[j] within the limits given for this mode: the value itself, or its magnitude if the distribution is '2 sided log'; R0c[0] itself is always between its limits, so it keeps its sign. At first order B2c, B2s and p2 are those of the input file. What is saved about a kept configuration is what a single run with these inputs writes. With limits of equal length the scan has defined behaviour.",
 "every set of limits and distributions, every generator of random numbers in [0,1] or the deterministic sequence, every process number, every number of attempts, every clock, both kept and rejected configurations",
 "depends on every draw of the generators; tests look at some scans with one seed",
 ["src/scan_random.cpp: Scan::random","src/random.cpp: Random::get"])
p("A random scan from the input file to the output file","Any number of processes are started in random-scan mode with an input file whose tables qsc and scan are tq and ts. A table with an unknown key or a value of the wrong type is rejected with an exception; otherwise every setting has the value given in the file, or the documented default, with the arrays of limits filled up with zeros to a common length. The scan then has defined behaviour. However the messages between the processes are scheduled, every save writes an output file in which the settings of the scan are repeated and n_scan configurations are listed, in the order of the ranks. For each of them: the inputs that are not drawn are those of the table qsc; the inputs that are drawn are in the output file and within the limits of the table scan; a run of the code in single-configuration mode for these inputs writes an output file with exactly the listed results; and, unless keep_all is set, the listed results satisfy every limit *_to_keep of the table scan. A process makes no more attempts than max_attempts_per_proc (if positive), at most one after max_seconds, keeps no more than max_keep_per_proc configurations, and does not end before one of these limits is reached.","all tables qsc and scan of the input file, all numbers of processes, ranks, seeds, sequences of uniform random numbers, memory contents, clock readings, message schedules, linear solvers and saves","a test runs one input file with a few processes and a fixed schedule; it cannot compare every listed configuration of every scan with a run of its own","scan_input.cpp scan.cpp scan_random.cpp scan_collect_results.cpp scan_write_netcdf.cpp qsc_input.cpp toml_util.cpp".split())
p("An optimization does what its input file says, and its output file lists what single runs write","Reading the tables for the configuration and for the optimization either fails with an exception, if a key is unknown or a value is not acceptable, or gives the values of the file and the documented defaults. If the axis has a mode and the integers are within limits, the optimization has defined behaviour. Every configuration it evaluates has the inputs of the file but for the parameters that the file lets vary and the modes added by the refinement so far; the resolution is the one the file gives for the step; the weights and targets are those of the file; the first reported configuration is the one of the file; at most max_iter configurations are reported; and the output file contains the file of a run for the last configuration, and for each reported configuration the numbers that a run for it alone writes.","all input tables, solvers, minimizers, contents of the memory and floating-point operations","The tests run a few optimizations; neither the values of unvaried inputs in every evaluation nor the agreement with single runs can be checked for every input file.",["opt.cpp:Opt::run","opt.cpp:Opt::defaults","opt_input.cpp:Opt::input","optimize.cpp:Opt::optimize","opt_write_netcdf.cpp:Opt::write_netcdf"])
p("A multi-stage optimization is correct from its input file to its output files","Let the tables \"multiopt\", \"qsc\" and \"opt0\", \"opt1\", ... of an input file be read successfully, with sizes for which integer arithmetic does not overflow. Then the program has defined behaviour. If it ends normally there are as many stages as nopts says; in every stage the inputs that cannot be varied are those of the table \"qsc\"; each configuration evaluated agrees with the last configuration of the stage before (with the table \"qsc\" for the first stage) in everything that the table of this stage does not let vary; weights, targets, algorithm and difference method are those of the table of this stage; the first configuration reported is the one the stage before ended with; at most max_iter configurations are reported; and the output file of the stage contains the file of a single run for its last configuration and, for each reported configuration, what a single run for it writes. After a stage that refines the axis, the table of each later stage must give all four lists of varied modes: the defaults make the program stop.","all input tables, numbers of stages, refinements, linear solvers, minimizers and scalar types","Tests run a few fixed multi-stage files; the chain of stages holds for any number of stages, any refinement and any behaviour of the minimizer.",["src/multiopt.cpp: MultiOpt::run, MultiOpt::input, MultiOpt::optimize","src/opt_input.cpp: Opt::input","src/optimize.cpp: Opt::optimize"])
p("Every parameter that an input file omits has its default","In the tables \"qsc\", \"opt\" and \"scan\", whatever else the table contains: a parameter that is not given has the default set by the constructor, and there is one for every parameter. An axis array that is not given is the one of a circle of radius 1, with zeros up to the length of the longest array given; a range of a scan that is not given is a single point; a term of the objective function whose weight is not given is not used; without algorithm and diff_method the minimizer is Levenberg-Marquardt with forward differences.","all tables that are accepted, for each omitted key, all scalar types","A test can omit some parameters in some files; the claim is about each omitted parameter whatever the others are.",["src/qsc.cpp: Qsc::defaults, Qsc::Qsc","src/opt.cpp: Opt::defaults","src/scan.cpp: Scan::defaults","src/opt_input.cpp: Opt::input","src/scan_input.cpp: Scan::input"])
open("/verif/properties.jsonl","w").write("".join(json.dumps(x)+"\n" for x in P))
print(len(P))
