# Design of the formal model of wakis

The source under study is /repo (package `wakis`, read as text; nothing is
executed).  The model is written in Rocq/Coq 8.16.1 under `rocq/theories`.

## 1. Layout

| file | content |
|------|---------|
| `Num.v` | operations class `Num` (field operations), laws class `NumLaws`, instances `Qc` (computable) and `R` |
| `Vec.v` | arrays as lists (`tab`, `get`), finite sums and their algebra |
| `*Model.v` | the code, function by function, each definition citing file and lines |
| `*Spec.v` | small independent vocabulary used only by theorem statements |
| `*Proofs.v` | lemmas |
| `*Props.v` | only `Theorem ... Proof. exact lemma. Qed. Print Assumptions.` and non-vacuity `Example`s |

## 2. Modelling decisions

* **Numbers.** Model functions are polymorphic in a type `T` with field
  operations (`Num T`).  Algebraic theorems hold in *every* field.  Theorems that need
  order, square roots, exp or cos are stated over Coq's real numbers `R`.  Counter-examples
  and non-vacuity examples are computed over canonical rationals `Qc`.  Rounding of
  IEEE doubles is not modelled: this is the main simplification.
* **Arrays.** NumPy 1-D arrays are lists; a 3-D matrix is a list together with its
  shape; Fortran/C order conversions are written out as index arithmetic.  Views and
  aliasing are modelled where the code relies on them (field copies, ABC snapshots,
  solver/grid sharing of `tL`/`itA`).
* **Exceptions** are values (`result A := Ok a | Err e`, with the Python exception class).
* **Sparse matrices** are functions `nat -> nat -> T` with an explicit dimension; `diags`,
  `hstack`/`vstack`, product and transpose are defined entry by entry, and the update uses
  the assembled product exactly as the code does.
* **HDF5, text files, MPI** are modelled as finite maps / rendezvous message passing; the
  assumptions are listed in the trusted base.
* GPU (`cupy`) and MKL code paths perform the same algebra through another library and are
  modelled only through the CPU path, except where views versus copies matters.

## 3. Plan and result, property by property

Each line gives the plan where one was written before the proof, then the status of MANIFEST.json and its note.
A property that is false of the code keeps its full statement in properties.jsonl; its theorems are an
`exists` refutation and the part that does hold (suffix `_partial` where conditions were added).

* **C01** A cell write is seen at that cell and nowhere else. FieldModel: flat list of length 3N, key resolution with Python index rules; prove get/set laws through the index bijection. [proved] 
* **C02** Matrix and array round trips lose nothing. to/from_matrix as F-order reshape; round-trip lemmas from the index bijection; size mismatch is an error value. [partial] Everything proved except rejection of a one-element array by fromarray, which NumPy broadcasts (refuted).
* **C03** A slice write changes exactly the selected cells. slices resolved to index lists; a write is a fold over the flat array; frame proved by injectivity of the index map. [proved] Right-hand sides: numbers and arrays shaped as the selection. Other broadcastable shapes are in the model but not in a theorem.
* **C04** compute_ijk inverts the flat index. div/mod arithmetic over nat. [proved] 
* **C05** Integer keys address the flat array and nothing else. the guard `key <= N` modelled literally; refuted at key = N and at N < key < 3N; guarded positive part. [partial] Refuted: keys N+1..3N-1 name entries but are rejected, compute_ijk(N) is accepted. The guarded part is proved.
* **C06** Field arithmetic acts cell by cell. pointwise lemmas for mul/add over any Num. [proved] 
* **C07** Rejected keys leave the field unchanged. error values; the setter returns the old field together with the error. [proved] 
* **C08** A copied field is independent. heap of two arrays; writes to one location do not touch the other, over any operation list. [proved] 
* **C09** Field magnitude is the Euclidean norm per cell. over R with sqrt. [proved] 
* **C10** Documented scalar operands are supported. operand kinds as a sum type; attribute error on Python scalars; refuted. [partial] Refuted for every field and number: Field defines __div__ (Python 2 name) which fails on numbers, and __add__ has no number branch.
* **C11** Primal grid metrics are exact. _compute_grid over a field; telescoping sums; positivity over R. [proved] 
* **C12** Dual grid metrics are the half-cell sums, and vanish only on the high face. same model; exact zero set over R for increasing axes. [proved] 
* **C13** Dual edges join the centres of the two cells that meet at the node. refuted with a three-cell graded axis; proved for uniform axes away from node 0. [partial] Refuted on a graded axis: the dual length stored at i joins the centres of cells i and i+1. Proved: away from the ends the claim holds exactly when cells i-1 and i+1 have the same size (so on every uniform axis).
* **C14** Axis refinement by insertion keeps the requested snap points. `np.unique(np.append(...))` as sorted dedup; the optimiser is outside the model. [partial] Refuted when there are more snaps than nodes (ValueError). C14_insert_partial proves the rest; the optimiser that follows is not modelled.
* **C15** Saving and reloading a grid preserves the material map. HDF5 groups as maps iterated in alphabetical order; refuted with overlapping solids; proved when masks are disjoint. [partial] Refuted: HDF5 lists keys alphabetically, so overlapping solids change priority (witness); a grid without solids cannot be saved (general theorem). C15_reload_partial: same solver when overlapping solids are in alphabetical order.
* **C16** Magnetic flux out of every cell is conserved. div*curl = 0 on flat shifts (all three difference operators are polynomials in one shift, hence commute); invariant by induction over steps. [proved] Cells whose six faces are stored; the flux of the last layer needs a face the code does not store.
* **C17** Charge continuity. transpose of the same identity, evaluated at nodes with unmasked edges. [proved] 
* **C18** Lossless source-free runs conserve the discrete energy exactly. adjointness of C and C^T by exchanging finite sums; induction over steps. [proved] For a solver past its first step (which zeroes ghost entries once).
* **C19** Conductors damp and never amplify. real inequality from the relaxation bound. [proved] Over the reals, for every entry with positive conductivity and finite permittivity of any solver with passive materials; the conduction part is isolated by comparing with the same step with J written to zero.
* **C20** The default time step is stable. energy of C18 is positive definite once the curl norm is below 2; the norm bound is proved by embedding the flat shifts in a cyclic group (Lagrange identity); sharp constant. [partial] Refuted for a magnetic upper wall, where H grows without bound (C20_magnetic_wall_refuted). Graded meshes, solids, conductors and pml are C118. C20_electric_box_partial: in a box of electric walls, for all sizes, spacings, backgrounds no faster than vacuum, start fields and numbers of steps, the sum of eps E^2 + mu H^2 never exceeds (1+cfln)/(1-cfln) times its start. C20_other_walls_partial: the same over the faces of nonzero dual length for the other walls without absorbing layers.
* **C21** Superposition. linearity of each update, induction over the history. [proved] 
* **C22** Silence stays silent. corollary shape of linearity, proved directly by induction. [proved] 
* **C23** Finite propagation speed. two-run non-interference: agreement on a shrinking box; induction over steps. [proved] 
* **C24** PEC walls hold tangential E at zero. masked columns of C are zero rows of C^T; induction. [proved] 
* **C25** A PEC wall acts as PEC regardless of the other walls. refuted: a later face overwrites the edge mask; witness computed; positive part = C24. [partial] Refuted on the edges of a wall: the later axis in the order x, y, z decides. Proved on the wall away from its edges.
* **C26** Field inside perfect conductors is frozen. zero inverse permittivity row; induction. [proved] Runs without pml walls, and with pml walls every conductor outside the layers (C26_outside_layers). Inside the layers the claim is C133.
* **C27** Periodic boundaries identify opposite faces. refuted: the flat +1 shift maps the last cell of a row to the first cell of the next row; witness at every row. [partial] Refuted: the last x layer couples to the first x layer of the next row. The exact coupling is proved for every solver without magnetic walls.
* **C28** PMC walls freeze tangential H. masked rows of C; induction. [proved] For the spellings the code recognises: magnetic in any case, pmc in lower case; high-side ghost entries need to start at zero or the solver to have stepped.
* **C29** Boundary names are case-insensitive. string lower-casing; proved for all names but 'pmc'; refuted with 'PMC'. [partial] Refuted for pmc: only the lower-case spelling freezes H. Proved for every other name.
* **C30** Building a solver does not alter the grid it was given. solver construction returns the mutated grid; refuted for periodic/abc; proved for all other boundary names. [partial] Refuted for periodic pairs: the grid's dual metrics are overwritten and a later solver on the same grid object runs differently. Proved without periodic pairs and high abc walls.
* **C31** The last solid covering a cell decides its permittivity and permeability. materials as a fold over solids; last match; C-order/F-order index agreement. [proved] Permittivity: runs without pml walls, and with pml walls every cell outside the layers (C31_outside_layers). Permeability: all runs. Inside the layers the claim is C133.
* **C32** The last solid covering a cell decides its conductivity. refuted: background sigma = 0 and a non-conductive solid over a conductive one; proved when sigma_bg > 0. [partial] Refuted: a solid without conductivity over a conducting one keeps the old conductivity. Proved when the background conducts or every covering solid has a conductivity (no pml walls, or cells outside the layers: C32_outside_layers_partial).
* **C33** The time step obeys both the CFL and the relaxation bounds. real inequalities with sqrt and minima of lists. [proved] Over the reals; passive materials; with pml walls the layers must fit (2n+2 cells). Also gives dt > 0 and that an explicit dt is never increased.
* **C34** Every conductive configuration can be constructed. refuted: conductive background with sigma = 0 or masked-out solid makes an empty minimum. [partial] Refuted: conductivity 0 as third entry gives ValueError, a layer thicker than the grid IndexError. Proved: built when nothing conducts, when some cell outside the layers conducts, or with fitting pml layers whose last wall finds a finite permittivity.
* **C35** PML layers have a graded positive conductivity and leave the interior alone. profile as geometric progression over R; fold of layer writes; monotonicity and frame. [proved] Layer values for every wall name, over any field, with room for the layers asked only along axes that have a pml wall (C35_walls); strict growth toward the wall over the reals; every cell is outside or decided by exactly the last covering wall.
* **C36** PML is mirror symmetric. refuted: reference layer is n_pml+1 on the low side and n_pml on the high side. [partial] Refuted: overlapping layers and reference cells are not mirror images. Proved for cells decided by the two walls of one axis at equal depth, at least two layers, equal reference cells.
* **C37** A lossless step can be undone. explicit inverse; ring arithmetic on arrays. [proved] For a solver past its first step.
* **C38** ABC walls restore the snapshot taken before the step. views: snapshot denotes the live array; refuted twice (both-sides KeyError, stale values). [partial] Refuted: an axis absorbing on both sides raises KeyError at the first step (general theorem and witness), and the wall holds the layer after the step because the saved arrays are views (witness). C38_walls_partial gives the exact wall values otherwise.
* **C39** update_tensors makes the solver equal to one built with the new materials. before the first step equal; after the first step the operator attributes are deleted (error); refuted; ghosts never zeroed. [partial] Refuted after the first step (AttributeError, general theorem) and for conductivity given to a non-conductive solver (witness). C39_update_partial proves the claim before the first step otherwise.
* **C40** An impressed current is honoured in conductive runs. direct from the step; overwriting of J. [proved] 
* **C41** reset_fields makes a used solver equal to a fresh one. operation histories; ghost zeroing is idempotent on zero fields. [partial] Refuted: values written to ghost entries before the first step are zeroed only by a new solver. Proved for histories that do not write them, and in electric boxes on the physical domain for all histories.
* **C42** Saving and loading the state resumes the run exactly. file as value; restart at every crash point. [proved] 
* **C43** Loading into a freshly built solver resumes the run. refuted for periodic boxes (ghost H is zeroed again); proved when ghosts are zero. [partial] Refuted: non-zero ghost entries (periodic walls) are zeroed by the new solver. Proved for zero ghosts, and in electric boxes on the physical domain.
* **C44** emsolve runs exactly the requested schedule. trace semantics of the loop with event list; composition. [proved] Sources and callbacks are arbitrary time-dependent histories of writes, resets and loads; walls included in C44_schedule_walls.
* **C45** emsolve can save field snapshots. refuted: iterating a dict of files yields names; error value. [partial] Refuted: TypeError whenever a field is requested, before the first step (general theorem and witness).
* **C46** MPI tiles partition the axis. integer arithmetic for tiles; coordinates over a field. [proved] Over any numbers in which counting never returns to zero. Also: more ranks than layers raise ValueError; with one rank the grid gains a layer beyond zmax.
* **C47** The halo exchange never deadlocks and delivers the neighbours' layers. transition system of ranks with rendezvous messages; progress and termination by a measure; final state determined; all interleavings. [proved] Machine with rendezvous and optional buffering; bound on every run, no blocked state even without buffering, exact ghost values, everything else unchanged.
* **C48** A distributed run equals the serial run. simulation relation between the rank states and the serial state; induction over steps. [partial] Refuted in part, see below. C48_distributed_partial: for every number of ranks >= 2, every size, material map, schedule, history of field writes and number of steps, with electric walls in x and y, electric or absorbing ends in z (layers thinner than a rank), equal time steps and no write on a wall. Refuted for one rank, whose grid is a layer too long (C48_one_rank_refuted). Refuted for periodic ends of z, which no rank has (C48_periodic_refuted), and for a magnetic end, which the other ranks do not see (C48_magnetic_refuted). Open: absorbing walls in x and y, abc ends, ranks with different time steps.
* **C49** mpi_gather reassembles the global field. index arithmetic of ravel/reshape/concatenate. [partial] C49_gather proves the claim for requests given by None, Python ints and slices within the grid (any z key). Refuted: mpi_gather_asField returns a zero field, not None, on other ranks.
* **C50** A distributed run uses the user's boundary conditions. refuted by evaluation for pml transverse walls. [partial] Refuted: inner ranks replace periodic transverse walls by pec (witness). C50_electric_walls_partial: with electric transverse walls each rank is built with the user's walls.
* **C51** All ranks advance with the same time step. refuted: per-rank minimum of relaxation times. [partial] Refuted: ranks with different conductors get different time steps, a rank without conductor raises ValueError (witnesses). C51_same_dt_partial: non-conductive runs use the serial time step.
* **C52** The longitudinal wake potential is the time-shifted line integral. double sum formula; linearity. [proved] For any recorded file (C52_wake_potential), for whole runs of any built solver up to 100000 steps (C52_run), and linear in the record (C52_linear). Exact arithmetic.
* **C53** Each transverse cell of the 3-D wake potential is its own integral. refuted: accumulator not reset; closed form of what is computed. [partial] Refuted: the accumulator is not reset between cells (witness; C53_second_cell says exactly when a row is wrong). C53_carry_partial gives every row exactly.
* **C54** Transverse wake potential is the Panofsky-Wenzel gradient. summation and difference formula. [proved] Gradient of the integral over the samples before each s, for any WP_3d.
* **C55** Each saved result file holds the quantity in its name. file contents as values; refuted. [partial] Refuted: WPy.txt holds WPx (general formula in C55_files_partial, witness in C55_refuted). WPx.txt is right.
* **C56** The impedance covers 0 to fmax with the requested samples. floor arithmetic; fftfreq mask. [proved] Axis from zero, increasing, equidistant, below fmax, at most `samples` entries; above v/ds the call raises.
* **C57** Field snapshots are read back in time order. zero-padded decimal strings and lexicographic order; proved below 100000, refuted at 100000. [partial] Refuted for every run of more than 100000 steps (C57_long_runs_refuted, C57_long_run_order). C57_order_partial proves the claim up to 100000 steps.
* **C58** The wake solver uses only recorded field snapshots. key counting; refuted by the four/seven mismatch when the time axis is longer than the recorded steps. [partial] Refuted in binary64: np.arange returns one time too many for some dt and dx is integrated as a field (C58_refuted, general consequence C58_long_time_array). Proved in exact arithmetic.
* **C59** Beam and wake solver agree on the injection time. real arithmetic; equal for beta = 1 and default ti; refuted otherwise. [partial] Refuted for beta < 1 with the default injection time (C59_times_refuted); a user-supplied ti never reaches the beam. C59_exact_partial says exactly when the two agree.
* **C60** Result text files round-trip. string functions for header handling. [partial] Refuted: a name without ']' comes back with one (C60_refuted, the documentation's own example; C60_no_bracket in general), equal names lose a column (C60_same_names), fewer than two rows cannot be read (C60_short). C60_roundtrip_partial in all other cases. The number formatter is abstract, with parse-after-print laws, and an instance in TextDemo.
* **C61** A caller-supplied Ez(z,t) matrix is used. refuted: the file handle is None on that path. [partial] Refuted: a supplied matrix never influences the result (general theorem and witness).
* **C62** Charge distributions can be given as documented. refuted: `is dict` compares with the class. [partial] Refuted: every dict raises. Arrays over the z axis work (C62_arrays_partial).
* **C63** The beam drives only its own cell line. frame of a line write; argmin spec. [proved] Nearest line, whole profile, every other entry unchanged.
* **C64** Injected bunch current has the right total charge. real analysis of exp. [proved] Over the reals: total charge by integrating the Gaussian over the line, positivity, single maximum and symmetry about the moving centre.
* **C65** Plane wave E and H have the wave impedance ratio. refuted: ratio is mu0*vp*c/w instead of mu0*vp. [partial] Refuted: E/H is mu0 vp c / w (C65_impedance_refuted). C65_ratio_partial gives the exact ratio and the untouched entries.
* **C66** The Harris pulse is a unit pulse supported in its window. trigonometric identity sin^6; refuted before the delay. [partial] Refuted before the delay (C66_before_delay_refuted). C66_harris_partial: from the delay on, in [0,1], continuous, zero at both ends and after.
* **C67** Field monitors accumulate the discrete Fourier sum. complex numbers as pairs; induction on updates. [proved] Fourier sum over every update for any field; over the reals a sinusoid over whole half-periods gives n/2 A e^(i phi).
* **C68** STEP solids, materials and colours share unique keys. string sanitising; uniqueness from the zero-padded prefix. [partial] Refuted: a file with fewer colours than solids raises IndexError (C68_colours_refuted). C68_keys_partial: keys agree, are distinct, safe and numbered; colours when there are enough of them.
* **C69** Library materials survive the STEP import. refuted with 'lossy metal'. [partial] Refuted: a layer called 'lossy metal' becomes 'lossy-metal', which the library lacks (C69_refuted); solids without layer raise KeyError (C69_unassigned). C69_found_partial for every other library name in any case.
* **C70** Longitudinal wake runs work under MPI. index kind as a type tag (NumPy integer is not int); refuted. [partial] Refuted: AttributeError on rank 0 for every grid and rank count (general theorem and witness).
* **C71** The wake monitor window is inside the grid. slice resolution; refuted at the first cell. [partial] Refuted: at the first cell the window is empty and the run fails (general theorem C71_edges and witness); at the last cell it has two cells. C71_inner_partial for inner cells.
* **C72** Each step obeys Faraday's law on every face. entry-level stencil of the constructed matrices (SolverMaxwell). [proved] No magnetic walls; faces on the last layers of their own two axes have no stored edges and are excluded.
* **C73** Each step obeys Ampere's law on every edge. entry-level stencil of the constructed matrices (SolverMaxwell). [proved] No magnetic walls.
* **C74** A built solver never gets stuck. totality of run on constructed solvers. [proved] 
* **C75** Every documented refinement method gives a usable axis. refuted: one node is moved onto two snaps (empty cell); subdivision reads an unset variable. [partial] Refuted for 'neighbor' with close snaps (witness) and for 'subdivision' (general theorem). C75_neighbor_partial: snaps more than a cell apart are all kept. 'insert' is C14.
* **C76** Transverse wake uses the distance between the sampled cells. [partial] Refuted on graded grids: the first two widths of the grid are used. C76_uniform_partial for equal widths.
* **C77** The record is long enough for every sample of the wake. [partial] Refuted for the last sample when the wake length is not a whole number of steps. C77_covered_partial for every sample at least one step before the end.
* **C78** skip_cells only removes end cells. [partial] Refuted: widths are taken from the start of dz (witness); longitudinal records raise ValueError for every skip (general theorem). C78_own_widths_partial for equal widths.
* **C79** Counter-moving integration weights each cell with its own width. [partial] Refuted on graded grids (witness). C79_mirror_partial for mirror-symmetric widths.
* **C80** The longitudinal potential of a transverse record is taken at its centre. [partial] Refuted: the cell after the centre is used in both directions (C80_next_cell_partial gives the exact value, witness in C80_refuted).
* **C81** The impedance uses the whole wake. [partial] Refuted: samples beyond floor(v/ds/fmax)*samples are ignored (C81_cropped, witness C81_refuted). C81_long_partial and C81_trans_partial for data no longer than the transform.
* **C82** The impedance axis reaches fmax. [partial] Refuted: when fmax exceeds half the sampling rate the axis stops near v/(2 ds). C82_reaches_partial for 2 fmax <= v/ds.
* **C83** A wave packet has its transverse Gaussian in place. [partial] Refuted: ValueError whenever Nx differs from Ny (C83_nonsquare, C83_wide_refuted), transposed otherwise (C83_transposed_refuted). C83_square_partial for equal axes.
* **C84** Sources work with their documented defaults. [partial] Refuted: TypeError for every omitted frequency (C84_defaults, C84_refuted).
* **C85** A Pulse with default length injects something. [partial] Refuted: with c > 50 the default window ends before the first step (C85_default, C85_refuted).
* **C86** A source object can be used with another solver. [partial] Refuted: the indices of the first grid are kept (C86_reuse_refuted). C86_same_grid_partial: reuse on the same grid is safe.
* **C87** All ranks inject the same bunch. [proved] Uniform z axis, same axes on all ranks, as the code lays them out.
* **C88** Dipole and Pulse touch only the selected component and cells. [proved] For all index keys, fields and components.
* **C89** During a run J is the beam current. [proved] By induction on the steps, without absorbing walls between steps.
* **C90** Beam current adds to conduction current. [partial] Refuted: the beam overwrites the conduction current (C90_conduction_lost_refuted).
* **C91** A solid has the material of its layer. [proved] For all lists of lines.
* **C92** Field monitor and recorded file agree on the time of each field. [partial] Refuted: the monitor sees the field one step later (C92_refuted). C92_one_step_late_partial gives the exact sum it accumulates.
* **C93** Loading results restores what a solve saved. [partial] Refuted: WPy comes back as WPx (C93_refuted); longitudinal runs cannot be loaded (C93_longitudinal). C93_both_partial: everything else for runs of both planes.
* **C94** Refinement keeps the snap points. [partial] Refuted for snap points given by the caller: the construction always fails (C94_given_snaps_fail, C94_given_snaps_refuted), also with no solids at all (C94_no_solids_fail). C94_solids_partial for snap points taken from solids with method 'insert'.
* **C95** Arguments given once apply to every solid. [partial] Refuted for a single colour string, which stays a string (C95_one_colour_refuted). Everything else: C95_same_for_all, C95_colour_list, C95_short_list, C95_missing_entry_fails.
* **C96** Equal materials get equal automatic colours. [partial] Refuted: 'PEC' and 'pec', or float('inf') and np.inf, are the same material for the solver but get different colours (C96_same_material_refuted). C96_every_solid and C96_same_material_partial hold.
* **C97** Placing a solid is a similarity. [proved] Over the reals, with pyvista's rotations by degrees about the axes through the origin.
* **C98** The axes are those the caller asked for. [partial] Refuted: a single custom axis given with extents is ignored (C98_one_axis_refuted); with MPI the refined z axis is replaced by a uniform one (C98_mpi_uniform). C98_extents, C98_custom, C98_incomplete hold.
* **C99** STEP files are scaled to metres. [partial] Refuted for other prefixes (.MICRO.), for a definition after the first 10000 characters, and for metres written '$' ahead of another definition (C99_refuted). C99_prefix_partial for MILLI, CENTI, DECI, KILO and none; C99_none without a definition.
* **C100** Impedance from wake is its Fourier transform. [partial] Refuted for constants, which come out doubled (C100_constant_doubled), for zero tails (C100_tail_refuted), and with fmax for components above it, which appear at other frequencies (C100_alias_refuted). C100_values and C100_harmonic hold without fmax; C100_fmax: with fmax the result is that of the wake resampled every 1/(2 fmax).
* **C101** Wake from impedance inverts it. [partial] Refuted (C101_roundtrip_refuted): the result is reversed in time, negated, and lacks the mean. C101_exact_partial gives the exact relation for every wake.
* **C102** The line charge is the one given. [partial] Refuted for dicts, which always fail (C102_dict_fails, C102_dict_refuted), and outside the axis (C102_outside_refuted). C102_array and C102_analytic hold.
* **C103** Every solid of a STEP file is exported once. [partial] Refuted when objects and declarations differ in number (C103_refuted). C103_files otherwise, with the exact failure.
* **C104** Conductor intersections are the nearest boundary points. [partial] Refuted for InCircle with different centre coordinates, which exchanges them (C104_in_circle_refuted); C104_in_circle_partial for equal ones. C104_plane, C104_rect, C104_out_circle, C104_assembly hold.
* **C105** Edges of the 2D grid have the length of their free part. [partial] Refuted for circles: the nearest boundary point may lie beyond the edge (C105_circle_refuted). C105_plane for every line; C105_rect for rectangles more than two cells wide and high.
* **C106** Cells of the 2D grid have the area of their free part. [partial] Refuted at the corner of a rectangle, where half the free area is stored (C106_rect_refuted). C106_plane holds for every line and cell.
* **C107** Unstable cells are marked independently of the length unit. [partial] Refuted: S is relative and S_stab is not, so scaling changes the flags (C107_refuted). C107_partial: with dx dy <= 1 the flagged cells are small.
* **C108** Enlarged cells are built whenever they are needed. [partial] Refuted in general form by C108_ect: S_red is zero throughout, so no cell is ever extended, and construction raises as soon as one cell is unstable.
* **C109** The plain 2D scheme keeps its energy and stays bounded. [proved] C109_energy over every field; C109_bounded over the reals with the solver's own time step. Without absorbing walls.
* **C110** The Dey-Mittra scheme stays bounded at the default time step. [partial] Refuted: areas are relative to the cell, so the scheme depends on the unit of length; with cells of area 25 the field grows fourfold per step (C110_refuted). C110_energy for all conductors; bounded without conductors and with dx dy <= 1 (C110_bounded_partial, C110_free).
* **C111** The enlarged-cell scheme agrees with Dey-Mittra where no cell is extended. [proved] C111_ect: equal fields on every grid built for ECT (none of which has an extended cell, C108).
* **C112** Every choice of absorbing walls is set up completely in 2D. [partial] Refuted: five of the sixteen choices raise AttributeError (C112_fails), one leaves a corner block without coefficients (C112_refuted). C112_complete_partial for the other ten.
* **C113** Reading CST exports reproduces the exported field. [partial] Refuted for fewer points in x than in y (values overwritten without error, C113_rectangular_refuted) and for a later file that is cut short (keeps the values of the previous file, C113_short_file_refuted). C113_square_partial for n x n x m points and any number of files; C113_names_partial for the order of up to 100000 datasets.
* **C114** Saving the log keeps every value. [partial] Refuted: an array of complex numbers raises and cuts the file (C114_complex_refuted); a folder in a missing folder is not created (C114_nested_folder_refuted). C114_written_partial for every other log; C114_no_folder_fails.
* **C115** The log records the parameters of the simulation. [partial] Refuted: counts are those before refinement (C115_refined_refuted), the time step the one before the limit of the relaxation time (C115_dt_refuted). C115_grid_partial without refinement and MPI; C115_solids for materials and placement with every argument; C115_solver_partial for every solver.
* **C116** plot2D shows every cell of the plane at its place. [partial] Refuted on a mesh that is not uniform (boxes C116_graded_refuted, title C116_graded_title_refuted) and for planes given as slices (C116_slices_refuted); pos=1 always raises (C116_end_fails), so does any other plane name (C116_unknown_names). C116_values_partial for the values on every mesh, C116_place_partial for the boxes on a uniform mesh, C116_solid for the overlay.
* **C117** plot1D draws the values at the centres of the cells. [partial] Refuted for more than seven positions (C117_eight_refuted, C117_eight_fail), field='EAbs' (C117_abs_refuted) and pos=1 (C117_end_refuted). C117_curves_partial for up to seven positions below 1 on a named line; a line given as slices is not modelled.
* **C118** The default time step stays stable on graded meshes with solids, conductors and absorbing layers. [partial] Refuted for conductors with cfln**2 above 1/2: the loss is taken explicitly and the limit by the relaxation time alone does not suffice (C118_conductor_refuted, growth by 1.24 per step). C118_bounded_partial: bounded for cfln < 1 without conductivity and for 2*cfln**2 < 1 with it, on every graded mesh, with solids, conductors and pml.
* **C119** Each wall acts on its own field only. [partial] Refuted: as soon as one wall is magnetic, tangential H is held on the electric walls too (C119_electric_wall_refuted). C119_faraday and C119_ampere give the exact law for every combination of walls.
* **C120** The conductors of the 3D legacy code report true crossings. [partial] Refuted: spheres off the origin along the line (C120_sphere_refuted), out_conductor of a ball, which calls itself for ever (C120_out_refuted), a missed sphere listed first in an assembly hides the others (C120_assembly_refuted). C120_plane and C120_cube in full; C120_sphere_partial for centre 0 along the line; C120_assembly_partial gives the nearest crossing among the members before the first nan; C120_out_partial for the other shapes.
* **C121** Edge lengths of the 3D grid are the free lengths. [partial] Refuted: dz is the y extent over nz, so a box with another z extent gets wrong edges (C121_refuted). C121_built_partial for equal y and z extents with planes, boxes of more than two cells and no conductor; C121_sphere_partial for balls and cavities about the origin.
* **C122** Face fractions of the 3D grid are the free areas. [partial] Refuted at the corner of a box (C122_cube_refuted). C122_plane_partial for every plane when the y and z extents agree, in all three orientations.
* **C123** The 3D legacy FDTD scheme keeps its energy and stays bounded. [proved] Without absorbing walls, for every conductor: only the cells and edges that are updated enter, whatever the grid says.
* **C124** Without conductors the Dey-Mittra scheme of EMSolver3D is the plain scheme, and is as stable. [partial] Refuted: areas are stored as fractions but used as areas, so on cubes of side 5 the field grows fourfold in every step (C124_refuted). C124_face: each half step of H is off by the area of a face; C124_free: on cubes the plain scheme with mu over the area of a face; C124_bounded_partial when cfln times the side is below 1; C124_energy: with any conductor the scheme keeps an energy of its own.
* **C125** Absorbing walls of EMSolver3D are complete. [partial] Refuted: a corner at the unset z side (C125_missing_refuted, AttributeError), high y with a z wall but no low y (C125_size_refuted, IndexError), blocks of the wrong thickness (C125_thick_refuted), corners without conductivity (C125_corner_refuted), high x and z walls scaled with dy (C125_mirror_refuted). C125_setup_partial for all other choices of walls, layers and sizes.
* **C126** EMSolver3D can step with every sol_type it accepts. [partial] Refuted for 'ECT', whose step calls a method that does not exist (C126_ect_refuted). C126_partial for 'FDTD', 'DM' and rejected names.
* **C127** The fields on the two sides of an absorbing wall agree. [partial] Refuted: a current on the wall enters the field of the grid only (C127_current_refuted); 'DM' divides by dy along x too (C127_dm_refuted). C127_fdtd_partial and C127_dm_partial (square cells) for all walls that can be built, all conductors and all currents off the walls.
* **C128** An absorbing wall does not touch the fields it cannot have reached. [proved] For every choice of walls for which the constructor returns, both schemes, every conductor and every arithmetic.
* **C129** Conductors stay without field when walls absorb. [partial] Refuted on the edges of an absorbing wall (C129_wall_refuted): they are updated whether or not they lie in a conductor. C129_inside_partial for all other edges and all cells.
* **C130** Absorbing walls at opposite sides are mirror images. [partial] Refuted on square cells without conductors (C130_refuted). C130_layers_partial: the cells of opposite walls have the same conductivity up to dx against dy, but every edge behind the first takes more on the high wall.
* **C131** Absorbing walls never add energy. [partial] C131_uniform_partial: one absorbing low x wall of at least two layers, no conductors, fields that do not vary along the wall, any number of steps. Not shown: fields that vary along the wall, several walls, conductors.
* **C132** Grid and absorbing layers are one larger grid. [proved] The fields of the larger grid are given, follow the equations from zero, and after every step the grid and each block hold their part of them. The high x wall takes dy where the low one takes dx (C130).
* **C133** Solids keep their material inside the absorbing layers. [partial] Refuted: every cell of a layer takes the permittivity of the reference cell, so a plate of perfect conductor stops being one where it enters the layer (C133_layers_refuted, E moves there); and when the reference cell is a conductor in a lossless box the constructor fails (C133_conductor_behind_refuted). C133_permittivity_partial gives the permittivity of every cell of every layer, C133_same_material_partial the case in which the solid also covers the reference cell, C133_dead_layer the layer behind a conductor, where E never changes.
* **C134** The resonator fit sees the impedance it is asked to fit. [partial] Refuted in three parts (C134_fit_refuted): the bound finder is called with None for both data, so its bounds never depend on the impedance (general: C134_bounds_blind); data are ignored when only one of the two arrays is given; an optimiser name other than 'DE' and 'CMAES' runs no optimiser. C134_data_partial: with bounds given the fit gets the right data; C134_optimiser_partial: with a known name the optimiser runs once with the settings given. iddefix is a parameter.
* **C135** The extrapolated wake continues the computed one. [partial] Refuted for beta below 1, where the time is s/c (C135_beta_refuted). C135_extrapolated_partial, over the reals: distances, their number, values for beta = 1, and agreement with every sample of an equidistant computed wake; C135_errors: before a fit and with fewer than three samples it raises.
* **C136** The gathered grid is the grid of the serial run. [partial] Refuted twice: the refinement options are not handed on, so a refined grid comes back with equal cells and without the snapped nodes (C136_refined_refuted; general: C136_gathered), and a number of layers that is not a multiple of the number of ranks comes back rounded down (C136_layers_refuted). C136_serial_partial: without refinement the gathered grid is the serial one with that many layers, in all its parts; C136_tiles_partial: it has the nodes of every tile; C136_other_ranks: None elsewhere, AttributeError without MPI.
* **C137** Renaming CST exports loses no field. [partial] Refuted: two exports of the same time in different notation (1.5E-02 and 15E-03) get the same name and the later one silently replaces the earlier (C137_overwrite_refuted); a prefix with an underscore stops the reading with ValueError (C137_underscore). C137_renamed_partial: when the new names are different from each other and from the names of the other exports, every export is found under its time with its content, with the .old copy, and no other .txt file appears. float() and str() are parameters; str() of the times must read back and hold no underscore and no capital E.

## 4. What is modelled

| source | model | modelled | not modelled |
|--------|-------|----------|--------------|
| field.py | FieldModel.v | construction, component views, indexing and assignment, array and matrix conversion, arithmetic, copy, compute_ijk, get_abs | GPU transfers, repr, plots; boolean and fancy indices |
| gridFIT3D.py | GridModel.v, GridFileModel.v, GridInitModel.v, GatherModel.v, MpiSolverModel.v | arguments, axes, primal and dual metrics, tiles of ranks, the gathered grid, STL dictionaries, placement, snap points, refinement around the optimiser, masks, colours, save and load | plots, logging; pyvista and scipy are parameters |
| solverFIT3D.py | SolverModel.v, RoutinesModel.v, MpiModel.v, MpiSolverModel.v | construction, matrices, boundary conditions, pml conductivities, materials, tensors, time step, one step with and without conductivity and absorbing walls, state files, reset, distributed step, halo exchange, gathering | MKL and GPU variants of the same products, printing, logging |
| materials.py | SolverModel.v, GridInitModel.v | the library and its colours | |
| routines.py | RoutinesModel.v, WakeModel.v, MonitorModel.v | emsolve, wakesolve with recording, sources, callbacks, monitors | plots, progress bars |
| sources.py | SourceModel.v | beam, plane wave, wave packet, dipole, pulse with its three profiles | plots |
| field_monitors.py | MonitorModel.v | construction, update | cupy |
| wakeSolver.py | WakeModel.v, WakeZ.v, FftModel.v, TextModel.v, CstModel.v, CstNameModel.v, FitModel.v | wake potentials, impedances, charge distributions, conversions, reading the recorded field, text files, loading results, reading and renaming CST exports, what the resonator fit is called with, extrapolated wake | the package iddefix (a parameter of get_SmartBounds, get_DEmodel_fitting, get_extrapolated_*), update_long_WP, log |
| geometry.py | GeomModel.v, GeomUnitModel.v | names, materials, colours, solids of STEP files, unit, export | cadquery is a parameter |
| conductors.py, grid2D.py | Grid2DModel.v | conductors, edges, areas, marks, extension by one and by eight cells | ImpFunc, extension by four cells (never reached) |
| solver2D.py | Solver2DModel.v | the three schemes without absorbing walls, construction and linking of absorbing blocks; with absorbing walls in Pml2DModel.v for 'FDTD' and 'DM' | 'ECT' with absorbing walls, gauss |
| logger.py | LogModel.v | save_logs, the values put into the log by grid and solver | times, the characters of the text |
| plotting.py | PlotModel.v | arrays, extents, axes and positions of plot2D and plot1D without MPI | the other plots, colours, files, lines given as slices |
| conductors3d.py, grid3D.py | Grid3DModel.v | conductors, edges, areas and marks of the three families of planes, extensions per plane | ImpFunc, the arrays for sol_type 'FIT' (249-305) |
| solver3D.py, pmlBlock3D.py | Solver3DModel.v | time step, 'FDTD' and 'DM' without absorbing walls, one_step, check of sol_type, creation and conductivities of the absorbing blocks | fields inside the blocks and update_e_boundary, plots |
| pmlBlock2D.py | Pml2DModel.v | the fields of the blocks, their steps, the conductivities and the exchange with grid and neighbours | plots |

Simplifications, beyond those named at each definition:

* Numbers are exact: no rounding, overflow or nan.  WakeFloat.v is the exception: one property (C58) is
  refuted with binary64 arithmetic.  Division by zero gives some value; theorems exclude it.
* The FFT is its defining sum.  The text format of numbers is a parameter with the law that reading
  undoes writing.  savetxt and loadtxt are used with the default arguments only.
* HDF5 files are association lists with keys listed by name.  Files with fewer than four data sets are not
  distinguished from those the code can index.
* A longitudinal `hf["x"]`, a scalar in the file, is a list of one value.
* STEP text is Latin-1; `int()` accepts plain digits only.
* Runs with sources on a distributed grid (C89) have no absorbing walls between steps.
* Legacy 2D code: the number of absorbing layers is positive.

## 5. Trusted base

* Coq's kernel, 8.16.1.  No kernel check is switched off; no axiom, parameter, functor or module type is declared.
* The axioms of the standard library listed below: those of the real numbers
  (`sig_forall_dec`, `sig_not_dec`), `functional_extensionality_dep`, and `classic`.
  Libraries used: the standard library and Coquelicot (integrals and limits), the latter without axioms of its own.
* The reading of /repo that produced the model files, and of the libraries it calls (NumPy, SciPy sparse,
  h5py, mpi4py) where the model states what they do.
* The English statements of properties.jsonl against the theorem statements.

Mutation testing of the theorems is recorded in seeded/LOG.jsonl: each line is one wrong version of a definition,
the claim it breaks, and the theorems that no longer prove.

### Axioms, theorem by theorem (output of Print Assumptions)

* No axiom ("Closed under the global context"), 261 theorems: every theorem of the manifest not named below.
* `sig_forall_dec`, `functional_extensionality_dep` (44 theorems): C11_primal_metrics, C11_uniform_axis, C12_dual_metrics, C13_dual_index_partial, C14_insert_partial, C14_too_many_snaps, C66_rectangular, C75_neighbor_partial, C104_plane, C104_rect, C104_assembly, C105_plane, C105_rect, C105_built, C106_rect_refuted, C110_free, C115_solids, C115_solver_partial, C116_values_partial, C116_place_partial, C116_solid, C116_end_fails, C116_unknown_names, C117_curves_partial, C117_eight_fail, C120_plane, C120_cube, C120_assembly_partial, C121_built_partial, C121_refuted, C122_cube_refuted, C124_face, C124_free, C125_setup_partial, C125_missing_refuted, C125_size_refuted, C125_thick_refuted, C125_corner_refuted, C125_mirror_refuted, C126_partial, C126_ect_refuted, C127_fdtd_partial, C127_dm_partial, C135_extrapolated_partial.
* `sig_forall_dec`, `sig_not_dec`, `functional_extensionality_dep` (36 theorems): C09_abs, C66_harris_partial, C67_sinusoid, C81_long_partial, C81_trans_partial, C81_cropped, C81_refuted, C85_default, C97_placement, C97_masks, C98_extents, C100_fmax, C100_alias_refuted, C100_values, C100_harmonic, C100_constant_doubled, C100_tail_refuted, C101_exact_partial, C101_roundtrip_refuted, C104_out_circle, C104_in_circle_partial, C104_in_circle_refuted, C105_circle_refuted, C109_bounded, C110_bounded_partial, C110_refuted, C115_grid_partial, C120_sphere_partial, C120_sphere_refuted, C120_assembly_refuted, C120_out_partial, C120_out_refuted, C121_sphere_partial, C123_bounded, C124_bounded_partial, C124_refuted.
* `sig_forall_dec`, `sig_not_dec`, `classic`, `functional_extensionality_dep` (31 theorems): C19_damping, C20_electric_box_partial, C20_other_walls_partial, C20_magnetic_wall_refuted, C33_time_step, C34_pml_partial, C35_graded, C36_mirror_partial, C36_mirror_refuted, C59_exact_partial, C59_times_refuted, C64_bunch, C65_impedance_refuted, C66_gaussian, C66_before_delay_refuted, C83_transposed_refuted, C83_wide_refuted, C84_refuted, C85_refuted, C86_reuse_refuted, C102_analytic, C106_plane, C107_partial, C118_bounded_partial, C118_conductor_refuted, C122_plane_partial, C127_current_refuted, C127_dm_refuted, C130_layers_partial, C131_uniform_partial, C132_one_grid.
