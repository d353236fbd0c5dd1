{"id": "C01", "title": "A cell write is seen at that cell and nowhere else", "statement": "For a Field of any size, after `F[i,j,k,c] = v` with in-range indices (negative Python indices included), reading `F[i,j,k,c]` returns v, and every other (i',j',k',c') reads exactly what it read before; the flat array entry that changed is i + j*Nx + k*Nx*Ny + c*Nx*Ny*Nz.", "quantifier": "all sizes, all array contents, all in-range (possibly negative) index triples, all components given as 0/1/2 or 'x'/'y'/'z'", "why_tests_cant": "tests read a handful of cells of one small field; an aliasing or stride error for another shape goes unseen", "anchors": ["wakis/field.py:Field.__getitem__", "wakis/field.py:Field.__setitem__", "wakis/field.py:Field.to_matrix", "wakis/field.py:Field.from_matrix"]}
{"id": "C02", "title": "Matrix and array round trips lose nothing", "statement": "Writing a component from a 3-D matrix and reading it back gives the same matrix, leaves the other two components unchanged, and re-writing what was read is a no-op; the same for the flat array. An array of the wrong size is rejected.", "quantifier": "all sizes, all contents, all matrices, all components", "why_tests_cant": "round trips are laws over all inputs and shapes; tests check one ordering of one shape", "anchors": ["wakis/field.py:Field.to_matrix", "wakis/field.py:Field.from_matrix", "wakis/field.py:Field.toarray", "wakis/field.py:Field.fromarray"]}
{"id": "C03", "title": "A slice write changes exactly the selected cells", "statement": "`F[a:b, c:d, e:f, comp] = v` (any mix of integers and slices, Python clipping and negative rules) gives every selected cell its assigned value and leaves every unselected cell and every other component unchanged; an out-of-range integer index is rejected and nothing changes.", "quantifier": "all sizes, contents, slices, scalar or array right-hand sides", "why_tests_cant": "the space of slices and shapes is unbounded; frame conditions are never asserted by sample tests", "anchors": ["wakis/field.py:Field.__setitem__"]}
{"id": "C04", "title": "compute_ijk inverts the flat index", "statement": "For every flat index n < N, compute_ijk(n) returns the unique in-range (i,j,k) with n = i + j*Nx + k*Nx*Ny, and any in-range (i,j,k) is recovered from its flat index.", "quantifier": "all sizes and all flat indices", "why_tests_cant": "exhaustive only for one size at a time", "anchors": ["wakis/field.py:Field.compute_ijk"]}
{"id": "C05", "title": "Integer keys address the flat array and nothing else", "statement": "An integer key is accepted exactly when it names an entry of the flat array, and then reads/writes that entry; compute_ijk accepts exactly the indices that name a cell.", "quantifier": "all sizes and integer keys", "why_tests_cant": "off-by-one guards at the boundary of every size; tests never probe key == N or N < key < 3N", "anchors": ["wakis/field.py:Field.__getitem__", "wakis/field.py:Field.__setitem__", "wakis/field.py:Field.compute_ijk"]}
{"id": "C06", "title": "Field arithmetic acts cell by cell", "statement": "Multiplying a field by a number or a matrix, and adding a field or a matrix to it, yields a new field whose every cell/component is the product/sum of the operands' cells, the operands being unchanged.", "quantifier": "all sizes, contents, scalars, matrices and fields", "why_tests_cant": "algebraic law over all inputs", "anchors": ["wakis/field.py:Field.__mul__", "wakis/field.py:Field.__add__"]}
{"id": "C07", "title": "Rejected keys leave the field unchanged", "statement": "A tuple of the wrong length, an unknown component, an out-of-range index or a key of another type raises, and the field contents are exactly what they were.", "quantifier": "all fields and all malformed keys", "why_tests_cant": "the set of malformed keys is unbounded", "anchors": ["wakis/field.py:Field.__getitem__", "wakis/field.py:Field.__setitem__", "wakis/field.py:Field.from_matrix"]}
{"id": "C08", "title": "A copied field is independent", "statement": "After G = F.copy(), any sequence of writes to G leaves every read of F unchanged and conversely; G initially reads as F everywhere.", "quantifier": "all fields and all later write sequences", "why_tests_cant": "independence is over all future histories", "anchors": ["wakis/field.py:Field.copy"]}
{"id": "C09", "title": "Field magnitude is the Euclidean norm per cell", "statement": "Reading component 'Abs' (any letter case) gives at every cell a non-negative number whose square is the sum of squares of the three components; it is zero exactly where the field vanishes.", "quantifier": "all sizes, contents and cells", "why_tests_cant": "law over all reals", "anchors": ["wakis/field.py:Field.get_abs", "wakis/field.py:Field.__getitem__"]}
{"id": "C10", "title": "Documented scalar operands are supported", "statement": "Adding a Python number to a field, and dividing a field by one, return the cell-wise result, as the docstrings say.", "quantifier": "all fields and Python numbers", "why_tests_cant": "never exercised by tests; holds or fails for every scalar at once", "anchors": ["wakis/field.py:Field.__div__", "wakis/field.py:Field.__add__"]}
{"id": "C11", "title": "Primal grid metrics are exact", "statement": "For strictly increasing axes, the cell sizes are positive and sum to the domain extent in each direction, the edge length stored at (i,j,k) is the size of that cell along that axis, and the stored inverse face area times the product of the two transverse cell sizes is 1.", "quantifier": "all strictly increasing axes of any length", "why_tests_cant": "law over all grids", "anchors": ["wakis/gridFIT3D.py:GridFIT3D._compute_grid"]}
{"id": "C12", "title": "Dual grid metrics are the half-cell sums, and vanish only on the high face", "statement": "The dual length at index i is half the sum of cells i and i+1 and 0 at the last index; the dual inverse area is 0 exactly on the last layer of one of its two transverse axes and otherwise the reciprocal of the product of dual lengths.", "quantifier": "all strictly increasing axes", "why_tests_cant": "law over all grids", "anchors": ["wakis/gridFIT3D.py:GridFIT3D._compute_grid"]}
{"id": "C13", "title": "Dual edges join the centres of the two cells that meet at the node", "statement": "For every grid accepted by the constructor, the dual length associated with node i (used to update fields living at node i) is the distance between the centres of cells i-1 and i.", "quantifier": "all strictly increasing axes, uniform or not", "why_tests_cant": "tests use uniform grids only, where the shifted index cannot be noticed", "anchors": ["wakis/gridFIT3D.py:GridFIT3D._compute_grid", "wakis/solverFIT3D.py:SolverFIT3D.__init__"]}
{"id": "C14", "title": "Axis refinement by insertion keeps the requested snap points", "statement": "With method 'insert' the initial axis handed to the optimiser is strictly increasing, contains every snap point and both domain bounds, and has at most Nx points.", "quantifier": "all snap sets and sizes", "why_tests_cant": "set-valued law", "anchors": ["wakis/gridFIT3D.py:GridFIT3D.refine_axis"]}
{"id": "C15", "title": "Saving and reloading a grid preserves the material map", "statement": "Saving a grid to HDF5 and loading it gives a grid for which the solver assigns the same material to every cell.", "quantifier": "all grids, solids and materials", "why_tests_cant": "depends on dictionary order and overlap; never tested", "anchors": ["wakis/gridFIT3D.py:GridFIT3D.save_to_h5", "wakis/gridFIT3D.py:GridFIT3D.load_from_h5", "wakis/solverFIT3D.py:SolverFIT3D._apply_stl_materials"]}
{"id": "C16", "title": "Magnetic flux out of every cell is conserved", "statement": "For any grid, materials, sources and time step, and for any mix of periodic, electric/pec/pml, abc-metric or absent boundaries (no magnetic walls), the total magnetic flux mu*A*H leaving each cell is the same after any number of steps as before.", "quantifier": "all grids, material maps, boundary mixes, source histories, step counts and initial fields", "why_tests_cant": "an invariant over unbounded histories", "anchors": ["wakis/solverFIT3D.py:SolverFIT3D._one_step", "wakis/solverFIT3D.py:SolverFIT3D._apply_bc_to_C"]}
{"id": "C17", "title": "Charge continuity", "statement": "At every interior dual cell (touching no masked or frozen edge), one step changes the enclosed electric flux by exactly minus dt times the net current leaving it.", "quantifier": "all grids, materials, fields, currents and steps", "why_tests_cant": "algebraic law over all states", "anchors": ["wakis/solverFIT3D.py:SolverFIT3D._one_step"]}
{"id": "C18", "title": "Lossless source-free runs conserve the discrete energy exactly", "statement": "With no current and no conductivity, the leapfrog energy (electric energy plus the product of two consecutive magnetic fields) is the same at every step, for any positive materials and metrics and any boundary masks, provided edges the solver cannot update hold zero field or are masked walls.", "quantifier": "all grids, materials, boundaries, initial fields, step counts", "why_tests_cant": "exact invariant for unbounded time", "anchors": ["wakis/solverFIT3D.py:SolverFIT3D._one_step"]}
{"id": "C19", "title": "Conductors damp and never amplify", "statement": "In a cell with conductivity whose dt respects the relaxation bound, the conduction part of the E update multiplies E by a factor in [0,1).", "quantifier": "all sigma, eps, dt satisfying the constructor's bound", "why_tests_cant": "inequality over all reals", "anchors": ["wakis/solverFIT3D.py:SolverFIT3D.__init__", "wakis/solverFIT3D.py:SolverFIT3D._one_step"]}
{"id": "C20", "title": "The default time step is stable", "statement": "On a uniform grid with homogeneous non-conductive background, dt computed from cfln < 1 keeps E and H bounded, for all time, by a constant multiple of their initial size.", "quantifier": "all sizes, cell sizes, initial fields, numbers of steps", "why_tests_cant": "stability is a statement about unbounded time and all data", "anchors": ["wakis/solverFIT3D.py:SolverFIT3D.__init__", "wakis/solverFIT3D.py:SolverFIT3D._one_step"]}
{"id": "C21", "title": "Superposition", "statement": "Running the solver n steps on a linear combination of initial fields and of impressed currents gives the same linear combination of the two runs.", "quantifier": "all grids, materials, boundaries, n, fields, source histories, coefficients", "why_tests_cant": "law over all inputs and histories", "anchors": ["wakis/solverFIT3D.py:SolverFIT3D._one_step"]}
{"id": "C22", "title": "Silence stays silent", "statement": "With zero fields and no source the fields remain exactly zero after any number of steps.", "quantifier": "all configurations and step counts", "why_tests_cant": "unbounded histories", "anchors": ["wakis/solverFIT3D.py:SolverFIT3D._one_step"]}
{"id": "C23", "title": "Finite propagation speed", "statement": "In a fully electric (pec) box, after n steps the fields at a cell depend only on initial values and currents at cells within n index steps along each axis.", "quantifier": "all sizes, materials, n, fields", "why_tests_cant": "universally quantified over far-away data", "anchors": ["wakis/solverFIT3D.py:SolverFIT3D._one_step", "wakis/solverFIT3D.py:SolverFIT3D._apply_bc_to_C"]}
{"id": "C24", "title": "PEC walls hold tangential E at zero", "statement": "With all six walls electric/pec (or pml) and no impressed current on the walls, tangential E that starts at zero on a wall is zero after every step.", "quantifier": "all sizes, materials, fields, steps", "why_tests_cant": "invariant over unbounded histories", "anchors": ["wakis/solverFIT3D.py:SolverFIT3D._apply_bc_to_C", "wakis/solverFIT3D.py:SolverFIT3D._one_step"]}
{"id": "C25", "title": "A PEC wall acts as PEC regardless of the other walls", "statement": "Whatever the other boundaries are, every tangential E component on a wall declared electric stays zero.", "quantifier": "all boundary combinations, sizes and cells of the wall", "why_tests_cant": "the failing cells are edges of mixed-boundary boxes", "anchors": ["wakis/solverFIT3D.py:SolverFIT3D._apply_bc_to_C"]}
{"id": "C26", "title": "Field inside perfect conductors is frozen", "statement": "In cells covered by a solid of material 'pec' E never changes, so it stays zero if it started at zero.", "quantifier": "all grids, solids, fields, sources, steps", "why_tests_cant": "invariant over histories", "anchors": ["wakis/solverFIT3D.py:SolverFIT3D._apply_stl_materials", "wakis/solverFIT3D.py:SolverFIT3D._one_step"]}
{"id": "C27", "title": "Periodic boundaries identify opposite faces", "statement": "With periodic x boundaries, the update at the last x layer couples to the first x layer of the same row (same j,k).", "quantifier": "all sizes and cells", "why_tests_cant": "geometric law for all cells", "anchors": ["wakis/solverFIT3D.py:SolverFIT3D._apply_bc_to_C", "wakis/solverFIT3D.py:SolverFIT3D.__init__"]}
{"id": "C28", "title": "PMC walls freeze tangential H", "statement": "With all six walls 'magnetic' (or 'pmc'), tangential H on the walls never changes.", "quantifier": "all sizes, materials, steps, fields", "why_tests_cant": "invariant over histories", "anchors": ["wakis/solverFIT3D.py:SolverFIT3D._apply_bc_to_C"]}
{"id": "C29", "title": "Boundary names are case-insensitive", "statement": "Changing the letter case of any boundary name does not change the simulation.", "quantifier": "all boundary triples and case variants", "why_tests_cant": "all case variants of all names", "anchors": ["wakis/solverFIT3D.py:SolverFIT3D._apply_bc_to_C"]}
{"id": "C30", "title": "Building a solver does not alter the grid it was given", "statement": "Constructing a solver leaves the grid's metrics unchanged, so a second solver built on the same grid object equals one built on a fresh grid.", "quantifier": "all grids, boundary combinations, construction sequences", "why_tests_cant": "history-dependent aliasing", "anchors": ["wakis/solverFIT3D.py:SolverFIT3D.__init__", "wakis/solverFIT3D.py:SolverFIT3D._apply_bc_to_C"]}
{"id": "C31", "title": "The last solid covering a cell decides its permittivity and permeability", "statement": "Each cell has the inverse permittivity and permeability of the last solid (in dictionary order) whose mask contains it, or of the background; the mask value used for cell (i,j,k) is the one marked for that cell.", "quantifier": "all solids, masks, overlaps, materials", "why_tests_cant": "all overlap patterns", "anchors": ["wakis/solverFIT3D.py:SolverFIT3D._apply_stl_materials"]}
{"id": "C32", "title": "The last solid covering a cell decides its conductivity", "statement": "Each cell has the conductivity of the last solid covering it (zero if that material has none), or of the background.", "quantifier": "all solids, masks, overlaps, materials", "why_tests_cant": "all overlap patterns", "anchors": ["wakis/solverFIT3D.py:SolverFIT3D._apply_stl_materials"]}
{"id": "C33", "title": "The time step obeys both the CFL and the relaxation bounds", "statement": "When dt is computed, dt^2*c^2*(1/dx^2+1/dy^2+1/dz^2) <= cfln^2 for every combination of cell sizes in the grid, and in conductive runs dt*sigma/eps <= 1 in every conductive non-PEC cell.", "quantifier": "all grids, cfln, materials", "why_tests_cant": "inequality over all cells of all grids", "anchors": ["wakis/solverFIT3D.py:SolverFIT3D.__init__"]}
{"id": "C34", "title": "Every conductive configuration can be constructed", "statement": "A solver with a three-entry material or a pml wall is built without error for every grid.", "quantifier": "all materials, grids, boundaries", "why_tests_cant": "crash only for particular value/mask combinations", "anchors": ["wakis/solverFIT3D.py:SolverFIT3D.__init__"]}
{"id": "C35", "title": "PML layers have a graded positive conductivity and leave the interior alone", "statement": "With pml walls and 2*n_pml+2 <= cells per axis, conductivity in each layer is the reference value plus a positive geometric profile that strictly increases toward the wall, and cells outside the layers keep their materials.", "quantifier": "all sizes, n_pml, materials", "why_tests_cant": "profile and frame law for all sizes", "anchors": ["wakis/solverFIT3D.py:SolverFIT3D._fill_pml_sigmas"]}
{"id": "C36", "title": "PML is mirror symmetric", "statement": "On a mirror-symmetric material map, low and high pml walls receive mirror-image conductivity and permittivity.", "quantifier": "all sizes and mirror-symmetric materials", "why_tests_cant": "needs materials varying next to the layer", "anchors": ["wakis/solverFIT3D.py:SolverFIT3D._fill_pml_sigmas"]}
{"id": "C37", "title": "A lossless step can be undone", "statement": "With no conductivity, the map (E,H) -> (E',H') of one step with a known current is a bijection, with the explicit inverse obtained by running the two updates backwards.", "quantifier": "all configurations and states", "why_tests_cant": "bijectivity over all states", "anchors": ["wakis/solverFIT3D.py:SolverFIT3D._one_step"]}
{"id": "C38", "title": "ABC walls restore the snapshot taken before the step", "statement": "With abc boundaries, the wall layer after the step holds the values saved before the step from the documented layer, for any combination of abc faces.", "quantifier": "all sizes, boundary combinations, fields", "why_tests_cant": "aliasing between snapshot and live array", "anchors": ["wakis/solverFIT3D.py:SolverFIT3D.get_abc", "wakis/solverFIT3D.py:SolverFIT3D.update_abc", "wakis/routines.py:emsolve"]}
{"id": "C39", "title": "update_tensors makes the solver equal to one built with the new materials", "statement": "After changing ieps/imu/sigma and calling update_tensors, every later step equals that of a solver built from those materials with the same dt.", "quantifier": "all material changes, call times, later histories", "why_tests_cant": "depends on when it is called in the history", "anchors": ["wakis/solverFIT3D.py:SolverFIT3D.update_tensors", "wakis/solverFIT3D.py:SolverFIT3D._attrcleanup"]}
{"id": "C40", "title": "An impressed current is honoured in conductive runs", "statement": "A current written to J before a step enters that step's E update, and afterwards J holds the conduction current sigma*E at every cell.", "quantifier": "all configurations, currents, steps", "why_tests_cant": "all states", "anchors": ["wakis/solverFIT3D.py:SolverFIT3D._one_step"]}
{"id": "C41", "title": "reset_fields makes a used solver equal to a fresh one", "statement": "After any history of steps and writes, reset_fields followed by any later history yields the same fields as the same later history on a newly built solver.", "quantifier": "all histories before and after", "why_tests_cant": "quantifies over two histories", "anchors": ["wakis/solverFIT3D.py:SolverFIT3D.reset_fields"]}
{"id": "C42", "title": "Saving and loading the state resumes the run exactly", "statement": "Loading a saved state restores E, H, J exactly; continuing a loaded run on a solver that has already stepped gives the same fields as the uninterrupted run, at every interruption point.", "quantifier": "all states, crash points, continuation lengths", "why_tests_cant": "every crash point", "anchors": ["wakis/solverFIT3D.py:SolverFIT3D.save_state", "wakis/solverFIT3D.py:SolverFIT3D.load_state"]}
{"id": "C43", "title": "Loading into a freshly built solver resumes the run", "statement": "The same as C42 when the state is loaded into a newly constructed solver.", "quantifier": "all boundary types, states, crash points", "why_tests_cant": "needs non-zero ghost values at the crash point", "anchors": ["wakis/solverFIT3D.py:SolverFIT3D.load_state", "wakis/solverFIT3D.py:SolverFIT3D._set_ghosts_to_0"]}
{"id": "C44", "title": "emsolve runs exactly the requested schedule", "statement": "emsolve(Nt) performs Nt steps; at step n the source is updated with time n*dt before the step and the callback is called with n*dt after it; running a then b steps without source equals running a+b steps.", "quantifier": "all Nt, sources, callbacks, states", "why_tests_cant": "all lengths and interleavings", "anchors": ["wakis/routines.py:emsolve"]}
{"id": "C45", "title": "emsolve can save field snapshots", "statement": "emsolve(save=True) completes and writes one dataset per saved step for each requested field.", "quantifier": "all arguments with save enabled", "why_tests_cant": "unconditional crash in an untested path", "anchors": ["wakis/routines.py:emsolve"]}
{"id": "C46", "title": "MPI tiles partition the axis", "statement": "For every Nz >= size, the owned layers of the ranks are disjoint, cover exactly the global layers 0..NZ-1 with NZ = Nz - Nz mod size, each rank owns NZ/size of them, and local coordinates of owned layers and ghosts equal the global ones.", "quantifier": "all Nz, sizes, ranks, domains", "why_tests_cant": "all process counts", "anchors": ["wakis/gridFIT3D.py:GridFIT3D._mpi_initialize"]}
{"id": "C47", "title": "The halo exchange never deadlocks and delivers the neighbours' layers", "statement": "For any number of ranks and any interleaving/progress order, the exchange terminates with all ranks done, each ghost layer equal to the neighbour's interior layer before the exchange, for all three components, and every other layer unchanged.", "quantifier": "all rank counts, interleavings, field contents", "why_tests_cant": "schedules cannot be enumerated by tests", "anchors": ["wakis/solverFIT3D.py:SolverFIT3D._mpi_communicate"]}
{"id": "C48", "title": "A distributed run equals the serial run", "statement": "With electric transverse walls, the owned cells of all ranks hold, after any number of steps, exactly the fields of the serial solver on the global grid.", "quantifier": "all rank counts, sizes, materials, initial fields, steps", "why_tests_cant": "all decompositions and histories", "anchors": ["wakis/solverFIT3D.py:SolverFIT3D._mpi_one_step", "wakis/solverFIT3D.py:SolverFIT3D._apply_bc_to_C"]}
{"id": "C49", "title": "mpi_gather reassembles the global field", "statement": "On rank 0 the gathered array equals the global field restricted to the request, for 1-D, 2-D and 3-D requests; other ranks get None.", "quantifier": "all rank counts (>= 2), sizes, requests, contents", "why_tests_cant": "all decompositions", "anchors": ["wakis/solverFIT3D.py:SolverFIT3D.mpi_gather", "wakis/solverFIT3D.py:SolverFIT3D.mpi_gather_asField"]}
{"id": "C50", "title": "A distributed run uses the user's boundary conditions", "statement": "The transverse walls of every rank are the ones the user asked for.", "quantifier": "all rank counts and boundary triples", "why_tests_cant": "only visible on multi-rank runs with non-pec transverse walls", "anchors": ["wakis/solverFIT3D.py:SolverFIT3D._apply_bc_to_C"]}
{"id": "C51", "title": "All ranks advance with the same time step", "statement": "In a distributed conductive run every rank uses the same dt.", "quantifier": "all material distributions over ranks", "why_tests_cant": "depends on where conductors lie relative to rank boundaries", "anchors": ["wakis/solverFIT3D.py:SolverFIT3D.__init__"]}
{"id": "C52", "title": "The longitudinal wake potential is the time-shifted line integral", "statement": "For every s_n, WP(s_n) is 1/(q*1e12) times the sum over cells k of Ez(k, it)*dz_k with it the time index reached by the test charge at z_k, over recorded steps only; it is linear in the recorded field.", "quantifier": "all fields, lengths, axes, parameters", "why_tests_cant": "law over all data", "anchors": ["wakis/wakeSolver.py:WakeSolver.calc_long_WP"]}
{"id": "C53", "title": "Each transverse cell of the 3-D wake potential is its own integral", "statement": "WP_3d[i,j,:] is the longitudinal wake potential of the field at that transverse cell.", "quantifier": "all fields and cells", "why_tests_cant": "error accumulates across cells; needs all cells", "anchors": ["wakis/wakeSolver.py:WakeSolver.calc_long_WP_3d"]}
{"id": "C54", "title": "Transverse wake potential is the Panofsky-Wenzel gradient", "statement": "WPx(s_n) is minus the running integral up to n of the central difference of WP_3d across x, and likewise WPy across y.", "quantifier": "all WP_3d, axes", "why_tests_cant": "law over all data", "anchors": ["wakis/wakeSolver.py:WakeSolver.calc_trans_WP"]}
{"id": "C55", "title": "Each saved result file holds the quantity in its name", "statement": "After a transverse computation with save=True, WPx.txt holds WPx and WPy.txt holds WPy.", "quantifier": "all results", "why_tests_cant": "any field without x/y symmetry", "anchors": ["wakis/wakeSolver.py:WakeSolver.calc_trans_WP"]}
{"id": "C56", "title": "The impedance covers 0 to fmax with the requested samples", "statement": "The returned frequency axis is strictly increasing, starts at 0, stays below fmax, and has at most `samples` points; the DFT length is a positive multiple of samples whenever fmax <= v/ds.", "quantifier": "all s-axes, fmax, samples", "why_tests_cant": "integer/floor arithmetic over all inputs", "anchors": ["wakis/wakeSolver.py:WakeSolver.calc_long_Z"]}
{"id": "C57", "title": "Field snapshots are read back in time order", "statement": "Sorting the dataset names of a wake run by name gives time order.", "quantifier": "all run lengths", "why_tests_cant": "fails only beyond 100000 steps", "anchors": ["wakis/routines.py:wakesolve", "wakis/wakeSolver.py:WakeSolver.calc_long_WP"]}
{"id": "C58", "title": "The wake solver uses only recorded field snapshots", "statement": "The number of snapshots used never exceeds the number recorded, so no metadata dataset is ever read as a field.", "quantifier": "all run lengths and time arrays", "why_tests_cant": "off-by-three in the guard", "anchors": ["wakis/wakeSolver.py:WakeSolver.calc_long_WP", "wakis/routines.py:wakesolve"]}
{"id": "C59", "title": "Beam and wake solver agree on the injection time", "statement": "The time at which the injected bunch centre enters the domain equals the ti used to build the s axis.", "quantifier": "all beta, sigmaz, user ti", "why_tests_cant": "real-parameter family", "anchors": ["wakis/routines.py:wakesolve", "wakis/sources.py:Beam"]}
{"id": "C60", "title": "Result text files round-trip", "statement": "Reading a file written by save_txt returns the same two columns keyed by the given axis names without spaces.", "quantifier": "all names and data of equal length", "why_tests_cant": "all strings", "anchors": ["wakis/wakeSolver.py:WakeSolver.save_txt", "wakis/wakeSolver.py:WakeSolver.read_txt"]}
{"id": "C61", "title": "A caller-supplied Ez(z,t) matrix is used", "statement": "calc_long_WP(Ezt=...) computes the wake potential from the supplied matrix.", "quantifier": "all matrices", "why_tests_cant": "unconditional failure in untested path", "anchors": ["wakis/wakeSolver.py:WakeSolver.calc_long_WP"]}
{"id": "C62", "title": "Charge distributions can be given as documented", "statement": "A dict charge distribution is interpolated from its two entries.", "quantifier": "all dicts", "why_tests_cant": "type dispatch for all inputs", "anchors": ["wakis/wakeSolver.py:WakeSolver.calc_lambdas"]}
{"id": "C63", "title": "The beam drives only its own cell line", "statement": "Beam.update writes J only on the nearest cell line, component z, with the Gaussian profile at the retarded time, and leaves every other entry unchanged; the chosen line is a nearest one.", "quantifier": "all positions, times, grids", "why_tests_cant": "frame + argmin law", "anchors": ["wakis/sources.py:Beam.update"]}
{"id": "C64", "title": "Injected bunch current has the right total charge", "statement": "The profile written is q*v/(dx*dy) times a normalised Gaussian: it is positive, symmetric around the centre, and maximal there.", "quantifier": "all parameters and times", "why_tests_cant": "analytic law", "anchors": ["wakis/sources.py:Beam.update"]}
{"id": "C65", "title": "Plane wave E and H have the wave impedance ratio", "statement": "The injected fields satisfy |E| = (mu0*c/beta-corrected impedance)*|H| pointwise.", "quantifier": "all parameters", "why_tests_cant": "physical units law", "anchors": ["wakis/sources.py:PlaneWave"]}
{"id": "C66", "title": "The Harris pulse is a unit pulse supported in its window", "statement": "The pulse is within [0,1], zero outside its window, and continuous at the ends.", "quantifier": "all times and parameters", "why_tests_cant": "real analysis law", "anchors": ["wakis/sources.py:Pulse"]}
{"id": "C67", "title": "Field monitors accumulate the discrete Fourier sum", "statement": "After n updates the accumulator for frequency f at a cell is the sum over m<n of E_m(cell)*exp(-2*pi*i*f*m*dt).", "quantifier": "all histories of fields, frequencies, n", "why_tests_cant": "unbounded histories", "anchors": ["wakis/field_monitors.py:FieldMonitor.update"]}
{"id": "C68", "title": "STEP solids, materials and colours share unique keys", "statement": "For any STEP file the three extractions use the same keys in the same order, one per solid, all distinct, made of safe characters.", "quantifier": "all solid name lists", "why_tests_cant": "all strings", "anchors": ["wakis/geometry.py:extract_materials_from_stp", "wakis/geometry.py:extract_solids_from_stp", "wakis/geometry.py:extract_colors_from_stp"]}
{"id": "C69", "title": "Library materials survive the STEP import", "statement": "A STEP material named like a library entry (any letter case) is found in the material library by the solver.", "quantifier": "all library names and case variants", "why_tests_cant": "sanitisation vs lookup", "anchors": ["wakis/geometry.py:extract_materials_from_stp", "wakis/materials.py:material_lib", "wakis/solverFIT3D.py:SolverFIT3D._apply_stl_materials"]}
{"id": "C70", "title": "Longitudinal wake runs work under MPI", "statement": "wakesolve with compute_plane='longitudinal' gathers the field on the test line on every multi-rank run.", "quantifier": "all rank counts and grids", "why_tests_cant": "type of an index; only on MPI", "anchors": ["wakis/routines.py:wakesolve", "wakis/solverFIT3D.py:SolverFIT3D.mpi_gather"]}
{"id": "C71", "title": "The wake monitor window is inside the grid", "statement": "For every test position the three-cell transverse window saved by wakesolve has three cells centred on the nearest cell.", "quantifier": "all positions, grids", "why_tests_cant": "fails at edges only", "anchors": ["wakis/routines.py:wakesolve"]}
{"id": "C72", "title": "Each step obeys Faraday's law on every face", "statement": "For every face whose four edges are stored, one step changes H by exactly minus dt over (mu*A) times the sum of E*L around the face (edges of electric walls contribute nothing), for every grid, material map and boundary without magnetic walls.", "quantifier": "all grids, states, faces", "why_tests_cant": "the law on every face of every grid", "anchors": ["wakis/solverFIT3D.py:SolverFIT3D._one_step", "wakis/solverFIT3D.py:SolverFIT3D._apply_bc_to_C"]}
{"id": "C73", "title": "Each step obeys Ampere's law on every edge", "statement": "For every edge whose four dual edges are stored, one step changes E by exactly dt/(eps*tA) times the sum of the new H*tL around it minus dt/eps times J; on electric walls only the current acts.", "quantifier": "all grids, states, edges", "why_tests_cant": "the law on every edge of every grid", "anchors": ["wakis/solverFIT3D.py:SolverFIT3D._one_step", "wakis/solverFIT3D.py:SolverFIT3D._apply_bc_to_C"]}
{"id": "C74", "title": "A built solver never gets stuck", "statement": "Any sequence of steps, full-size field writes, resets and loads on a constructed solver runs without error.", "quantifier": "all configurations and histories", "why_tests_cant": "unbounded histories", "anchors": ["wakis/solverFIT3D.py:SolverFIT3D._one_step", "wakis/solverFIT3D.py:SolverFIT3D.reset_fields", "wakis/solverFIT3D.py:SolverFIT3D.load_state"]}
{"id": "C75", "title": "Every documented refinement method gives a usable axis", "statement": "For each method accepted by refine_axis the initial axis is strictly increasing and contains the snap points that were given.", "quantifier": "all snap sets, sizes, methods", "why_tests_cant": "depends on how snaps fall between nodes", "anchors": ["wakis/gridFIT3D.py:GridFIT3D.refine_axis"]}
{"id": "C76", "title": "Transverse wake uses the distance between the sampled cells", "statement": "calc_trans_WP divides the difference of the neighbouring integrals by the distance between the centres of the neighbouring cells of the recorded window, on every grid.", "quantifier": "all grids, test positions, records", "why_tests_cant": "only graded grids show the difference", "anchors": ["wakis/wakeSolver.py:WakeSolver.calc_trans_WP", "wakis/routines.py:wakesolve"]}
{"id": "C77", "title": "The record is long enough for every sample of the wake", "statement": "For every wakelength, time step and grid, each sample of the returned s axis is integrated over recorded steps at every cell of the path.", "quantifier": "all runs", "why_tests_cant": "depends on how wakelength, dt and injection time divide", "anchors": ["wakis/routines.py:wakesolve", "wakis/wakeSolver.py:WakeSolver.calc_long_WP"]}
{"id": "C78", "title": "skip_cells only removes end cells", "statement": "With skip_cells the integral keeps the remaining cells, each weighted with its own width, for longitudinal and transverse records.", "quantifier": "all grids, skips, records", "why_tests_cant": "graded grids and option combinations", "anchors": ["wakis/wakeSolver.py:WakeSolver.calc_long_WP", "wakis/wakeSolver.py:WakeSolver.calc_long_WP_3d"]}
{"id": "C79", "title": "Counter-moving integration weights each cell with its own width", "statement": "With counter_moving each cell of the reversed path enters with its own field and its own width.", "quantifier": "all grids and records", "why_tests_cant": "only asymmetric graded grids show it", "anchors": ["wakis/wakeSolver.py:WakeSolver.calc_long_WP_3d"]}
{"id": "C80", "title": "The longitudinal potential of a transverse record is taken at its centre", "statement": "calc_long_WP applied to a record with a transverse window integrates along the centre cell of the window.", "quantifier": "all records", "why_tests_cant": "field configurations at the neighbouring cells", "anchors": ["wakis/wakeSolver.py:WakeSolver.calc_long_WP"]}
{"id": "C81", "title": "The impedance uses the whole wake", "statement": "At every returned frequency the impedance equals minus (times i for the transverse planes) the Fourier sum of the whole wake potential in V/C divided by the Fourier sum of the whole charge distribution.", "quantifier": "all wakes, charge distributions, fmax and numbers of samples", "why_tests_cant": "a shortened transform gives a smooth plausible curve", "anchors": ["wakis/wakeSolver.py:WakeSolver.calc_long_Z", "wakis/wakeSolver.py:WakeSolver.calc_trans_Z"]}
{"id": "C82", "title": "The impedance axis reaches fmax", "statement": "The returned frequency axis ends within one frequency step of fmax.", "quantifier": "all steps, fmax and numbers of samples", "why_tests_cant": "depends on the ratio of fmax to the sampling rate of the wake", "anchors": ["wakis/wakeSolver.py:WakeSolver.calc_long_Z"]}
{"id": "C83", "title": "A wave packet has its transverse Gaussian in place", "statement": "On any grid, WavePacket.update writes at each cell of the chosen plane the Gaussian of that cell's own x and y, and the E and H it writes have the vacuum impedance ratio.", "quantifier": "all grids, packets, times", "why_tests_cant": "grids with equal x and y axes hide a transposition", "anchors": ["wakis/sources.py:WavePacket.update", "wakis/sources.py:WavePacket.gaussxy"]}
{"id": "C84", "title": "Sources work with their documented defaults", "statement": "PlaneWave and WavePacket objects built with the documented default arguments can be constructed and used.", "quantifier": "all combinations of omitted arguments", "why_tests_cant": "option combinations", "anchors": ["wakis/sources.py:PlaneWave.__init__", "wakis/sources.py:WavePacket.__init__"]}
{"id": "C85", "title": "A Pulse with default length injects something", "statement": "A Pulse with default L writes a non-zero value at some step of a run with a non-zero time step.", "quantifier": "all shapes, amplitudes, time steps", "why_tests_cant": "a statement on every step of every run", "anchors": ["wakis/sources.py:Pulse.update"]}
{"id": "C86", "title": "A source object can be used with another solver", "statement": "A Beam object already used in one run drives the cells nearest to its own position when given to a solver on another grid.", "quantifier": "all pairs of grids", "why_tests_cant": "hidden state in the object", "anchors": ["wakis/sources.py:Beam.update"]}
{"id": "C87", "title": "All ranks inject the same bunch", "statement": "In a distributed run every rank writes on its own layers (including the low ghost layer) the current that a single process would write there.", "quantifier": "all rank counts, grids, bunches, times", "why_tests_cant": "all tilings", "anchors": ["wakis/sources.py:Beam.update", "wakis/gridFIT3D.py:GridFIT3D._mpi_initialize"]}
{"id": "C88", "title": "Dipole and Pulse touch only the selected component and cells", "statement": "Dipole.update and Pulse.update write amplitude times time profile at the selected cells of the selected component of the selected field, the middle cell by default, and leave every other value of E, H and J unchanged.", "quantifier": "all grids, fields, components, indices, times", "why_tests_cant": "every other entry unchanged", "anchors": ["wakis/sources.py:Dipole.update", "wakis/sources.py:Pulse.update"]}
{"id": "C89", "title": "During a run J is the beam current", "statement": "After any number of steps of a run without conductors driven by a Beam, J holds the bunch current of the last step on the beam line and its initial value elsewhere.", "quantifier": "all runs, steps, cells", "why_tests_cant": "unbounded number of steps", "anchors": ["wakis/sources.py:Beam.update", "wakis/solverFIT3D.py:SolverFIT3D._one_step"]}
{"id": "C90", "title": "Beam current adds to conduction current", "statement": "In a lossy medium the current on the beam line is the sum of conduction current and beam current.", "quantifier": "all conductive runs", "why_tests_cant": "only lossy cells on the path show it", "anchors": ["wakis/sources.py:Beam.update", "wakis/solverFIT3D.py:SolverFIT3D._one_step"]}
{"id": "C91", "title": "A solid has the material of its layer", "statement": "In what extract_names and extract_materials return for a STEP file, each solid has the name of its last declaration and the material of the last layer that lists it, and 'None' when no layer does.", "quantifier": "all STEP files (lists of lines)", "why_tests_cant": "statement over every line order and every layer assignment", "anchors": ["wakis/geometry.py:extract_names", "wakis/geometry.py:extract_materials"]}
{"id": "C92", "title": "Field monitor and recorded file agree on the time of each field", "statement": "In wakesolve, the field the monitor multiplies by exp(-2 pi i f n dt) is the field recorded in the output file under number n.", "quantifier": "all runs, steps and frequencies", "why_tests_cant": "the phase error of one step is invisible in magnitudes", "anchors": ["wakis/field_monitors.py:FieldMonitor.update", "wakis/routines.py:RoutinesMixin.wakesolve"]}
{"id": "C93", "title": "Loading results restores what a solve saved", "statement": "After WakeSolver.solve with save=True, load_results on that folder restores s, WP, WPx, WPy, lambda, f, Z, Zx, Zy and the spectrum, whichever planes were computed.", "quantifier": "all results, folders and computed planes", "why_tests_cant": "a wrong column in one file is overlooked; depends on the planes computed", "anchors": ["wakis/wakeSolver.py:WakeSolver.load_results", "wakis/wakeSolver.py:WakeSolver.calc_trans_WP"]}
{"id": "C94", "title": "Refinement keeps the snap points", "statement": "With use_mesh_refinement, snap points given by the caller, or else the feature points of the solids that lie in a coordinate plane, are nodes of the axes of the grid.", "quantifier": "all argument sets, solids, snap points, with an arbitrary optimiser that leaves marked nodes in place", "why_tests_cant": "every combination of optional arguments", "anchors": ["wakis/gridFIT3D.py:GridFIT3D.__init__", "wakis/gridFIT3D.py:GridFIT3D._compute_snap_points", "wakis/gridFIT3D.py:GridFIT3D._refine_xyz_axis"]}
{"id": "C95", "title": "Arguments given once apply to every solid", "statement": "A rotation, translation, scale or colour given once applies to every solid; a list of colours is dealt out in the order of the solids; a dict must cover every solid.", "quantifier": "all sets of solids and argument forms", "why_tests_cant": "quantifies over all dicts and lists", "anchors": ["wakis/gridFIT3D.py:GridFIT3D._prepare_stl_dicts"]}
{"id": "C96", "title": "Equal materials get equal automatic colours", "statement": "Without stl_colors every solid gets a colour that depends only on its material as the solver sees it.", "quantifier": "all material specifications", "why_tests_cant": "equality over all ways of writing a material", "anchors": ["wakis/gridFIT3D.py:GridFIT3D._assign_colors"]}
{"id": "C97", "title": "Placing a solid is a similarity", "statement": "Reading a solid with rotation, translation and a single scale factor s preserves angles, multiplies lengths by s and signed volumes by s^3, and moves it by s times the translation; the default arguments leave it in place.", "quantifier": "all angles, translations, scales and points", "why_tests_cant": "real-valued identities", "anchors": ["wakis/gridFIT3D.py:GridFIT3D.read_stl"]}
{"id": "C98", "title": "The axes are those the caller asked for", "statement": "Extents and cell counts give equally spaced nodes ending exactly at the extents; custom node arrays are used as given; refined axes are used with MPI as well; incomplete arguments raise.", "quantifier": "all argument sets", "why_tests_cant": "every combination of optional arguments", "anchors": ["wakis/gridFIT3D.py:GridFIT3D.__init__"]}
{"id": "C99", "title": "STEP files are scaled to metres", "statement": "get_stp_unit_scale returns the power of ten of the SI prefix of the first metre definition of the file, whatever its case and blanks.", "quantifier": "all texts", "why_tests_cant": "every prefix, position and spelling of the definition", "anchors": ["wakis/geometry.py:get_stp_unit_scale"]}
{"id": "C100", "title": "Impedance from wake is its Fourier transform", "statement": "calc_impedance_from_wake returns the Fourier amplitudes of the wake on the positive frequencies: a harmonic gives its amplitude and phase at its frequency and zero elsewhere, a constant its value at zero, and a zero tail changes nothing.", "quantifier": "all wakes, times, sample numbers, with and without fmax", "why_tests_cant": "statement over all signals and lengths", "anchors": ["wakis/wakeSolver.py:WakeSolver.calc_impedance_from_wake"]}
{"id": "C101", "title": "Wake from impedance inverts it", "statement": "calc_wake_from_impedance applied to the result of calc_impedance_from_wake returns the wake.", "quantifier": "all wakes", "why_tests_cant": "identity over all signals", "anchors": ["wakis/wakeSolver.py:WakeSolver.calc_wake_from_impedance", "wakis/wakeSolver.py:WakeSolver.calc_impedance_from_wake"]}
{"id": "C102", "title": "The line charge is the one given", "statement": "calc_lambdas interpolates the charge distribution (file, dict or array) onto s, normalised by q and zero away from the bunch; calc_lambdas_analytic is the Gaussian of deviation sigmaz with total one.", "quantifier": "all distributions, axes and points", "why_tests_cant": "pointwise over all axes; integral over the line", "anchors": ["wakis/wakeSolver.py:WakeSolver.calc_lambdas", "wakis/wakeSolver.py:WakeSolver.calc_lambdas_analytic"]}
{"id": "C103", "title": "Every solid of a STEP file is exported once", "statement": "generate_stl_solids_from_stp writes the i-th object, in metres, to the path that the returned dict has for the i-th solid; no file is overwritten and no solid is missing.", "quantifier": "all STEP files and object lists", "why_tests_cant": "every combination of names and layers", "anchors": ["wakis/geometry.py:generate_stl_solids_from_stp", "wakis/geometry.py:extract_solids_from_stp"]}
{"id": "C104", "title": "Conductor intersections are the nearest boundary points", "statement": "intersec_x and intersec_y of Plane, OutRect, OutCircle, InCircle and ConductorsAssembly return the point of the grid line, nearest to the given point, where the line enters or leaves the conductor.", "quantifier": "all shapes, parameters and points whose line meets the boundary", "why_tests_cant": "real-valued geometry, for every point of the plane", "anchors": ["wakis/conductors.py:OutRect", "wakis/conductors.py:Plane", "wakis/conductors.py:InCircle", "wakis/conductors.py:OutCircle", "wakis/conductors.py:ConductorsAssembly"]}
{"id": "C105", "title": "Edges of the 2D grid have the length of their free part", "statement": "Grid2D.l_x and l_y are the lengths of the parts of the edges outside the conductor, up to tol of a cell.", "quantifier": "all straight conductors, rectangles and circles, all grids, all edges", "why_tests_cant": "every relative position of edge and boundary", "anchors": ["wakis/grid2D.py:Grid2D.compute_edges"]}
{"id": "C106", "title": "Cells of the 2D grid have the area of their free part", "statement": "Grid2D.S times dx dy is the area of the part of the cell outside the conductor, up to tol of a cell.", "quantifier": "all straight conductors and rectangles, all cells", "why_tests_cant": "area as an integral, every way the boundary crosses a cell", "anchors": ["wakis/grid2D.py:Grid2D.compute_areas"]}
{"id": "C107", "title": "Unstable cells are marked independently of the length unit", "statement": "mark_cells flags a cell as unstable exactly when its free area is below half the largest rectangle on its edges; scaling the geometry changes no flag.", "quantifier": "all conductors, grids, cells and scale factors", "why_tests_cant": "statement about all pairs of similar grids", "anchors": ["wakis/grid2D.py:Grid2D.mark_cells"]}
{"id": "C108", "title": "Enlarged cells are built whenever they are needed", "statement": "Grid2D with sol_type 'ECT' extends every unstable cell by borrowing from its neighbours, and raises only when the neighbours cannot give enough.", "quantifier": "all conductors and grids", "why_tests_cant": "the algorithm depends on the whole grid", "anchors": ["wakis/grid2D.py:Grid2D.compute_extensions", "wakis/grid2D.py:Grid2D.__init__"]}
{"id": "C109", "title": "The plain 2D scheme keeps its energy and stays bounded", "statement": "EMSolver2D with sol_type 'FDTD' and the default time step: once the currents are off, the discrete energy is the same at every later step and the fields stay below a bound fixed by that energy.", "quantifier": "all conductors, grids, cfln < 1, currents and numbers of steps", "why_tests_cant": "unbounded number of steps", "anchors": ["wakis/solver2D.py:EMSolver2D.one_step_fdtd", "wakis/solver2D.py:EMSolver2D.advance_h_fdtd", "wakis/solver2D.py:EMSolver2D.advance_e_fdtd"]}
{"id": "C110", "title": "The Dey-Mittra scheme stays bounded at the default time step", "statement": "EMSolver2D with sol_type 'DM' and the default time step: fields stay bounded once the currents are off, for every cell size.", "quantifier": "all grids, cfln < 1, currents and numbers of steps", "why_tests_cant": "unbounded number of steps; depends on the units", "anchors": ["wakis/solver2D.py:EMSolver2D.one_step_dm", "wakis/solver2D.py:EMSolver2D.advance_e_dm"]}
{"id": "C111", "title": "The enlarged-cell scheme agrees with Dey-Mittra where no cell is extended", "statement": "On every grid that Grid2D builds for 'ECT', EMSolver2D with 'ECT' computes the same fields as with 'DM'.", "quantifier": "all conductors, grids, currents and numbers of steps", "why_tests_cant": "equality of two programs on all runs", "anchors": ["wakis/solver2D.py:EMSolver2D.one_step_ect", "wakis/solver2D.py:EMSolver2D.compute_v_and_rho"]}
{"id": "C112", "title": "Every choice of absorbing walls is set up completely in 2D", "statement": "For every choice of absorbing walls EMSolver2D builds a block beside each of them and in each of their corners, with conductivities and coefficients, linked to its neighbours.", "quantifier": "all 16 choices of walls, all grid sizes and layer counts", "why_tests_cant": "all choices with all sizes", "anchors": ["wakis/solver2D.py:EMSolver2D.__init__", "wakis/solver2D.py:EMSolver2D.organize_pmls", "wakis/solver2D.py:EMSolver2D.assemble_coeffs_pmls"]}
{"id": "C113", "title": "Reading CST exports reproduces the exported field", "statement": "WakeSolver.read_cst_3d turns the text files of a CST export into one dataset per file, in the order of the times in the file names, with E_z of each point at its own indices, and axes and times converted with the given units.", "quantifier": "all numbers of files, points and lines, all values", "why_tests_cant": "files of every size and order", "anchors": ["wakis/wakeSolver.py:WakeSolver.read_cst_3d"]}
{"id": "C114", "title": "Saving the log keeps every value", "statement": "Logger.save_logs writes the three logs, each value readable, into wakis.log of the results folder, which is created if it does not exist; it touches no other file.", "quantifier": "all logs (nested dicts, lists, arrays, other objects), folders and earlier files", "why_tests_cant": "all nestings of values", "anchors": ["wakis/logger.py:Logger.save_logs"]}
{"id": "C115", "title": "The log records the parameters of the simulation", "statement": "After a GridFIT3D and a SolverFIT3D are built, the log has the cell counts, sizes and bounds of the grid, the given solids and their placement, the walls, the layers and the time step of the solver.", "quantifier": "all arguments of grid and solver", "why_tests_cant": "all combinations of arguments", "anchors": ["wakis/gridFIT3D.py:GridFIT3D.update_logger", "wakis/solverFIT3D.py:SolverFIT3D.update_logger"]}
{"id": "C116", "title": "plot2D shows every cell of the plane at its place", "statement": "solver.plot2D(field, component, plane, pos) paints the values of the component in the layer of cells named in the title, each cell of the plane once and in the box of the cell, with the axes named as drawn; the overlay of a solid covers exactly its cells.", "quantifier": "all meshes, fields, planes, components and positions from 0 to 1", "why_tests_cant": "every mesh, plane and position", "anchors": ["wakis/plotting.py:PlotMixin.plot2D"]}
{"id": "C117", "title": "plot1D draws the values at the centres of the cells", "statement": "solver.plot1D(field, component, line, pos) draws for each given position one curve of the values of the component in the cells of the line, over the centres of the cells, labelled with the centres of the cells it goes through.", "quantifier": "all meshes, fields, lines, components and lists of positions from 0 to 1", "why_tests_cant": "every mesh and list of positions", "anchors": ["wakis/plotting.py:PlotMixin.plot1D"]}
{"id": "C118", "title": "The default time step stays stable on graded meshes with solids, conductors and absorbing layers", "statement": "SolverFIT3D with the default time step (cfln below 1) keeps the fields below a fixed bound for ever once the currents are off, also on meshes with cells of different sizes, with materials slower than vacuum, conductors and pml walls.", "quantifier": "all increasing axes, materials, walls that do not wrap, fields and numbers of steps", "why_tests_cant": "unbounded number of steps, all meshes and materials", "anchors": ["wakis/solverFIT3D.py:SolverFIT3D.__init__", "wakis/solverFIT3D.py:SolverFIT3D.one_step", "wakis/solverFIT3D.py:SolverFIT3D.one_step_conductivity"]}
{"id": "C119", "title": "Each wall acts on its own field only", "statement": "With any mix of walls, tangential E is held on electric walls and tangential H on magnetic walls; every other stored face and edge follows the laws of Faraday and Ampere.", "quantifier": "all six wall names in any combination, grids, materials, fields", "why_tests_cant": "7**6 combinations of names on every mesh", "anchors": ["wakis/solverFIT3D.py:SolverFIT3D._apply_bc_to_C", "wakis/solverFIT3D.py:SolverFIT3D.one_step"]}
{"id": "C120", "title": "The conductors of the 3D legacy code report true crossings", "statement": "For a point on a line along an axis that crosses the surface of a conductor of conductors3d.py, intersec_x, intersec_y and intersec_z give a point of the surface on that line; out_conductor is the negation of in_conductor; an assembly contains what its members contain and gives the nearest of their crossings.", "quantifier": "all planes, boxes, spheres and assemblies, all points", "why_tests_cant": "continuous families of shapes and points", "anchors": ["wakis/conductors3d.py:InCube", "wakis/conductors3d.py:OutSphere", "wakis/conductors3d.py:Plane", "wakis/conductors3d.py:ConductorsAssembly"]}
{"id": "C121", "title": "Edge lengths of the 3D grid are the free lengths", "statement": "The lengths l_x, l_y and l_z stored by Grid3D are the lengths of the parts of the edges outside the conductor, up to tol of a cell.", "quantifier": "all boxes, cell counts and conductors smooth on the scale of a cell", "why_tests_cant": "continuous families of conductors and boxes", "anchors": ["wakis/grid3D.py:Grid3D.__init__", "wakis/grid3D.py:Grid3D.compute_edges"]}
{"id": "C122", "title": "Face fractions of the 3D grid are the free areas", "statement": "The numbers Sxy, Syz and Szx stored by Grid3D, times the area of a whole face, are the areas of the parts of the faces outside the conductor, up to tol of a face.", "quantifier": "all boxes, cell counts and conductors smooth on the scale of a cell", "why_tests_cant": "continuous families of conductors and boxes", "anchors": ["wakis/grid3D.py:Grid3D.compute_areas"]}
{"id": "C123", "title": "The 3D legacy FDTD scheme keeps its energy and stays bounded", "statement": "EMSolver3D with sol_type 'FDTD' and no absorbing walls keeps eps*E*E + mu*H*H (H at neighbouring half steps) summed over the grid once the currents are off; with its time step and cfln below 1 the fields never exceed that energy over 1 - cfln.", "quantifier": "all grids, conductors, currents and numbers of steps", "why_tests_cant": "unbounded number of steps, all conductors", "anchors": ["wakis/solver3D.py:EMSolver3D.advance_h_fdtd", "wakis/solver3D.py:EMSolver3D.advance_e_fdtd", "wakis/solver3D.py:EMSolver3D.__init__"]}
{"id": "C124", "title": "Without conductors the Dey-Mittra scheme of EMSolver3D is the plain scheme, and is as stable", "statement": "EMSolver3D with sol_type 'DM' gives on a grid without conductors the fields of 'FDTD', and with its time step and cfln below 1 the fields stay bounded once the currents are off.", "quantifier": "all cell sizes, currents and numbers of steps", "why_tests_cant": "unbounded number of steps, all cell sizes", "anchors": ["wakis/solver3D.py:EMSolver3D.one_step_dm", "wakis/solver3D.py:EMSolver3D.compute_v_and_rho", "wakis/solver3D.py:EMSolver3D.advance_e_dm"]}
{"id": "C125", "title": "Absorbing walls of EMSolver3D are complete", "statement": "For every choice of 'pml' walls the constructor of EMSolver3D makes one block at each place whose walls all absorb and none elsewhere, as thick as the layers of the walls, with conductivities that grow as the cube of the distance from the grid along the axes of those walls, with the coefficients of its own cells, alike at opposite walls.", "quantifier": "all 64 choices of walls, numbers of layers, cell counts and sizes", "why_tests_cant": "all choices of walls and layers", "anchors": ["wakis/solver3D.py:EMSolver3D.connect_pmls", "wakis/solver3D.py:EMSolver3D.assemble_conductivities_pmls", "wakis/pmlBlock3D.py:PmlBlock3D.__init__"]}
{"id": "C126", "title": "EMSolver3D can step with every sol_type it accepts", "statement": "Whatever sol_type the constructor of EMSolver3D accepts, one_step returns and currents drive the fields; other names raise ValueError.", "quantifier": "all sol_type strings, grids, currents and states", "why_tests_cant": "all states", "anchors": ["wakis/solver3D.py:EMSolver3D.one_step", "wakis/solver3D.py:EMSolver3D.one_step_ect"]}
{"id": "C127", "title": "The fields on the two sides of an absorbing wall agree", "statement": "EMSolver2D stores the edges of an absorbing wall twice, in the grid and in the PmlBlock2D behind it (and in two blocks where blocks meet); after every step the copies hold the same field.", "quantifier": "all choices of walls that can be built, layers, conductors, sizes, currents and numbers of steps", "why_tests_cant": "unbounded number of steps, all walls and currents", "anchors": ["wakis/pmlBlock2D.py:PmlBlock2D.update_e_boundary", "wakis/solver2D.py:EMSolver2D.update_e_boundary"]}
{"id": "C128", "title": "An absorbing wall does not touch the fields it cannot have reached", "statement": "After n steps of EMSolver2D the cells and edges more than n cells away from every absorbing wall hold the fields of the same run without absorbing walls.", "quantifier": "all walls, layers, conductors, currents and numbers of steps, sol_type 'FDTD' and 'DM'", "why_tests_cant": "unbounded number of steps, all walls", "anchors": ["wakis/solver2D.py:EMSolver2D.one_step_fdtd", "wakis/solver2D.py:EMSolver2D.one_step_dm", "wakis/solver2D.py:EMSolver2D.update_e_boundary"]}
{"id": "C129", "title": "Conductors stay without field when walls absorb", "statement": "In a run of EMSolver2D with absorbing walls the field stays zero in cells and on edges inside the conductors.", "quantifier": "all walls, conductors, currents and numbers of steps, sol_type 'FDTD' and 'DM'", "why_tests_cant": "unbounded number of steps, all conductors", "anchors": ["wakis/solver2D.py:EMSolver2D.update_e_boundary"]}
{"id": "C130", "title": "Absorbing walls at opposite sides are mirror images", "statement": "A run of EMSolver2D with an absorbing low x wall and the mirrored run with an absorbing high x wall give mirrored fields.", "quantifier": "all layers, cell sizes, currents and numbers of steps", "why_tests_cant": "all currents and numbers of steps", "anchors": ["wakis/solver2D.py:EMSolver2D.assemble_conductivities_pmls", "wakis/pmlBlock2D.py:PmlBlock2D.advance_e_fdtd"]}
{"id": "C131", "title": "Absorbing walls never add energy", "statement": "Once the currents of a run of EMSolver2D with absorbing walls are off, the squares of the fields summed over grid and layers stay below a fixed multiple of their value at that time.", "quantifier": "all layers, cell sizes, currents and numbers of steps, cfln below 1", "why_tests_cant": "unbounded number of steps", "anchors": ["wakis/pmlBlock2D.py:PmlBlock2D.advance_h_fdtd", "wakis/pmlBlock2D.py:PmlBlock2D.advance_e_fdtd", "wakis/pmlBlock2D.py:PmlBlock2D.update_e_boundary"]}
{"id": "C132", "title": "Grid and absorbing layers are one larger grid", "statement": "For sol_type 'FDTD', every choice of absorbing walls whose blocks are complete (C112) and currents off those walls, the grid and the blocks of EMSolver2D together follow Berenger's split equations on the rectangle of grid and layers, with conductivities that depend on the distance from the grid only, the conductors and currents of the grid, and electric walls at the outer sides.", "quantifier": "all walls, layers (two or more), conductors, sizes, currents and numbers of steps", "why_tests_cant": "unbounded number of steps, every cell and edge of grid and blocks", "anchors": ["wakis/pmlBlock2D.py:PmlBlock2D.advance_h_fdtd", "wakis/pmlBlock2D.py:PmlBlock2D.advance_e_fdtd", "wakis/pmlBlock2D.py:PmlBlock2D.update_e_boundary", "wakis/solver2D.py:EMSolver2D.update_e_boundary", "wakis/solver2D.py:EMSolver2D.assemble_conductivities_pmls"]}
{"id": "C133", "title": "Solids keep their material inside the absorbing layers", "statement": "A solid that reaches into a pml layer keeps its permittivity there; in particular a beam pipe or plate of perfect conductor that runs through an absorbing wall stays a conductor up to the wall.", "quantifier": "all grids, solids, masks, numbers of layers, choices of pml walls, histories", "why_tests_cant": "The material of a layer is taken from one reference cell in the middle of the box, so tests with a uniform background cannot see that solids are overwritten; every mask and every position of the reference cell counts.", "anchors": ["wakis/solverFIT3D.py:SolverFIT3D._fill_pml_sigmas", "wakis/solverFIT3D.py:SolverFIT3D._apply_stl_materials"]}
{"id": "C134", "title": "The resonator fit sees the impedance it is asked to fit", "statement": "get_DEmodel_fitting fits the impedance given, or the computed one of the chosen plane, with resonator bounds found from the same data when none are given, and runs the chosen optimiser (an unknown name is rejected).", "quantifier": "all data, planes, bounds, optimiser names and settings, whatever the external bound finder returns", "why_tests_cant": "The package that does the fit is external and usually replaced by a stub in tests; the claim concerns what it is called with, for all data and combinations of optional arguments.", "anchors": ["wakis/wakeSolver.py:WakeSolver.get_DEmodel_fitting", "wakis/wakeSolver.py:WakeSolver.get_SmartBounds"]}
{"id": "C135", "title": "The extrapolated wake continues the computed one", "statement": "get_extrapolated_wake returns distances that begin with those of the computed wake, keep its spacing and fill the wake length asked for, with minus the potential of the fit at the time s/v, in V/pC, at distance s.", "quantifier": "all computed wakes of three or more samples, wake lengths, bunch lengths, beta, fitted models", "why_tests_cant": "all axes and wake lengths; the number of samples comes from a rounded quotient", "anchors": ["wakis/wakeSolver.py:WakeSolver.get_extrapolated_wake", "wakis/wakeSolver.py:WakeSolver.get_extrapolated_wake_function"]}
{"id": "C136", "title": "The gathered grid is the grid of the serial run", "statement": "On a grid built with use_mpi=True, mpi_gather_asGrid returns on rank 0 the grid the same arguments give without MPI, with every node of every rank's tile, and None on the other ranks.", "quantifier": "all extents, cell counts, numbers of ranks, solids, placements, refinement options", "why_tests_cant": "Needs several processes; a test sees one number of ranks and one cell count, where rounding of the layers and the lost refinement options may not show.", "anchors": ["wakis/gridFIT3D.py:GridFIT3D.mpi_gather_asGrid", "wakis/gridFIT3D.py:GridFIT3D._mpi_initialize"]}
{"id": "C137", "title": "Renaming CST exports loses no field", "statement": "Reading CST exports renames files <prefix>_<time>E-02.txt, ...E-03.txt and ..._0.txt to str() of the time. Afterwards each export is found under the name that carries its time, with its content and a copy under the old name with .old, and no other .txt file appears.", "quantifier": "all directories of exports, prefixes, times, contents", "why_tests_cant": "Depends on which names a directory holds together; a test has one directory, and a silent overwrite needs two notations of the same time.", "anchors": ["wakis/wakeSolver.py:WakeSolver.read_cst_3d"]}
