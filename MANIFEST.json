{
 "claims": [
  {
   "property": "C01",
   "status": "proved",
   "theorems": [
    "C01_cell_write",
    "C01_cell_read"
   ],
   "note": ""
  },
  {
   "property": "C02",
   "status": "partial",
   "theorems": [
    "C02_matrix_write_read",
    "C02_matrix_read_write",
    "C02_matrix_entries",
    "C02_matrix_wrong_size",
    "C02_array_write_read",
    "C02_array_read_write",
    "C02_array_wrong_size",
    "C02_array_wrong_size_refuted"
   ],
   "note": "Everything proved except rejection of a one-element array by fromarray, which NumPy broadcasts (refuted)."
  },
  {
   "property": "C03",
   "status": "proved",
   "theorems": [
    "C03_slice_write",
    "C03_slice_write_array",
    "C03_selects_on_axis",
    "C03_bad_index_rejected"
   ],
   "note": "Right-hand sides: numbers and arrays shaped as the selection. Other broadcastable shapes are in the model but not in a theorem."
  },
  {
   "property": "C04",
   "status": "proved",
   "theorems": [
    "C04_flat_of_ijk",
    "C04_ijk_of_flat"
   ],
   "note": ""
  },
  {
   "property": "C05",
   "status": "partial",
   "theorems": [
    "C05_int_keys_refuted",
    "C05_accepted_keys_partial",
    "C05_rejected_keys_partial"
   ],
   "note": "Refuted: keys N+1..3N-1 name entries but are rejected, compute_ijk(N) is accepted. The guarded part is proved."
  },
  {
   "property": "C06",
   "status": "proved",
   "theorems": [
    "C06_mul_number",
    "C06_mul_matrix",
    "C06_add_matrix",
    "C06_add_field",
    "C06_operands_unchanged"
   ],
   "note": ""
  },
  {
   "property": "C07",
   "status": "proved",
   "theorems": [
    "C07_rejected_unchanged",
    "C07_malformed_rejected",
    "C07_bad_tuple_rejected",
    "C07_from_matrix_bad_component"
   ],
   "note": ""
  },
  {
   "property": "C08",
   "status": "proved",
   "theorems": [
    "C08_copy_independent"
   ],
   "note": ""
  },
  {
   "property": "C09",
   "status": "proved",
   "theorems": [
    "C09_abs"
   ],
   "note": ""
  },
  {
   "property": "C10",
   "status": "partial",
   "theorems": [
    "C10_scalar_operands_refuted"
   ],
   "note": "Refuted for every field and number: Field defines __div__ (Python 2 name) which fails on numbers, and __add__ has no number branch."
  },
  {
   "property": "C11",
   "status": "proved",
   "theorems": [
    "C11_primal_metrics",
    "C11_uniform_axis"
   ],
   "note": ""
  },
  {
   "property": "C12",
   "status": "proved",
   "theorems": [
    "C12_dual_metrics"
   ],
   "note": ""
  },
  {
   "property": "C13",
   "status": "partial",
   "theorems": [
    "C13_dual_index_refuted",
    "C13_dual_index_partial"
   ],
   "note": "Refuted on a graded axis: the dual length stored at i joins the centres of cells i and i+1. Proved: away from the ends the claim holds exactly when cells i-1 and i+1 have the same size (so on every uniform axis)."
  },
  {
   "property": "C14",
   "status": "partial",
   "theorems": [
    "C14_insert_partial",
    "C14_too_many_snaps",
    "C14_insert_refuted"
   ],
   "note": "Refuted when there are more snaps than nodes (ValueError). C14_insert_partial proves the rest; the optimiser that follows is not modelled."
  },
  {
   "property": "C15",
   "status": "partial",
   "theorems": [
    "C15_reload_partial",
    "C15_save_total",
    "C15_no_solids_fails",
    "C15_reload_refuted"
   ],
   "note": "Refuted: HDF5 lists keys alphabetically, so overlapping solids change priority (witness); a grid without solids cannot be saved (general theorem). C15_reload_partial: same solver when overlapping solids are in alphabetical order."
  },
  {
   "property": "C16",
   "status": "proved",
   "theorems": [
    "C16_flux_conserved"
   ],
   "note": "Cells whose six faces are stored; the flux of the last layer needs a face the code does not store."
  },
  {
   "property": "C17",
   "status": "proved",
   "theorems": [
    "C17_charge_continuity"
   ],
   "note": ""
  },
  {
   "property": "C18",
   "status": "proved",
   "theorems": [
    "C18_energy_conserved"
   ],
   "note": "For a solver past its first step (which zeroes ghost entries once)."
  },
  {
   "property": "C19",
   "status": "proved",
   "theorems": [
    "C19_damping"
   ],
   "note": "Over the reals, for every entry with positive conductivity and finite permittivity of any solver with passive materials; the conduction part is isolated by comparing with the same step with J written to zero."
  },
  {
   "property": "C20",
   "status": "partial",
   "theorems": [
    "C20_electric_box_partial",
    "C20_other_walls_partial",
    "C20_magnetic_wall_refuted"
   ],
   "note": "Refuted for a magnetic upper wall, where H grows without bound (C20_magnetic_wall_refuted). Graded meshes, solids, conductors and pml are C118. C20_electric_box_partial: in a box of electric walls, for all sizes, spacings, backgrounds no faster than vacuum, start fields and numbers of steps, the sum of eps E^2 + mu H^2 never exceeds (1+cfln)/(1-cfln) times its start. C20_other_walls_partial: the same over the faces of nonzero dual length for the other walls without absorbing layers."
  },
  {
   "property": "C21",
   "status": "proved",
   "theorems": [
    "C21_superposition"
   ],
   "note": ""
  },
  {
   "property": "C22",
   "status": "proved",
   "theorems": [
    "C22_silence"
   ],
   "note": ""
  },
  {
   "property": "C23",
   "status": "proved",
   "theorems": [
    "C23_light_cone"
   ],
   "note": ""
  },
  {
   "property": "C24",
   "status": "proved",
   "theorems": [
    "C24_pec_walls"
   ],
   "note": ""
  },
  {
   "property": "C25",
   "status": "partial",
   "theorems": [
    "C25_pec_wall_refuted",
    "C25_pec_wall_partial"
   ],
   "note": "Refuted on the edges of a wall: the later axis in the order x, y, z decides. Proved on the wall away from its edges."
  },
  {
   "property": "C26",
   "status": "proved",
   "theorems": [
    "C26_outside_layers",
    "C26_pec_frozen"
   ],
   "note": "Runs without pml walls, and with pml walls every conductor outside the layers (C26_outside_layers). Inside the layers the claim is C133."
  },
  {
   "property": "C27",
   "status": "partial",
   "theorems": [
    "C27_periodic_refuted",
    "C27_wraps_to_next_row"
   ],
   "note": "Refuted: the last x layer couples to the first x layer of the next row. The exact coupling is proved for every solver without magnetic walls."
  },
  {
   "property": "C28",
   "status": "proved",
   "theorems": [
    "C28_pmc_walls"
   ],
   "note": "For the spellings the code recognises: magnetic in any case, pmc in lower case; high-side ghost entries need to start at zero or the solver to have stepped."
  },
  {
   "property": "C29",
   "status": "partial",
   "theorems": [
    "C29_case_refuted",
    "C29_case_partial"
   ],
   "note": "Refuted for pmc: only the lower-case spelling freezes H. Proved for every other name."
  },
  {
   "property": "C30",
   "status": "partial",
   "theorems": [
    "C30_grid_refuted",
    "C30_grid_partial"
   ],
   "note": "Refuted for periodic pairs: the grid's dual metrics are overwritten and a later solver on the same grid object runs differently. Proved without periodic pairs and high abc walls."
  },
  {
   "property": "C31",
   "status": "proved",
   "theorems": [
    "C31_outside_layers",
    "C31_last_solid",
    "C31_last_solid_mu",
    "C31_some_material"
   ],
   "note": "Permittivity: runs without pml walls, and with pml walls every cell outside the layers (C31_outside_layers). Permeability: all runs. Inside the layers the claim is C133."
  },
  {
   "property": "C32",
   "status": "partial",
   "theorems": [
    "C32_outside_layers_partial",
    "C32_sigma_refuted",
    "C32_sigma_partial"
   ],
   "note": "Refuted: a solid without conductivity over a conducting one keeps the old conductivity. Proved when the background conducts or every covering solid has a conductivity (no pml walls, or cells outside the layers: C32_outside_layers_partial)."
  },
  {
   "property": "C33",
   "status": "proved",
   "theorems": [
    "C33_time_step"
   ],
   "note": "Over the reals; passive materials; with pml walls the layers must fit (2n+2 cells). Also gives dt > 0 and that an explicit dt is never increased."
  },
  {
   "property": "C34",
   "status": "partial",
   "theorems": [
    "C34_conductive_refuted",
    "C34_conductive_partial",
    "C34_pml_partial"
   ],
   "note": "Refuted: conductivity 0 as third entry gives ValueError, a layer thicker than the grid IndexError. Proved: built when nothing conducts, when some cell outside the layers conducts, or with fitting pml layers whose last wall finds a finite permittivity."
  },
  {
   "property": "C35",
   "status": "proved",
   "theorems": [
    "C35_walls",
    "C35_layers",
    "C35_graded",
    "C35_cover"
   ],
   "note": "Layer values for every wall name, over any field, with room for the layers asked only along axes that have a pml wall (C35_walls); strict growth toward the wall over the reals; every cell is outside or decided by exactly the last covering wall."
  },
  {
   "property": "C36",
   "status": "partial",
   "theorems": [
    "C36_mirror_partial",
    "C36_mirror_refuted"
   ],
   "note": "Refuted: overlapping layers and reference cells are not mirror images. Proved for cells decided by the two walls of one axis at equal depth, at least two layers, equal reference cells."
  },
  {
   "property": "C37",
   "status": "proved",
   "theorems": [
    "C37_undo",
    "C37_step_bijective"
   ],
   "note": "For a solver past its first step."
  },
  {
   "property": "C38",
   "status": "partial",
   "theorems": [
    "C38_walls_partial",
    "C38_opposite_walls_fail",
    "C38_opposite_walls_refuted",
    "C38_saved_layer_refuted"
   ],
   "note": "Refuted: an axis absorbing on both sides raises KeyError at the first step (general theorem and witness), and the wall holds the layer after the step because the saved arrays are views (witness). C38_walls_partial gives the exact wall values otherwise."
  },
  {
   "property": "C39",
   "status": "partial",
   "theorems": [
    "C39_update_partial",
    "C39_update_late_fails",
    "C39_update_late_refuted",
    "C39_conductivity_refuted"
   ],
   "note": "Refuted after the first step (AttributeError, general theorem) and for conductivity given to a non-conductive solver (witness). C39_update_partial proves the claim before the first step otherwise."
  },
  {
   "property": "C40",
   "status": "proved",
   "theorems": [
    "C40_impressed_current"
   ],
   "note": ""
  },
  {
   "property": "C41",
   "status": "partial",
   "theorems": [
    "C41_reset_refuted",
    "C41_reset_partial",
    "C41_reset_box_partial"
   ],
   "note": "Refuted: values written to ghost entries before the first step are zeroed only by a new solver. Proved for histories that do not write them, and in electric boxes on the physical domain for all histories."
  },
  {
   "property": "C42",
   "status": "proved",
   "theorems": [
    "C42_resume"
   ],
   "note": ""
  },
  {
   "property": "C43",
   "status": "partial",
   "theorems": [
    "C43_fresh_resume_refuted",
    "C43_fresh_resume_partial",
    "C43_fresh_resume_box_partial"
   ],
   "note": "Refuted: non-zero ghost entries (periodic walls) are zeroed by the new solver. Proved for zero ghosts, and in electric boxes on the physical domain."
  },
  {
   "property": "C44",
   "status": "proved",
   "theorems": [
    "C44_schedule",
    "C44_schedule_walls",
    "C44_split"
   ],
   "note": "Sources and callbacks are arbitrary time-dependent histories of writes, resets and loads; walls included in C44_schedule_walls."
  },
  {
   "property": "C45",
   "status": "partial",
   "theorems": [
    "C45_save_fails",
    "C45_save_refuted"
   ],
   "note": "Refuted: TypeError whenever a field is requested, before the first step (general theorem and witness)."
  },
  {
   "property": "C46",
   "status": "proved",
   "theorems": [
    "C46_tiles",
    "C46_too_many_ranks",
    "C46_one_rank_grows"
   ],
   "note": "Over any numbers in which counting never returns to zero. Also: more ranks than layers raise ValueError; with one rank the grid gains a layer beyond zmax."
  },
  {
   "property": "C47",
   "status": "proved",
   "theorems": [
    "C47_halo"
   ],
   "note": "Machine with rendezvous and optional buffering; bound on every run, no blocked state even without buffering, exact ghost values, everything else unchanged."
  },
  {
   "property": "C48",
   "status": "partial",
   "theorems": [
    "C48_periodic_refuted",
    "C48_magnetic_refuted",
    "C48_distributed_partial",
    "C48_one_rank_refuted"
   ],
   "note": "Refuted in part, see below. C48_distributed_partial: for every number of ranks >= 2, every size, material map, schedule, history of field writes and number of steps, with electric walls in x and y, electric or absorbing ends in z (layers thinner than a rank), equal time steps and no write on a wall. Refuted for one rank, whose grid is a layer too long (C48_one_rank_refuted). Refuted for periodic ends of z, which no rank has (C48_periodic_refuted), and for a magnetic end, which the other ranks do not see (C48_magnetic_refuted). Open: absorbing walls in x and y, abc ends, ranks with different time steps."
  },
  {
   "property": "C49",
   "status": "partial",
   "theorems": [
    "C49_gather",
    "C49_asField_elsewhere_refuted"
   ],
   "note": "C49_gather proves the claim for requests given by None, Python ints and slices within the grid (any z key). Refuted: mpi_gather_asField returns a zero field, not None, on other ranks."
  },
  {
   "property": "C50",
   "status": "partial",
   "theorems": [
    "C50_walls_refuted",
    "C50_electric_walls_partial"
   ],
   "note": "Refuted: inner ranks replace periodic transverse walls by pec (witness). C50_electric_walls_partial: with electric transverse walls each rank is built with the user's walls."
  },
  {
   "property": "C51",
   "status": "partial",
   "theorems": [
    "C51_same_dt_refuted",
    "C51_no_conductor_here_refuted",
    "C51_same_dt_partial"
   ],
   "note": "Refuted: ranks with different conductors get different time steps, a rank without conductor raises ValueError (witnesses). C51_same_dt_partial: non-conductive runs use the serial time step."
  },
  {
   "property": "C52",
   "status": "proved",
   "theorems": [
    "C52_wake_potential",
    "C52_run",
    "C52_linear"
   ],
   "note": "For any recorded file (C52_wake_potential), for whole runs of any built solver up to 100000 steps (C52_run), and linear in the record (C52_linear). Exact arithmetic."
  },
  {
   "property": "C53",
   "status": "partial",
   "theorems": [
    "C53_carry_partial",
    "C53_second_cell",
    "C53_refuted"
   ],
   "note": "Refuted: the accumulator is not reset between cells (witness; C53_second_cell says exactly when a row is wrong). C53_carry_partial gives every row exactly."
  },
  {
   "property": "C54",
   "status": "proved",
   "theorems": [
    "C54_panofsky_wenzel"
   ],
   "note": "Gradient of the integral over the samples before each s, for any WP_3d."
  },
  {
   "property": "C55",
   "status": "partial",
   "theorems": [
    "C55_files_partial",
    "C55_refuted"
   ],
   "note": "Refuted: WPy.txt holds WPx (general formula in C55_files_partial, witness in C55_refuted). WPx.txt is right."
  },
  {
   "property": "C56",
   "status": "proved",
   "theorems": [
    "C56_axis",
    "C56_above"
   ],
   "note": "Axis from zero, increasing, equidistant, below fmax, at most `samples` entries; above v/ds the call raises."
  },
  {
   "property": "C57",
   "status": "partial",
   "theorems": [
    "C57_order_partial",
    "C57_long_runs_refuted",
    "C57_long_run_order"
   ],
   "note": "Refuted for every run of more than 100000 steps (C57_long_runs_refuted, C57_long_run_order). C57_order_partial proves the claim up to 100000 steps."
  },
  {
   "property": "C58",
   "status": "partial",
   "theorems": [
    "C58_snapshots_only_partial",
    "C58_long_time_array",
    "C58_file_of_run",
    "C58_refuted"
   ],
   "note": "Refuted in binary64: np.arange returns one time too many for some dt and dx is integrated as a field (C58_refuted, general consequence C58_long_time_array). Proved in exact arithmetic."
  },
  {
   "property": "C59",
   "status": "partial",
   "theorems": [
    "C59_exact_partial",
    "C59_times_refuted"
   ],
   "note": "Refuted for beta < 1 with the default injection time (C59_times_refuted); a user-supplied ti never reaches the beam. C59_exact_partial says exactly when the two agree."
  },
  {
   "property": "C60",
   "status": "partial",
   "theorems": [
    "C60_roundtrip_partial",
    "C60_short",
    "C60_same_names",
    "C60_no_bracket",
    "C60_refuted"
   ],
   "note": "Refuted: a name without ']' comes back with one (C60_refuted, the documentation's own example; C60_no_bracket in general), equal names lose a column (C60_same_names), fewer than two rows cannot be read (C60_short). C60_roundtrip_partial in all other cases. The number formatter is abstract, with parse-after-print laws, and an instance in TextDemo."
  },
  {
   "property": "C61",
   "status": "partial",
   "theorems": [
    "C61_supplied_matrix_ignored",
    "C61_refuted"
   ],
   "note": "Refuted: a supplied matrix never influences the result (general theorem and witness)."
  },
  {
   "property": "C62",
   "status": "partial",
   "theorems": [
    "C62_refuted",
    "C62_arrays_partial"
   ],
   "note": "Refuted: every dict raises. Arrays over the z axis work (C62_arrays_partial)."
  },
  {
   "property": "C63",
   "status": "proved",
   "theorems": [
    "C63_beam_line"
   ],
   "note": "Nearest line, whole profile, every other entry unchanged."
  },
  {
   "property": "C64",
   "status": "proved",
   "theorems": [
    "C64_bunch"
   ],
   "note": "Over the reals: total charge by integrating the Gaussian over the line, positivity, single maximum and symmetry about the moving centre."
  },
  {
   "property": "C65",
   "status": "partial",
   "theorems": [
    "C65_ratio_partial",
    "C65_impedance_refuted"
   ],
   "note": "Refuted: E/H is mu0 vp c / w (C65_impedance_refuted). C65_ratio_partial gives the exact ratio and the untouched entries."
  },
  {
   "property": "C66",
   "status": "partial",
   "theorems": [
    "C66_harris_partial",
    "C66_gaussian",
    "C66_rectangular",
    "C66_before_delay_refuted"
   ],
   "note": "Refuted before the delay (C66_before_delay_refuted). C66_harris_partial: from the delay on, in [0,1], continuous, zero at both ends and after."
  },
  {
   "property": "C67",
   "status": "proved",
   "theorems": [
    "C67_fourier_sum",
    "C67_sinusoid"
   ],
   "note": "Fourier sum over every update for any field; over the reals a sinusoid over whole half-periods gives n/2 A e^(i phi)."
  },
  {
   "property": "C68",
   "status": "partial",
   "theorems": [
    "C68_keys_partial",
    "C68_colours_refuted",
    "C68_files"
   ],
   "note": "Refuted: a file with fewer colours than solids raises IndexError (C68_colours_refuted). C68_keys_partial: keys agree, are distinct, safe and numbered; colours when there are enough of them."
  },
  {
   "property": "C69",
   "status": "partial",
   "theorems": [
    "C69_found_partial",
    "C69_refuted",
    "C69_unassigned"
   ],
   "note": "Refuted: a layer called 'lossy metal' becomes 'lossy-metal', which the library lacks (C69_refuted); solids without layer raise KeyError (C69_unassigned). C69_found_partial for every other library name in any case."
  },
  {
   "property": "C70",
   "status": "partial",
   "theorems": [
    "C70_longitudinal_fails",
    "C70_longitudinal_refuted"
   ],
   "note": "Refuted: AttributeError on rank 0 for every grid and rank count (general theorem and witness)."
  },
  {
   "property": "C71",
   "status": "partial",
   "theorems": [
    "C71_inner_partial",
    "C71_edges",
    "C71_refuted"
   ],
   "note": "Refuted: at the first cell the window is empty and the run fails (general theorem C71_edges and witness); at the last cell it has two cells. C71_inner_partial for inner cells."
  },
  {
   "property": "C72",
   "status": "proved",
   "theorems": [
    "C72_faraday"
   ],
   "note": "No magnetic walls; faces on the last layers of their own two axes have no stored edges and are excluded."
  },
  {
   "property": "C73",
   "status": "proved",
   "theorems": [
    "C73_ampere"
   ],
   "note": "No magnetic walls."
  },
  {
   "property": "C74",
   "status": "proved",
   "theorems": [
    "C74_run_total"
   ],
   "note": ""
  },
  {
   "property": "C75",
   "status": "partial",
   "theorems": [
    "C75_neighbor_refuted",
    "C75_neighbor_partial",
    "C75_subdivision_fails"
   ],
   "note": "Refuted for 'neighbor' with close snaps (witness) and for 'subdivision' (general theorem). C75_neighbor_partial: snaps more than a cell apart are all kept. 'insert' is C14."
  },
  {
   "property": "C76",
   "status": "partial",
   "theorems": [
    "C76_uniform_partial",
    "C76_refuted"
   ],
   "note": "Refuted on graded grids: the first two widths of the grid are used. C76_uniform_partial for equal widths."
  },
  {
   "property": "C77",
   "status": "partial",
   "theorems": [
    "C77_covered_partial",
    "C77_refuted"
   ],
   "note": "Refuted for the last sample when the wake length is not a whole number of steps. C77_covered_partial for every sample at least one step before the end."
  },
  {
   "property": "C78",
   "status": "partial",
   "theorems": [
    "C78_own_widths_partial",
    "C78_refuted",
    "C78_longitudinal_fails"
   ],
   "note": "Refuted: widths are taken from the start of dz (witness); longitudinal records raise ValueError for every skip (general theorem). C78_own_widths_partial for equal widths."
  },
  {
   "property": "C79",
   "status": "partial",
   "theorems": [
    "C79_mirror_partial",
    "C79_refuted"
   ],
   "note": "Refuted on graded grids (witness). C79_mirror_partial for mirror-symmetric widths."
  },
  {
   "property": "C80",
   "status": "partial",
   "theorems": [
    "C80_next_cell_partial",
    "C80_refuted"
   ],
   "note": "Refuted: the cell after the centre is used in both directions (C80_next_cell_partial gives the exact value, witness in C80_refuted)."
  },
  {
   "property": "C81",
   "status": "partial",
   "theorems": [
    "C81_long_partial",
    "C81_trans_partial",
    "C81_cropped",
    "C81_refuted"
   ],
   "note": "Refuted: samples beyond floor(v/ds/fmax)*samples are ignored (C81_cropped, witness C81_refuted). C81_long_partial and C81_trans_partial for data no longer than the transform."
  },
  {
   "property": "C82",
   "status": "partial",
   "theorems": [
    "C82_reaches_partial",
    "C82_refuted"
   ],
   "note": "Refuted: when fmax exceeds half the sampling rate the axis stops near v/(2 ds). C82_reaches_partial for 2 fmax <= v/ds."
  },
  {
   "property": "C83",
   "status": "partial",
   "theorems": [
    "C83_nonsquare",
    "C83_square_partial",
    "C83_transposed_refuted",
    "C83_wide_refuted"
   ],
   "note": "Refuted: ValueError whenever Nx differs from Ny (C83_nonsquare, C83_wide_refuted), transposed otherwise (C83_transposed_refuted). C83_square_partial for equal axes."
  },
  {
   "property": "C84",
   "status": "partial",
   "theorems": [
    "C84_defaults",
    "C84_refuted"
   ],
   "note": "Refuted: TypeError for every omitted frequency (C84_defaults, C84_refuted)."
  },
  {
   "property": "C85",
   "status": "partial",
   "theorems": [
    "C85_default",
    "C85_refuted"
   ],
   "note": "Refuted: with c > 50 the default window ends before the first step (C85_default, C85_refuted)."
  },
  {
   "property": "C86",
   "status": "partial",
   "theorems": [
    "C86_same_grid_partial",
    "C86_reuse_refuted"
   ],
   "note": "Refuted: the indices of the first grid are kept (C86_reuse_refuted). C86_same_grid_partial: reuse on the same grid is safe."
  },
  {
   "property": "C87",
   "status": "proved",
   "theorems": [
    "C87_ranks_inject_the_same_bunch"
   ],
   "note": "Uniform z axis, same axes on all ranks, as the code lays them out."
  },
  {
   "property": "C88",
   "status": "proved",
   "theorems": [
    "C88_dipole",
    "C88_pulse",
    "C88_two_letters"
   ],
   "note": "For all index keys, fields and components."
  },
  {
   "property": "C89",
   "status": "proved",
   "theorems": [
    "C89_run_current"
   ],
   "note": "By induction on the steps, without absorbing walls between steps."
  },
  {
   "property": "C90",
   "status": "partial",
   "theorems": [
    "C90_conduction_lost_refuted"
   ],
   "note": "Refuted: the beam overwrites the conduction current (C90_conduction_lost_refuted)."
  },
  {
   "property": "C91",
   "status": "proved",
   "theorems": [
    "C91_layers"
   ],
   "note": "For all lists of lines."
  },
  {
   "property": "C92",
   "status": "partial",
   "theorems": [
    "C92_one_step_late_partial",
    "C92_refuted"
   ],
   "note": "Refuted: the monitor sees the field one step later (C92_refuted). C92_one_step_late_partial gives the exact sum it accumulates."
  },
  {
   "property": "C93",
   "status": "partial",
   "theorems": [
    "C93_both_partial",
    "C93_longitudinal",
    "C93_refuted"
   ],
   "note": "Refuted: WPy comes back as WPx (C93_refuted); longitudinal runs cannot be loaded (C93_longitudinal). C93_both_partial: everything else for runs of both planes."
  },
  {
   "property": "C94",
   "status": "partial",
   "theorems": [
    "C94_given_snaps_fail",
    "C94_no_solids_fail",
    "C94_given_snaps_refuted",
    "C94_solids_partial"
   ],
   "note": "Refuted for snap points given by the caller: the construction always fails (C94_given_snaps_fail, C94_given_snaps_refuted), also with no solids at all (C94_no_solids_fail). C94_solids_partial for snap points taken from solids with method 'insert'."
  },
  {
   "property": "C95",
   "status": "partial",
   "theorems": [
    "C95_same_for_all",
    "C95_colour_list",
    "C95_short_list",
    "C95_one_colour_refuted",
    "C95_missing_entry_fails"
   ],
   "note": "Refuted for a single colour string, which stays a string (C95_one_colour_refuted). Everything else: C95_same_for_all, C95_colour_list, C95_short_list, C95_missing_entry_fails."
  },
  {
   "property": "C96",
   "status": "partial",
   "theorems": [
    "C96_every_solid",
    "C96_same_material_refuted",
    "C96_same_material_partial"
   ],
   "note": "Refuted: 'PEC' and 'pec', or float('inf') and np.inf, are the same material for the solver but get different colours (C96_same_material_refuted). C96_every_solid and C96_same_material_partial hold."
  },
  {
   "property": "C97",
   "status": "proved",
   "theorems": [
    "C97_placement",
    "C97_masks"
   ],
   "note": "Over the reals, with pyvista's rotations by degrees about the axes through the origin."
  },
  {
   "property": "C98",
   "status": "partial",
   "theorems": [
    "C98_extents",
    "C98_custom",
    "C98_incomplete",
    "C98_one_axis_refuted",
    "C98_mpi_uniform"
   ],
   "note": "Refuted: a single custom axis given with extents is ignored (C98_one_axis_refuted); with MPI the refined z axis is replaced by a uniform one (C98_mpi_uniform). C98_extents, C98_custom, C98_incomplete hold."
  },
  {
   "property": "C99",
   "status": "partial",
   "theorems": [
    "C99_prefix_partial",
    "C99_none",
    "C99_refuted"
   ],
   "note": "Refuted for other prefixes (.MICRO.), for a definition after the first 10000 characters, and for metres written '$' ahead of another definition (C99_refuted). C99_prefix_partial for MILLI, CENTI, DECI, KILO and none; C99_none without a definition."
  },
  {
   "property": "C100",
   "status": "partial",
   "theorems": [
    "C100_fmax",
    "C100_alias_refuted",
    "C100_values",
    "C100_no_times",
    "C100_harmonic",
    "C100_constant_doubled",
    "C100_tail_refuted"
   ],
   "note": "Refuted for constants, which come out doubled (C100_constant_doubled), for zero tails (C100_tail_refuted), and with fmax for components above it, which appear at other frequencies (C100_alias_refuted). C100_values and C100_harmonic hold without fmax; C100_fmax: with fmax the result is that of the wake resampled every 1/(2 fmax)."
  },
  {
   "property": "C101",
   "status": "partial",
   "theorems": [
    "C101_exact_partial",
    "C101_roundtrip_refuted",
    "C101_two_values"
   ],
   "note": "Refuted (C101_roundtrip_refuted): the result is reversed in time, negated, and lacks the mean. C101_exact_partial gives the exact relation for every wake."
  },
  {
   "property": "C102",
   "status": "partial",
   "theorems": [
    "C102_array",
    "C102_file",
    "C102_dict_fails",
    "C102_dict_refuted",
    "C102_outside_refuted",
    "C102_analytic"
   ],
   "note": "Refuted for dicts, which always fail (C102_dict_fails, C102_dict_refuted), and outside the axis (C102_outside_refuted). C102_array and C102_analytic hold."
  },
  {
   "property": "C103",
   "status": "partial",
   "theorems": [
    "C103_files",
    "C103_refuted"
   ],
   "note": "Refuted when objects and declarations differ in number (C103_refuted). C103_files otherwise, with the exact failure."
  },
  {
   "property": "C104",
   "status": "partial",
   "theorems": [
    "C104_plane",
    "C104_rect",
    "C104_out_circle",
    "C104_in_circle_partial",
    "C104_in_circle_refuted",
    "C104_assembly"
   ],
   "note": "Refuted for InCircle with different centre coordinates, which exchanges them (C104_in_circle_refuted); C104_in_circle_partial for equal ones. C104_plane, C104_rect, C104_out_circle, C104_assembly hold."
  },
  {
   "property": "C105",
   "status": "partial",
   "theorems": [
    "C105_plane",
    "C105_rect",
    "C105_built",
    "C105_circle_refuted"
   ],
   "note": "Refuted for circles: the nearest boundary point may lie beyond the edge (C105_circle_refuted). C105_plane for every line; C105_rect for rectangles more than two cells wide and high."
  },
  {
   "property": "C106",
   "status": "partial",
   "theorems": [
    "C106_plane",
    "C106_rect_refuted"
   ],
   "note": "Refuted at the corner of a rectangle, where half the free area is stored (C106_rect_refuted). C106_plane holds for every line and cell."
  },
  {
   "property": "C107",
   "status": "partial",
   "theorems": [
    "C107_refuted",
    "C107_partial"
   ],
   "note": "Refuted: S is relative and S_stab is not, so scaling changes the flags (C107_refuted). C107_partial: with dx dy <= 1 the flagged cells are small."
  },
  {
   "property": "C108",
   "status": "partial",
   "theorems": [
    "C108_ect"
   ],
   "note": "Refuted in general form by C108_ect: S_red is zero throughout, so no cell is ever extended, and construction raises as soon as one cell is unstable."
  },
  {
   "property": "C109",
   "status": "proved",
   "theorems": [
    "C109_energy",
    "C109_bounded"
   ],
   "note": "C109_energy over every field; C109_bounded over the reals with the solver's own time step. Without absorbing walls."
  },
  {
   "property": "C110",
   "status": "partial",
   "theorems": [
    "C110_energy",
    "C110_free",
    "C110_bounded_partial",
    "C110_refuted"
   ],
   "note": "Refuted: areas are relative to the cell, so the scheme depends on the unit of length; with cells of area 25 the field grows fourfold per step (C110_refuted). C110_energy for all conductors; bounded without conductors and with dx dy <= 1 (C110_bounded_partial, C110_free)."
  },
  {
   "property": "C111",
   "status": "proved",
   "theorems": [
    "C111_ect"
   ],
   "note": "C111_ect: equal fields on every grid built for ECT (none of which has an extended cell, C108)."
  },
  {
   "property": "C112",
   "status": "partial",
   "theorems": [
    "C112_complete_partial",
    "C112_fails",
    "C112_refuted"
   ],
   "note": "Refuted: five of the sixteen choices raise AttributeError (C112_fails), one leaves a corner block without coefficients (C112_refuted). C112_complete_partial for the other ten."
  },
  {
   "property": "C113",
   "status": "partial",
   "theorems": [
    "C113_square_partial",
    "C113_names_partial",
    "C113_rectangular_refuted",
    "C113_short_file_refuted"
   ],
   "note": "Refuted for fewer points in x than in y (values overwritten without error, C113_rectangular_refuted) and for a later file that is cut short (keeps the values of the previous file, C113_short_file_refuted). C113_square_partial for n x n x m points and any number of files; C113_names_partial for the order of up to 100000 datasets."
  },
  {
   "property": "C114",
   "status": "partial",
   "theorems": [
    "C114_written_partial",
    "C114_complex_refuted",
    "C114_nested_folder_refuted",
    "C114_no_folder_fails"
   ],
   "note": "Refuted: an array of complex numbers raises and cuts the file (C114_complex_refuted); a folder in a missing folder is not created (C114_nested_folder_refuted). C114_written_partial for every other log; C114_no_folder_fails."
  },
  {
   "property": "C115",
   "status": "partial",
   "theorems": [
    "C115_grid_partial",
    "C115_solids",
    "C115_refined_refuted",
    "C115_solver_partial",
    "C115_dt_refuted"
   ],
   "note": "Refuted: counts are those before refinement (C115_refined_refuted), the time step the one before the limit of the relaxation time (C115_dt_refuted). C115_grid_partial without refinement and MPI; C115_solids for materials and placement with every argument; C115_solver_partial for every solver."
  },
  {
   "property": "C116",
   "status": "partial",
   "theorems": [
    "C116_values_partial",
    "C116_place_partial",
    "C116_solid",
    "C116_graded_refuted",
    "C116_graded_title_refuted",
    "C116_slices_refuted",
    "C116_end_fails",
    "C116_unknown_names"
   ],
   "note": "Refuted on a mesh that is not uniform (boxes C116_graded_refuted, title C116_graded_title_refuted) and for planes given as slices (C116_slices_refuted); pos=1 always raises (C116_end_fails), so does any other plane name (C116_unknown_names). C116_values_partial for the values on every mesh, C116_place_partial for the boxes on a uniform mesh, C116_solid for the overlay."
  },
  {
   "property": "C117",
   "status": "partial",
   "theorems": [
    "C117_curves_partial",
    "C117_eight_fail",
    "C117_eight_refuted",
    "C117_abs_refuted",
    "C117_end_refuted"
   ],
   "note": "Refuted for more than seven positions (C117_eight_refuted, C117_eight_fail), field='EAbs' (C117_abs_refuted) and pos=1 (C117_end_refuted). C117_curves_partial for up to seven positions below 1 on a named line; a line given as slices is not modelled."
  },
  {
   "property": "C118",
   "status": "partial",
   "theorems": [
    "C118_bounded_partial",
    "C118_conductor_refuted"
   ],
   "note": "Refuted for conductors with cfln**2 above 1/2: the loss is taken explicitly and the limit by the relaxation time alone does not suffice (C118_conductor_refuted, growth by 1.24 per step). C118_bounded_partial: bounded for cfln < 1 without conductivity and for 2*cfln**2 < 1 with it, on every graded mesh, with solids, conductors and pml."
  },
  {
   "property": "C119",
   "status": "partial",
   "theorems": [
    "C119_faraday",
    "C119_ampere",
    "C119_electric_wall_refuted"
   ],
   "note": "Refuted: as soon as one wall is magnetic, tangential H is held on the electric walls too (C119_electric_wall_refuted). C119_faraday and C119_ampere give the exact law for every combination of walls."
  },
  {
   "property": "C120",
   "status": "partial",
   "theorems": [
    "C120_plane",
    "C120_cube",
    "C120_sphere_partial",
    "C120_sphere_refuted",
    "C120_assembly_partial",
    "C120_assembly_refuted",
    "C120_out_partial",
    "C120_out_refuted"
   ],
   "note": "Refuted: spheres off the origin along the line (C120_sphere_refuted), out_conductor of a ball, which calls itself for ever (C120_out_refuted), a missed sphere listed first in an assembly hides the others (C120_assembly_refuted). C120_plane and C120_cube in full; C120_sphere_partial for centre 0 along the line; C120_assembly_partial gives the nearest crossing among the members before the first nan; C120_out_partial for the other shapes."
  },
  {
   "property": "C121",
   "status": "partial",
   "theorems": [
    "C121_built_partial",
    "C121_sphere_partial",
    "C121_refuted"
   ],
   "note": "Refuted: dz is the y extent over nz, so a box with another z extent gets wrong edges (C121_refuted). C121_built_partial for equal y and z extents with planes, boxes of more than two cells and no conductor; C121_sphere_partial for balls and cavities about the origin."
  },
  {
   "property": "C122",
   "status": "partial",
   "theorems": [
    "C122_plane_partial",
    "C122_cube_refuted"
   ],
   "note": "Refuted at the corner of a box (C122_cube_refuted). C122_plane_partial for every plane when the y and z extents agree, in all three orientations."
  },
  {
   "property": "C123",
   "status": "proved",
   "theorems": [
    "C123_energy",
    "C123_bounded"
   ],
   "note": "Without absorbing walls, for every conductor: only the cells and edges that are updated enter, whatever the grid says."
  },
  {
   "property": "C124",
   "status": "partial",
   "theorems": [
    "C124_energy",
    "C124_face",
    "C124_free",
    "C124_bounded_partial",
    "C124_refuted"
   ],
   "note": "Refuted: areas are stored as fractions but used as areas, so on cubes of side 5 the field grows fourfold in every step (C124_refuted). C124_face: each half step of H is off by the area of a face; C124_free: on cubes the plain scheme with mu over the area of a face; C124_bounded_partial when cfln times the side is below 1; C124_energy: with any conductor the scheme keeps an energy of its own."
  },
  {
   "property": "C125",
   "status": "partial",
   "theorems": [
    "C125_setup_partial",
    "C125_missing_refuted",
    "C125_size_refuted",
    "C125_thick_refuted",
    "C125_corner_refuted",
    "C125_mirror_refuted"
   ],
   "note": "Refuted: a corner at the unset z side (C125_missing_refuted, AttributeError), high y with a z wall but no low y (C125_size_refuted, IndexError), blocks of the wrong thickness (C125_thick_refuted), corners without conductivity (C125_corner_refuted), high x and z walls scaled with dy (C125_mirror_refuted). C125_setup_partial for all other choices of walls, layers and sizes."
  },
  {
   "property": "C126",
   "status": "partial",
   "theorems": [
    "C126_partial",
    "C126_ect_refuted"
   ],
   "note": "Refuted for 'ECT', whose step calls a method that does not exist (C126_ect_refuted). C126_partial for 'FDTD', 'DM' and rejected names."
  },
  {
   "property": "C127",
   "status": "partial",
   "theorems": [
    "C127_fdtd_partial",
    "C127_dm_partial",
    "C127_current_refuted",
    "C127_dm_refuted"
   ],
   "note": "Refuted: a current on the wall enters the field of the grid only (C127_current_refuted); 'DM' divides by dy along x too (C127_dm_refuted). C127_fdtd_partial and C127_dm_partial (square cells) for all walls that can be built, all conductors and all currents off the walls."
  },
  {
   "property": "C128",
   "status": "proved",
   "theorems": [
    "C128_reach"
   ],
   "note": "For every choice of walls for which the constructor returns, both schemes, every conductor and every arithmetic."
  },
  {
   "property": "C129",
   "status": "partial",
   "theorems": [
    "C129_inside_partial",
    "C129_wall_refuted"
   ],
   "note": "Refuted on the edges of an absorbing wall (C129_wall_refuted): they are updated whether or not they lie in a conductor. C129_inside_partial for all other edges and all cells."
  },
  {
   "property": "C130",
   "status": "partial",
   "theorems": [
    "C130_refuted",
    "C130_layers_partial"
   ],
   "note": "Refuted on square cells without conductors (C130_refuted). C130_layers_partial: the cells of opposite walls have the same conductivity up to dx against dy, but every edge behind the first takes more on the high wall."
  },
  {
   "property": "C131",
   "status": "partial",
   "theorems": [
    "C131_uniform_partial"
   ],
   "note": "C131_uniform_partial: one absorbing low x wall of at least two layers, no conductors, fields that do not vary along the wall, any number of steps. Not shown: fields that vary along the wall, several walls, conductors."
  },
  {
   "property": "C132",
   "status": "proved",
   "theorems": [
    "C132_one_grid"
   ],
   "note": "The fields of the larger grid are given, follow the equations from zero, and after every step the grid and each block hold their part of them. The high x wall takes dy where the low one takes dx (C130)."
  },
  {
   "property": "C133",
   "status": "partial",
   "theorems": [
    "C133_layers_refuted",
    "C133_permittivity_partial",
    "C133_same_material_partial",
    "C133_dead_layer",
    "C133_conductor_behind_refuted"
   ],
   "note": "Refuted: every cell of a layer takes the permittivity of the reference cell, so a plate of perfect conductor stops being one where it enters the layer (C133_layers_refuted, E moves there); and when the reference cell is a conductor in a lossless box the constructor fails (C133_conductor_behind_refuted). C133_permittivity_partial gives the permittivity of every cell of every layer, C133_same_material_partial the case in which the solid also covers the reference cell, C133_dead_layer the layer behind a conductor, where E never changes."
  },
  {
   "property": "C134",
   "status": "partial",
   "theorems": [
    "C134_data_partial",
    "C134_optimiser_partial",
    "C134_bounds_blind",
    "C134_fit_refuted"
   ],
   "note": "Refuted in three parts (C134_fit_refuted): the bound finder is called with None for both data, so its bounds never depend on the impedance (general: C134_bounds_blind); data are ignored when only one of the two arrays is given; an optimiser name other than 'DE' and 'CMAES' runs no optimiser. C134_data_partial: with bounds given the fit gets the right data; C134_optimiser_partial: with a known name the optimiser runs once with the settings given. iddefix is a parameter."
  },
  {
   "property": "C135",
   "status": "partial",
   "theorems": [
    "C135_extrapolated_partial",
    "C135_errors",
    "C135_same_axis",
    "C135_beta_refuted"
   ],
   "note": "Refuted for beta below 1, where the time is s/c (C135_beta_refuted). C135_extrapolated_partial, over the reals: distances, their number, values for beta = 1, and agreement with every sample of an equidistant computed wake; C135_errors: before a fit and with fewer than three samples it raises."
  },
  {
   "property": "C136",
   "status": "partial",
   "theorems": [
    "C136_gathered",
    "C136_serial_partial",
    "C136_tiles_partial",
    "C136_other_ranks",
    "C136_refined_refuted",
    "C136_layers_refuted"
   ],
   "note": "Refuted twice: the refinement options are not handed on, so a refined grid comes back with equal cells and without the snapped nodes (C136_refined_refuted; general: C136_gathered), and a number of layers that is not a multiple of the number of ranks comes back rounded down (C136_layers_refuted). C136_serial_partial: without refinement the gathered grid is the serial one with that many layers, in all its parts; C136_tiles_partial: it has the nodes of every tile; C136_other_ranks: None elsewhere, AttributeError without MPI."
  },
  {
   "property": "C137",
   "status": "partial",
   "theorems": [
    "C137_renamed_partial",
    "C137_underscore",
    "C137_overwrite_refuted"
   ],
   "note": "Refuted: two exports of the same time in different notation (1.5E-02 and 15E-03) get the same name and the later one silently replaces the earlier (C137_overwrite_refuted); a prefix with an underscore stops the reading with ValueError (C137_underscore). C137_renamed_partial: when the new names are different from each other and from the names of the other exports, every export is found under its time with its content, with the .old copy, and no other .txt file appears. float() and str() are parameters; str() of the times must read back and hold no underscore and no capital E."
  }
 ]
}