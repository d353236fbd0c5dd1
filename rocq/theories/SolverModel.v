(** Model of the time-domain solver, /repo/wakis/solverFIT3D.py (CPU path).

    The MKL and GPU paths compute the same products through other libraries and are not
    modelled separately.  Logging, printing and plotting are not modelled. *)
From Coq Require Import List Arith ZArith Bool String Lia.
From Verif Require Import Num Vec Index Matrix FieldModel GridModel.
Import ListNotations.

(** Order test used by the code ("<" on numbers). *)
Class NumOrd (T : Type) : Type := { nltb : T -> T -> bool }.

(** ** Boundary names *)
Record bc3 : Type := { bcx : string; bcy : string; bcz : string }.
Definition bc_at (b : bc3) (a : nat) : string :=
  match a with 0 => bcx b | 1 => bcy b | _ => bcz b end.
Definition axes : list nat := [0; 1; 2].

(** x.lower() == name *)
Definition named (s name : string) : bool := String.eqb (lower s) name.
(** x.lower() in ("electric", "pec", "pml") (771-789) *)
Definition is_pec (s : string) : bool := named s "electric" || named s "pec" || named s "pml".
(** outer test of the PMC block, x.lower() in ("magnetic", "pmc") (809-811) *)
Definition is_pmc_any (s : string) : bool := named s "magnetic" || named s "pmc".
(** inner test of the PMC block, x.lower() == "magnetic" or x == "pmc" (812-823) *)
Definition is_pmc_face (s : string) : bool := named s "magnetic" || String.eqb s "pmc".
Definition any_bc (p : string -> bool) (b : bc3) : bool := existsb (fun a => p (bc_at b a)) axes.

(** Keys of a plane normal to axis [a]: F[z,:,:,c], F[:,z,:,c], F[:,:,z,c]. *)
Definition cname (c : nat) : ckey := CStr (match c with 0 => "x" | 1 => "y" | _ => "z" end).
Definition plane_key (a : nat) (z : Z) (c : nat) : key :=
  match a with
  | 0 => KTup (KI z) kfull kfull (cname c)
  | 1 => KTup kfull (KI z) kfull (cname c)
  | _ => KTup kfull kfull (KI z) (cname c)
  end.
(** Key of a single cell. *)
Definition cell_key (zx zy zz : Z) (c : nat) : key := KTup (KI zx) (KI zy) (KI zz) (cname c).

(** Sequencing of assignments. *)
Fixpoint seq_upd {A B} (f : A -> B -> result A) (a : A) (l : list B) : result A :=
  match l with
  | [] => Ok a
  | b :: r => do a' <- f a b; seq_upd f a' r
  end.

Section SolverModel.
  Context {T : Type} {NT : Num T} {OT : NumOrd T}.

  (** Physical constants and library functions the code imports (lines 8-25 and the
      attributes set at 251-254): scipy constants, np.sqrt, np.geomspace. *)
  Record Env : Type := {
    e_eps0 : T; e_mu0 : T; e_c : T;
    e_pml_lo : T; e_pml_hi : T;
    e_sqrt : T -> T;
    e_geom : T -> T -> nat -> list T
  }.

  (** Possibly infinite relative permittivity / permeability (np.inf). *)
  Inductive ext_num : Type := Fin (x : T) | Inf.
  (** Material given by library name or as [eps_r, mu_r] / [eps_r, mu_r, sigma]. *)
  Inductive material : Type :=
  | MName (s : string)
  | MList (eps mu : ext_num) (sigma : option T).
  (** materials.py:26-33 *)
  Record mat_entry : Type := { me_eps : ext_num; me_mu : ext_num; me_sigma : option T }.
  Definition nofpos10 (m e : nat) : T :=
    nmul (nofnat m) (Nat.iter e (nmul (nofnat 10)) none_).
  Definition material_lib (s : string) : option mat_entry :=
    if String.eqb s "pec" then Some {| me_eps := Inf; me_mu := Fin none_; me_sigma := None |}
    else if String.eqb s "vacuum"
      then Some {| me_eps := Fin none_; me_mu := Fin none_; me_sigma := None |}
    else if String.eqb s "dielectric"
      then Some {| me_eps := Fin (nofnat 10); me_mu := Fin none_; me_sigma := None |}
    else if String.eqb s "lossy metal"
      then Some {| me_eps := Fin (nofnat 10); me_mu := Fin none_; me_sigma := Some (nofnat 10) |}
    else if String.eqb s "copper"
      then Some {| me_eps := Fin (nofpos10 58 6); me_mu := Fin none_; me_sigma := Some (nofpos10 58 6) |}
    else if String.eqb s "berillium"
      then Some {| me_eps := Fin (nofpos10 25 6); me_mu := Fin none_; me_sigma := Some (nofpos10 25 6) |}
    else None.
  (** material_lib[m.lower()] or the list itself; KeyError for an unknown name. *)
  Definition find_material (m : material) : result mat_entry :=
    match m with
    | MName s => match material_lib (lower s) with Some e => Ok e | None => Err KeyError end
    | MList e mu s => Ok {| me_eps := e; me_mu := mu; me_sigma := s |}
    end.
  (** num / (x_r * x_0): zero when x_r is infinite.  Division by zero is not modelled. *)
  Definition over_ext (num : T) (e : ext_num) (x0 : T) : T :=
    match e with Fin x => ndiv num (nmul x x0) | Inf => nzero end.

  (** An imported solid: name, cell mask flattened as stored in the pyvista grid, material. *)
  Record solid : Type := { so_key : string; so_mask : list bool; so_mat : material }.

  (** Operators kept until the first step (deleted by _attrcleanup, 1227-1237). *)
  Record Ops : Type := {
    opL : Field T; opiA : Field T; optL : Field T; opitA : Field T;   (* Ds, iDa, tDs, itDa *)
    opC : mat T
  }.

  Record Solver : Type := {
    sNx : nat; sNy : nat; sNz : nat;
    sE : Field T; sH : Field T; sJ : Field T;
    sieps : Field T; simu : Field T; ssigma : Field T;
    siDeps : list T; siDmu : list T;              (* diagonals of iDeps, iDmu *)
    sdt : T;
    scond : bool; sabc : bool; spml : bool;
    sbl : bc3; sbh : bc3;
    sstep0 : bool;
    smH : mat T; smE : mat T;                     (* tDsiDmuiDaC, itDaiDepsDstC *)
    sops : option Ops
  }.
  Definition sN (s : Solver) : nat := sNx s * sNy s * sNz s.

  (** ** Curl matrix (186-206) *)
  Definition curl (Nx Ny N : nat) : mat T :=
    let Px := mshift 1 in let Py := mshift Nx in let Pz := mshift (Nx * Ny) in
    mblock N (fun r c =>
      match r, c with
      | 0, 1 => mopp Pz | 0, 2 => Py
      | 1, 0 => Pz      | 1, 2 => mopp Px
      | 2, 0 => mopp Py | 2, 1 => Px
      | _, _ => mzero
      end).

  (** diags(F.toarray()) *)
  Definition diags (F : Field T) : mat T := mdiag (get (toarray F)).

  (** ** Boundary conditions (714-882) *)

  (** dst[zd plane of axis a, component c] = src[zs plane of axis a, component c] *)
  Definition copy_plane (dst : Field T) (a : nat) (zd : Z) (src : Field T) (zs : Z) (c : nat)
    : result (Field T) :=
    do v <- getitem (fun x => x) src (plane_key a zs c);
    setitem dst (plane_key a zd c) (VArr v).

  (** tL[-1,..,a] = L[0,..,a]; itA[-1,..,d] = iA[0,..,d] for the two d <> a
      (741-759 and 850-863). *)
  Definition wrap_axis (L iA : Field T) (tm : Field T * Field T) (a : nat)
    : result (Field T * Field T) :=
    do tL <- copy_plane (fst tm) a (-1) L 0 a;
    do itA <- seq_upd (fun F d => copy_plane F a (-1) iA 0 d) (snd tm)
                      (filter (fun d => negb (d =? a)) axes);
    Ok (tL, itA).

  (** The mask field BC: ones, then one assignment per component and tangential face, in
      the order of the loop (790-800 and 825-836). *)
  Definition mask_assigns (lo hi : nat -> T) : list (nat * nat * Z * T) :=
    flat_map (fun d => flat_map (fun a =>
      if d =? a then [] else [(d, a, 0%Z, lo a); (d, a, (-1)%Z, hi a)]) axes) axes.
  Definition set_plane (F : Field T) (p : nat * nat * Z * T) : result (Field T) :=
    let '(d, a, z, v) := p in setitem F (plane_key a z d) (VNum v).
  Definition bc_mask (Nx Ny Nz : nat) (lo hi : nat -> T) : result (Field T) :=
    seq_upd set_plane (field_ones Nx Ny Nz) (mask_assigns lo hi).

  Record BcOut : Type := {
    bo_tL : Field T; bo_itA : Field T; bo_C : mat T;
    bo_abc : bool; bo_pml : bool
  }.

  Definition apply_bc (g : Grid T) (bl bh : bc3) : result BcOut :=
    let Nx := gNx g in let Ny := gNy g in let Nz := gNz g in
    let N := Nx * Ny * Nz in
    let C0 := curl Nx Ny N in
    (* periodic, 736-768 *)
    do tm <- (if any_bc (fun s => named s "periodic") bl then
                seq_upd (fun tm a =>
                  if named (bc_at bl a) "periodic" && named (bc_at bh a) "periodic"
                  then wrap_axis (gL g) (giA g) tm a else Ok tm) (gtL g, gitA g) axes
              else Ok (gtL g, gitA g));
    (* PEC, 771-806: columns *)
    let plo a := if is_pec (bc_at bl a) then nzero else none_ in
    let phi a := if is_pec (bc_at bh a) then nzero else none_ in
    do C1 <- (if any_bc is_pec bl || any_bc is_pec bh then
                do BC <- bc_mask Nx Ny Nz plo phi; Ok (mmul (3 * N) C0 (diags BC))
              else Ok C0);
    (* PMC, 809-844: rows; xlo ... zhi keep the values of the PEC block *)
    do C2 <- (if any_bc is_pmc_any bl || any_bc is_pmc_any bh then
                do BC <- bc_mask Nx Ny Nz
                   (fun a => if is_pmc_face (bc_at bl a) then nzero else plo a)
                   (fun a => if is_pmc_face (bc_at bh a) then nzero else phi a);
                Ok (mmul (3 * N) (diags BC) C1)
              else Ok C1);
    (* ABC, 847-875 *)
    let abc := any_bc (fun s => named s "abc") bl || any_bc (fun s => named s "abc") bh in
    do tm2 <- (if abc then
                 seq_upd (fun tm a =>
                   if named (bc_at bh a) "abc"
                   then wrap_axis (gL g) (giA g) tm a else Ok tm) tm axes
               else Ok tm);
    (* PML, 878-882 *)
    let pml := any_bc (fun s => named s "pml") bl || any_bc (fun s => named s "pml") bh in
    Ok {| bo_tL := fst tm2; bo_itA := snd tm2; bo_C := C2; bo_abc := abc; bo_pml := pml |}.

  (** ** Materials (219-244, 1156-1225) *)
  Record Mats : Type := {
    mt_ieps : Field T; mt_imu : Field T; mt_sigma : Field T; mt_cond : bool
  }.

  Definition uniform_field (Nx Ny Nz : nat) (x : T) : result (Field T) :=
    fmul (field_ones Nx Ny Nz) (ONum x).

  (** np.reshape(mask, (Nx, Ny, Nz)).astype(int): C order. *)
  Definition mask_arr (Nx Ny Nz : nat) (mask : list bool) (f : T -> T) : result (ndarray T) :=
    if List.length mask =? Nx * Ny * Nz then
      Ok {| shape := [Nx; Ny; Nz];
            dat := map (fun b : bool => f (if b then none_ else nzero)) mask |}
    else Err ValueError.

  (** F += F * (-1.0 * mask) *)
  Definition clear_mask (Nx Ny Nz : nat) (F : Field T) (mask : list bool) : result (Field T) :=
    do m <- mask_arr Nx Ny Nz mask (fun x => nmul (nopp none_) x);
    do G <- fmul F (OArr m);
    fadd F (OField G).
  (** F += mask * 1.0 / x  or  F += mask * sigma *)
  Definition add_mask (Nx Ny Nz : nat) (F : Field T) (mask : list bool) (f : T -> T)
    : result (Field T) :=
    do m <- mask_arr Nx Ny Nz mask f;
    fadd F (OArr m).

  Definition apply_solid (env : Env) (Nx Ny Nz : nat) (sigma_bg : T) (M : Mats) (so : solid)
    : result Mats :=
    do e <- find_material (so_mat so);
    do ie0 <- clear_mask Nx Ny Nz (mt_ieps M) (so_mask so);
    do im0 <- clear_mask Nx Ny Nz (mt_imu M) (so_mask so);
    do ie <- add_mask Nx Ny Nz ie0 (so_mask so)
               (fun m => over_ext (nmul m none_) (me_eps e) (e_eps0 env));
    do im <- add_mask Nx Ny Nz im0 (so_mask so)
               (fun m => over_ext (nmul m none_) (me_mu e) (e_mu0 env));
    match me_sigma e with
    | Some s =>
        do sg0 <- clear_mask Nx Ny Nz (mt_sigma M) (so_mask so);
        do sg <- add_mask Nx Ny Nz sg0 (so_mask so) (fun m => nmul m s);
        Ok {| mt_ieps := ie; mt_imu := im; mt_sigma := sg; mt_cond := true |}
    | None =>
        if nltb nzero sigma_bg then
          do sg <- clear_mask Nx Ny Nz (mt_sigma M) (so_mask so);
          Ok {| mt_ieps := ie; mt_imu := im; mt_sigma := sg; mt_cond := mt_cond M |}
        else Ok {| mt_ieps := ie; mt_imu := im; mt_sigma := mt_sigma M; mt_cond := mt_cond M |}
    end.

  (** Background (219-240) followed by the solids (243-244). *)
  Definition build_materials (env : Env) (Nx Ny Nz : nat) (bg : material) (cond0 : bool)
             (solids : list solid) : result Mats :=
    do e <- find_material bg;
    let sigma_bg := match me_sigma e with Some s => s | None => nzero end in
    let cond := match me_sigma e with Some _ => true | None => cond0 end in
    do ie <- uniform_field Nx Ny Nz (over_ext none_ (me_eps e) (e_eps0 env));
    do im <- uniform_field Nx Ny Nz (over_ext none_ (me_mu e) (e_mu0 env));
    do sg <- uniform_field Nx Ny Nz sigma_bg;
    seq_upd (apply_solid env Nx Ny Nz sigma_bg)
      {| mt_ieps := ie; mt_imu := im; mt_sigma := sg; mt_cond := cond |} solids.

  (** ** PML conductivities (884-1001) *)

  (** v[a:b] = w for 1-D arrays. *)
  Definition slice_write (v : list T) (k : ikey) (w : list T) : result (list T) :=
    do l <- resolve (List.length v) k;
    if bcompat [List.length w] [List.length l] then
      Ok (tab (List.length v) (fun n => match pos_of n l with
            | Some p => bget (VArr {| shape := [List.length w]; dat := w |}) [p]
            | None => get v n end))
    else Err ValueError.

  (** Scalar read F[zx, zy, zz, c]. *)
  Definition read_cell (F : Field T) (zx zy zz : Z) (c : nat) : result T :=
    do v <- getitem (fun x => x) F (cell_key zx zy zz c); Ok (get (dat v) 0).

  (** Reference cell of the layer: [z] along axis [a], centre of the plane otherwise. *)
  Definition pml_ref (F : Field T) (a : nat) (z : Z) (c : nat) : result T :=
    let hx := Z.of_nat (fNx F / 2) in let hy := Z.of_nat (fNy F / 2) in
    let hz := Z.of_nat (fNz F / 2) in
    match a with
    | 0 => read_cell F z hy hz c
    | 1 => read_cell F hx z hz c
    | _ => read_cell F hx hy z c
    end.

  (** Body of one face: for each component read the reference and write the layers [zs].
      [prof z] is sx[z] with Python indexing. *)
  Definition pml_face (a : nat) (zref : Z) (zs : list Z) (prof : Z -> T)
             (st : Field T * Field T) (c : nat) : result (Field T * Field T) :=
    do ie0 <- pml_ref (fst st) a zref c;
    do sg0 <- pml_ref (snd st) a zref c;
    let mult := if nltb sg0 none_ then none_ else sg0 in
    seq_upd (fun st z =>
      do ie <- setitem (fst st) (plane_key a z c) (VNum ie0);
      do sg <- setitem (snd st) (plane_key a z c) (VNum (nadd sg0 (nmul mult (prof z))));
      Ok (ie, sg)) st zs.

  Definition pyget (v : list T) (z : Z) : T :=
    get v (Z.to_nat (if (z <? 0)%Z then z + Z.of_nat (List.length v) else z)%Z).

  (** The three profiles sx, sy, sz are kept between the low and the high loops. *)
  Record Pml : Type := { pm_ie : Field T; pm_sg : Field T; pm_prof : nat -> list T }.
  Definition pm_set (p : nat -> list T) (a : nat) (v : list T) : nat -> list T :=
    fun b => if b =? a then v else p b.

  Definition pml_low (env : Env) (n : nat) (bl : bc3) (P : Pml) (a : nat) : result Pml :=
    if named (bc_at bl a) "pml" then
      do sx <- slice_write (pm_prof P a) (krange 0 (Z.of_nat n))
                 (e_geom env (e_pml_hi env) (e_pml_lo env) n);
      do st <- seq_upd (pml_face a (Z.of_nat n + 1) (map Z.of_nat (seq 0 n)) (pyget sx))
                 (pm_ie P, pm_sg P) axes;
      Ok {| pm_ie := fst st; pm_sg := snd st; pm_prof := pm_set (pm_prof P) a sx |}
    else Ok P.

  Definition pml_high (env : Env) (n : nat) (bh : bc3) (P : Pml) (a : nat) : result Pml :=
    if named (bc_at bh a) "pml" then
      do sx <- slice_write (pm_prof P a) (KS (Some (- Z.of_nat n)%Z) None None)
                 (e_geom env (e_pml_lo env) (e_pml_hi env) n);
      do st <- seq_upd (pml_face a (- (Z.of_nat n + 1))
                          (map (fun i => - Z.of_nat (i + 1))%Z (seq 0 n)) (pyget sx))
                 (pm_ie P, pm_sg P) axes;
      Ok {| pm_ie := fst st; pm_sg := snd st; pm_prof := pm_set (pm_prof P) a sx |}
    else Ok P.

  Definition fill_pml (env : Env) (n : nat) (bl bh : bc3) (ie sg : Field T)
    : result (Field T * Field T) :=
    let zeros a := tab (match a with 0 => fNx ie | 1 => fNy ie | _ => fNz ie end)
                       (fun _ => nzero) in
    do P1 <- seq_upd (pml_low env n bl) {| pm_ie := ie; pm_sg := sg; pm_prof := zeros |} axes;
    do P2 <- seq_upd (pml_high env n bh) P1 axes;
    Ok (pm_ie P2, pm_sg P2).

  (** ** Time step (258-285) *)
  Definition nmin (a b : T) : T := if nltb b a then b else a.
  (** np.min of an array; ValueError when empty. *)
  Definition np_min (v : list T) : result T :=
    match v with [] => Err ValueError | x :: r => Ok (fold_left nmin r x) end.

  Definition inv_sq (x : T) : T := ndiv none_ (nmul x x).
  Definition cfl_dt (env : Env) (cfln : T) (dx dy dz : list T) : result T :=
    do mx <- np_min dx; do my <- np_min dy; do mz <- np_min dz;
    Ok (ndiv cfln (nmul (e_c env) (e_sqrt env (nadd (nadd (inv_sq mx) (inv_sq my)) (inv_sq mz))))).

  (** tau over the cells with sigma != 0 and ieps != 0 (276-282). *)
  Definition taus (ie sg : Field T) : list T :=
    flat_map (fun n =>
      let s := get (toarray sg) n in let e := get (toarray ie) n in
      if negb (neqb s nzero) && negb (neqb e nzero) then [ndiv (ndiv none_ e) s] else [])
      (seq 0 (List.length (toarray sg))).
  Definition relax_dt (cond : bool) (dt : T) (ie sg : Field T) : result T :=
    if cond then do t <- np_min (taus ie sg); Ok (if nltb t dt then t else dt)
    else Ok dt.

  (** ** Precomputed products (290-297) *)
  Definition mul3 (n : nat) (A B C D : mat T) : mat T := mmul n (mmul n (mmul n A B) C) D.
  Definition prodH (n : nat) (iA : Field T) (imu : list T) (C : mat T) (L : Field T) : mat T :=
    mul3 n (diags iA) (mdiag (get imu)) C (diags L).
  Definition prodE (n : nat) (ieps : list T) (itA : Field T) (C : mat T) (tL : Field T) : mat T :=
    mul3 n (mdiag (get ieps)) (diags itA) (mtrans C) (diags tL).

  (** ** Constructor (29-323) *)
  Record Args : Type := {
    ar_bl : bc3; ar_bh : bc3;
    ar_bg : material;
    ar_solids : list solid;            (* empty when use_stl is False *)
    ar_npml : nat;
    ar_cfln : T; ar_dt : option T;
    ar_mpi : option (nat * nat)        (* rank, size of a subdivided grid *)
  }.

  (** Boundary override for inner MPI faces (727-733). *)
  Definition mpi_bc (mpi : option (nat * nat)) (bl bh : bc3) : bc3 * bc3 :=
    let inner := {| bcx := "pec"; bcy := "pec"; bcz := "mpi" |} in
    match mpi with
    | None => (bl, bh)
    | Some (rank, size) =>
        ((if 0 <? rank then inner else bl), (if rank <? size - 1 then inner else bh))
    end.

  Definition with_dual (g : Grid T) (tL itA : Field T) : Grid T :=
    {| gx := gx g; gy := gy g; gz := gz g; gL := gL g; giA := giA g; gtL := tL; gitA := itA |}.

  (** Returns the solver and the grid object as the constructor leaves it: self.tL and
      self.itA are the grid's own fields (148-151). *)
  Definition construct (env : Env) (g : Grid T) (ar : Args) : result (Solver * Grid T) :=
    let Nx := gNx g in let Ny := gNy g in let Nz := gNz g in
    let n := 3 * (Nx * Ny * Nz) in
    let '(bl, bh) := mpi_bc (ar_mpi ar) (ar_bl ar) (ar_bh ar) in
    do bo <- apply_bc g bl bh;
    do M <- build_materials env Nx Ny Nz (ar_bg ar) (bo_pml bo) (ar_solids ar);
    do ms <- (if bo_pml bo then fill_pml env (ar_npml ar) bl bh (mt_ieps M) (mt_sigma M)
              else Ok (mt_ieps M, mt_sigma M));
    let ie := fst ms in let sg := snd ms in
    do dt0 <- (match ar_dt ar with
               | Some dt => Ok dt
               | None => cfl_dt env (ar_cfln ar) (diff (gx g)) (diff (gy g)) (diff (gz g))
               end);
    do dt <- relax_dt (mt_cond M) dt0 ie sg;
    let iDeps := toarray ie in let iDmu := toarray (mt_imu M) in
    Ok ({| sNx := Nx; sNy := Ny; sNz := Nz;
           sE := field_zeros Nx Ny Nz; sH := field_zeros Nx Ny Nz; sJ := field_zeros Nx Ny Nz;
           sieps := ie; simu := mt_imu M; ssigma := sg;
           siDeps := iDeps; siDmu := iDmu;
           sdt := dt; scond := mt_cond M; sabc := bo_abc bo; spml := bo_pml bo;
           sbl := bl; sbh := bh; sstep0 := true;
           smH := prodH n (giA g) iDmu (bo_C bo) (gL g);
           smE := prodE n iDeps (bo_itA bo) (bo_C bo) (bo_tL bo);
           sops := Some {| opL := gL g; opiA := giA g; optL := bo_tL bo; opitA := bo_itA bo;
                           opC := bo_C bo |} |},
        with_dual g (bo_tL bo) (bo_itA bo)).

  (** ** Record updates *)
  Definition with_fields (s : Solver) (E H J : Field T) : Solver :=
    {| sNx := sNx s; sNy := sNy s; sNz := sNz s; sE := E; sH := H; sJ := J;
       sieps := sieps s; simu := simu s; ssigma := ssigma s; siDeps := siDeps s; siDmu := siDmu s;
       sdt := sdt s; scond := scond s; sabc := sabc s; spml := spml s; sbl := sbl s; sbh := sbh s;
       sstep0 := sstep0 s; smH := smH s; smE := smE s; sops := sops s |}.

  (** ** First-step clean-up (1102-1122, 1227-1237) *)
  Definition ghost_assigns_H : list (nat * nat * Z * T) :=
    flat_map (fun d => flat_map (fun a =>
      if d =? a then [] else [(d, a, (-1)%Z, nzero)]) axes) axes.
  Definition ghost_assigns_E : list (nat * nat * Z * T) :=
    map (fun a => (a, a, (-1)%Z, nzero)) axes.
  Definition set_ghosts (s : Solver) : result Solver :=
    do H <- seq_upd set_plane (sH s) ghost_assigns_H;
    do E <- seq_upd set_plane (sE s) ghost_assigns_E;
    Ok (with_fields s E H (sJ s)).

  Definition attrcleanup (s : Solver) : result Solver :=
    match sops s with
    | None => Err AttributeError
    | Some _ =>
      Ok {| sNx := sNx s; sNy := sNy s; sNz := sNz s; sE := sE s; sH := sH s; sJ := sJ s;
            sieps := sieps s; simu := simu s; ssigma := ssigma s; siDeps := siDeps s;
            siDmu := siDmu s; sdt := sdt s; scond := scond s; sabc := sabc s; spml := spml s;
            sbl := sbl s; sbh := sbh s; sstep0 := false; smH := smH s; smE := smE s;
            sops := None |}
    end.

  Definition first_step (s : Solver) : result Solver :=
    if sstep0 s then do s1 <- set_ghosts s; attrcleanup s1 else Ok s.

  (** ** One time step (379-400) *)
  Definition updH (s : Solver) : result (Field T) :=
    let n := 3 * sN s in
    let E := toarray (sE s) in
    fromarray (sH s) (vsub (toarray (sH s)) (vscale (sdt s) (mvec n (smH s) E))).
  Definition updE (s : Solver) (H : Field T) : result (Field T) :=
    let n := 3 * sN s in
    fromarray (sE s) (vadd (toarray (sE s))
      (vscale (sdt s) (vsub (mvec n (smE s) (toarray H))
                            (vmul (toarray (sieps s)) (toarray (sJ s)))))).
  Definition updJ (s : Solver) (E : Field T) : result (Field T) :=
    if scond s then fromarray (sJ s) (vmul (toarray (ssigma s)) (toarray E)) else Ok (sJ s).

  Definition one_step (s : Solver) : result Solver :=
    do s1 <- first_step s;
    do H <- updH s1;
    do E <- updE s1 H;
    do J <- updJ s1 E;
    Ok (with_fields s1 E H J).

  (** ** update_tensors (331-377) *)
  Inductive tensor : Type := TIeps | TImu | TSigma | TAll | TOther.
  Definition update_tensors (s : Solver) (t : tensor) : result Solver :=
    let iDeps := match t with TIeps | TAll => toarray (sieps s) | _ => siDeps s end in
    let iDmu := match t with TImu | TAll => toarray (simu s) | _ => siDmu s end in
    let n := 3 * sN s in
    match sops s with
    | None => Err AttributeError         (* self.iDa was deleted at the first step *)
    | Some o =>
      Ok {| sNx := sNx s; sNy := sNy s; sNz := sNz s; sE := sE s; sH := sH s; sJ := sJ s;
            sieps := sieps s; simu := simu s; ssigma := ssigma s;
            siDeps := iDeps; siDmu := iDmu;
            sdt := sdt s; scond := scond s; sabc := sabc s; spml := spml s;
            sbl := sbl s; sbh := sbh s; sstep0 := false;
            smH := prodH n (opiA o) iDmu (opC o) (opL o);
            smE := prodE n iDeps (opitA o) (opC o) (optL o);
            sops := sops s |}
    end.
  (** solver.ieps = F etc. *)
  Definition set_materials (s : Solver) (ie im sg : Field T) : Solver :=
    {| sNx := sNx s; sNy := sNy s; sNz := sNz s; sE := sE s; sH := sH s; sJ := sJ s;
       sieps := ie; simu := im; ssigma := sg; siDeps := siDeps s; siDmu := siDmu s;
       sdt := sdt s; scond := scond s; sabc := sabc s; spml := spml s; sbl := sbl s; sbh := sbh s;
       sstep0 := sstep0 s; smH := smH s; smE := smE s; sops := sops s |}.

  (** ** reset_fields (1333-1343) *)
  Definition zero_field (F : Field T) : result (Field T) :=
    seq_upd (fun F c => setitem F (KTup kfull kfull kfull (cname c)) (VNum nzero)) F axes.
  Definition reset_fields (s : Solver) : result Solver :=
    do E <- zero_field (sE s); do H <- zero_field (sH s); do J <- zero_field (sJ s);
    Ok (with_fields s E H J).

  (** ** save_state / load_state (1239-1311), CPU branch: a file is three arrays. *)
  Record State : Type := { stE : list T; stH : list T; stJ : list T }.
  Definition save_state (s : Solver) : State :=
    {| stE := toarray (sE s); stH := toarray (sH s); stJ := toarray (sJ s) |}.
  Definition load_state (s : Solver) (f : State) : result Solver :=
    do E <- fromarray (sE s) (stE f);
    do H <- fromarray (sH s) (stH f);
    do J <- fromarray (sJ s) (stJ f);
    Ok (with_fields s E H J).

  (** ** Histories: what a user does with a solver *)
  Inductive op : Type :=
  | OStep                          (* solver.one_step()                *)
  | OWriteE (a : list T)           (* solver.E.fromarray(a)            *)
  | OWriteH (a : list T)
  | OWriteJ (a : list T)
  | OReset                         (* solver.reset_fields()            *)
  | OLoad (f : State).             (* solver.load_state(file)          *)

  Definition do_op (s : Solver) (o : op) : result Solver :=
    match o with
    | OStep => one_step s
    | OWriteE a => do E <- fromarray (sE s) a; Ok (with_fields s E (sH s) (sJ s))
    | OWriteH a => do H <- fromarray (sH s) a; Ok (with_fields s (sE s) H (sJ s))
    | OWriteJ a => do J <- fromarray (sJ s) a; Ok (with_fields s (sE s) (sH s) J)
    | OReset => reset_fields s
    | OLoad f => load_state s f
    end.
  Definition run (s : Solver) (h : list op) : result Solver := seq_upd do_op s h.
  Definition steps (s : Solver) (n : nat) : result Solver := run s (repeat OStep n).
End SolverModel.
Arguments Env T : clear implicits.
Arguments ext_num T : clear implicits.
Arguments material T : clear implicits.
Arguments solid T : clear implicits.
Arguments Ops T : clear implicits.
Arguments Solver T : clear implicits.
Arguments Mats T : clear implicits.
Arguments Args T : clear implicits.
Arguments State T : clear implicits.
Arguments op T : clear implicits.
