(** Model of wakis/solver3D.py: EMSolver3D with the time step, the schemes 'FDTD' and 'DM' without absorbing walls, and the
    construction of the absorbing blocks with their conductivities (pmlBlock3D.py:5-97). *)
From Coq Require Import List Arith Bool String Lia.
From Verif Require Import Num FieldModel GridModel SolverModel WakeModel Grid2DModel Grid3DModel.
Import ListNotations.

Section Solver3D.
  Context {T : Type} {NT : Num T} {OT : NumOrd T} (sqrt_ : T -> T).
  Local Open Scope num_scope.
  (** the fields of EMSolver3D (84-92), total functions of the indices; entries outside the arrays are never written *)
  Record em3 : Type := { fex : nat -> nat -> nat -> T; fey : nat -> nat -> nat -> T; fez : nat -> nat -> nat -> T;
    fhx : nat -> nat -> nat -> T; fhy : nat -> nat -> nat -> T; fhz : nat -> nat -> nat -> T }.
  Record cur3 : Type := { fjx : nat -> nat -> nat -> T; fjy : nat -> nat -> nat -> T; fjz : nat -> nat -> nat -> T }.
  (** grid, cell counts and sizes (40-46), eps_0, mu_0 and the time step *)
  Record par3 : Type := { c_g : @grid3 T; c_nx : nat; c_ny : nat; c_nz : nat; c_dx : T; c_dy : T; c_dz : T; c_eps : T; c_mu : T; c_dt : T }.
  (** 35-38 *)
  Definition dt3 (cfln c dx dy dz : T) : T := cfln / (c * sqrt_ (none_ / (dx * dx) + none_ / (dy * dy) + none_ / (dz * dz))).
  Definition zero3 : em3 := let z := fun _ _ _ : nat => nzero in {| fex := z; fey := z; fez := z; fhx := z; fhy := z; fhz := z |}.
  Definition off3 : cur3 := let z := fun _ _ _ : nat => nzero in {| fjx := z; fjy := z; fjz := z |}.

  (** advance_h_fdtd (1659-1691); C1, C2, C7 of 117-119 *)
  Definition h_fdtd3 (p : par3) (s : em3) : em3 :=
    let c1 := c_dt p / (c_dx p * c_mu p) in
    let c2 := c_dt p / (c_dy p * c_mu p) in
    let c7 := c_dt p / (c_dz p * c_mu p) in
    {| fex := fex s; fey := fey s; fez := fez s;
       fhx := fun i j k => if (i <=? c_nx p)%nat && (j <? c_ny p)%nat && (k <? c_nz p)%nat && nltb nzero (g_S (q_yz (c_g p) i) j k)
         then fhx s i j k - c2 * (fez s i (S j) k - fez s i j k) + c7 * (fey s i j (S k) - fey s i j k) else fhx s i j k;
       fhy := fun i j k => if (i <? c_nx p)%nat && (j <=? c_ny p)%nat && (k <? c_nz p)%nat && nltb nzero (g_S (q_zx (c_g p) j) i k)
         then fhy s i j k - c7 * (fex s i j (S k) - fex s i j k) + c1 * (fez s (S i) j k - fez s i j k) else fhy s i j k;
       fhz := fun i j k => if (i <? c_nx p)%nat && (j <? c_ny p)%nat && (k <=? c_nz p)%nat && nltb nzero (g_S (q_xy (c_g p) k) i j)
         then fhz s i j k - c1 * (fey s (S i) j k - fey s i j k) + c2 * (fex s i (S j) k - fex s i j k) else fhz s i j k |}.
  (** advance_e_fdtd (1693-1729) and advance_e_dm (1883-1925), which compute the same; C3, C4, C5, C8 of 120-123 *)
  Definition e_adv3 (p : par3) (c : cur3) (s : em3) : em3 :=
    let c3 := c_dt p / c_eps p in
    let c4 := c_dt p / (c_dy p * c_eps p) in
    let c5 := c_dt p / (c_dx p * c_eps p) in
    let c8 := c_dt p / (c_dz p * c_eps p) in
    {| fex := fun i j k => if (i <? c_nx p)%nat && (1 <=? j)%nat && (j <? c_ny p)%nat && (1 <=? k)%nat && (k <? c_nz p)%nat && nltb nzero (q_lx (c_g p) i j k)
         then fex s i j k - c3 * fjx c i j k + c4 * (fhz s i j k - fhz s i (j - 1)%nat k) - c8 * (fhy s i j k - fhy s i j (k - 1)%nat) else fex s i j k;
       fey := fun i j k => if (1 <=? i)%nat && (i <? c_nx p)%nat && (j <? c_ny p)%nat && (1 <=? k)%nat && (k <? c_nz p)%nat && nltb nzero (q_ly (c_g p) i j k)
         then fey s i j k - c3 * fjy c i j k + c8 * (fhx s i j k - fhx s i j (k - 1)%nat) - c5 * (fhz s i j k - fhz s (i - 1)%nat j k) else fey s i j k;
       fez := fun i j k => if (1 <=? i)%nat && (i <? c_nx p)%nat && (1 <=? j)%nat && (j <? c_ny p)%nat && (k <? c_nz p)%nat && nltb nzero (q_lz (c_g p) i j k)
         then fez s i j k - c3 * fjz c i j k + c5 * (fhy s i j k - fhy s (i - 1)%nat j k) - c4 * (fhx s i j k - fhx s i (j - 1)%nat k) else fez s i j k;
       fhx := fhx s; fhy := fhy s; fhz := fhz s |}.
  (** one_step_fdtd (1610-1655) without absorbing blocks: update_e_boundary (1290-1576) writes only next to a block *)
  Definition step_fdtd3 (p : par3) (c : cur3) (s : em3) : em3 := e_adv3 p c (h_fdtd3 p s).

  (** compute_v_and_rho (1830-1881) *)
  Definition v_xy (p : par3) (s : em3) (i j k : nat) : T := let g := c_g p in
    fex s i j k * q_lx g i j k - fex s i (S j) k * q_lx g i (S j) k + fey s (S i) j k * q_ly g (S i) j k - fey s i j k * q_ly g i j k.
  Definition v_yz (p : par3) (s : em3) (i j k : nat) : T := let g := c_g p in
    fey s i j k * q_ly g i j k - fey s i j (S k) * q_ly g i j (S k) + fez s i (S j) k * q_lz g i (S j) k - fez s i j k * q_lz g i j k.
  Definition v_zx (p : par3) (s : em3) (i j k : nat) : T := let g := c_g p in
    fez s i j k * q_lz g i j k - fez s (S i) j k * q_lz g (S i) j k + fex s i j (S k) * q_lx g i j (S k) - fex s i j k * q_lx g i j k.
  (** one_step_dm (1731-1767) up to advance_e_dm *)
  Definition h_dm3 (p : par3) (s : em3) : em3 :=
    {| fex := fex s; fey := fey s; fez := fez s;
       fhx := fun i j k => if (i <=? c_nx p)%nat && (j <? c_ny p)%nat && (k <? c_nz p)%nat && g_int (q_yz (c_g p) i) j k
         then fhx s i j k - c_dt p / (c_mu p * g_S (q_yz (c_g p) i) j k) * v_yz p s i j k else fhx s i j k;
       fhy := fun i j k => if (i <? c_nx p)%nat && (j <=? c_ny p)%nat && (k <? c_nz p)%nat && g_int (q_zx (c_g p) j) i k
         then fhy s i j k - c_dt p / (c_mu p * g_S (q_zx (c_g p) j) i k) * v_zx p s i j k else fhy s i j k;
       fhz := fun i j k => if (i <? c_nx p)%nat && (j <? c_ny p)%nat && (k <=? c_nz p)%nat && g_int (q_xy (c_g p) k) i j
         then fhz s i j k - c_dt p / (c_mu p * g_S (q_xy (c_g p) k) i j) * v_xy p s i j k else fhz s i j k |}.
  Definition step_dm3 (p : par3) (c : cur3) (s : em3) : em3 := e_adv3 p c (h_dm3 p s).
  (** one_step (1585-1593).  one_step_ect calls EMSolver2D.advance_h_ect (1771), which that class does not have:
      AttributeError in the first pass of the loop over Nx + 1 planes. *)
  Definition one_step3 (p : par3) (sol : string) (c : cur3) (s : em3) : result em3 :=
    if String.eqb sol "ECT" then Err AttributeError
    else if String.eqb sol "FDTD" then Ok (step_fdtd3 p c s)
    else if String.eqb sol "DM" then Ok (step_dm3 p c s)
    else Ok s.
  (** the check of the constructor (98-104) *)
  Definition sol_ok (sol : string) : result unit :=
    if negb (String.eqb sol "FDTD") && negb (String.eqb sol "DM") && negb (String.eqb sol "ECT") then Err ValueError else Ok tt.
  Definition run3 (step : cur3 -> em3 -> em3) (js : list cur3) (s : em3) : em3 := fold_left (fun s c => step c s) js s.

  (** ** Absorbing blocks *)
  Inductive pos3 : Type := Lo | Mid | Hi.
  Definition pos3_eqb (a b : pos3) : bool := match a, b with Lo, Lo | Mid, Mid | Hi, Hi => true | _, _ => false end.
  Definition at3 : Type := pos3 * pos3 * pos3.
  Definition at3_eqb (a b : at3) : bool := pos3_eqb (fst (fst a)) (fst (fst b)) && pos3_eqb (snd (fst a)) (snd (fst b)) && pos3_eqb (snd a) (snd b).
  Inductive axis3 : Type := AX | AY | AZ.
  Definition axis3_eqb (a b : axis3) : bool := match a, b with AX, AX | AY, AY | AZ, AZ => true | _, _ => false end.
  (** PmlBlock3D (25-66): sizes, and sigma_x .. sigma_star_z along their own axis, along which alone they are filled; whether
      assemble_coeffs was called (98-122) *)
  Record block3 : Type := { b_n : axis3 -> nat; b_sigma : axis3 -> nat -> T; b_star : axis3 -> nat -> T; b_done : bool }.
  Definition mat3 : Type := at3 -> option block3.
  (** which walls are 'pml', the cells of the grid and the layers of the six walls (N_pml_low, N_pml_high, 48-75, 0 for other walls) *)
  Record setup3 : Type := { w_lo : axis3 -> bool; w_hi : axis3 -> bool; w_n : axis3 -> nat; w_nlo : axis3 -> nat; w_nhi : axis3 -> nat;
    w_d : axis3 -> T; w_eps : T; w_mu : T; w_c : T; w_logr : T }.
  Definition n_lo (w : setup3) (a : axis3) : nat := if w_lo w a then w_nlo w a else 0%nat.
  Definition n_hi (w : setup3) (a : axis3) : nat := if w_hi w a then w_nhi w a else 0%nat.
  Definition tri (x y z : nat) (a : axis3) : nat := match a with AX => x | AY => y | AZ => z end.
  Definition fresh_block (n : axis3 -> nat) : block3 := {| b_n := n; b_sigma := fun _ _ => nzero; b_star := fun _ _ => nzero; b_done := false |}.
  (** connect_pmls (137-589): the blocks in the order of creation, with the condition and the size *)
  Definition created (w : setup3) : list (bool * at3 * (nat * nat * nat)) :=
    let lx := w_lo w AX in let hx := w_hi w AX in let ly := w_lo w AY in let hy := w_hi w AY in let lz := w_lo w AZ in let hz := w_hi w AZ in
    let nx := w_n w AX in let ny := w_n w AY in let nz := w_n w AZ in
    let pl := n_lo w in let ph := n_hi w in
    [ (lx, (Lo, Mid, Mid), (pl AX, ny, nz));
      (lx && ly, (Lo, Lo, Mid), (pl AX, pl AY, nz));
      (lx && ly && lz, (Lo, Lo, Lo), (pl AX, pl AY, pl AZ));
      (lx && ly && hz, (Lo, Lo, Hi), (pl AX, pl AY, ph AZ));
      (lx && hy, (Lo, Hi, Mid), (pl AX, ph AY, nz));
      (lx && hy && lz, (Lo, Hi, Lo), (pl AX, ph AY, pl AZ));
      (lx && hy && hz, (Lo, Hi, Hi), (pl AX, ph AY, ph AZ));
      (lx && lz, (Lo, Mid, Lo), (pl AX, ny, pl AZ));
      (lx && hz, (Lo, Mid, Hi), (pl AX, ny, ph AZ));
      (hx, (Hi, Mid, Mid), (ph AX, ny, nz));
      (hx && ly, (Hi, Lo, Mid), (ph AX, pl AY, nz));
      (hx && ly && lz, (Hi, Lo, Lo), (ph AX, pl AY, pl AZ));
      (hx && ly && hz, (Hi, Lo, Hi), (ph AX, pl AY, ph AZ));
      (hx && hy, (Hi, Hi, Mid), (ph AX, ph AY, nz));
      (hx && hy && lz, (Hi, Hi, Lo), (ph AX, ph AY, pl AZ));
      (hx && hy && hz, (Hi, Hi, Hi), (ph AX, ph AY, ph AZ));
      (hx && lz, (Hi, Mid, Lo), (ph AX, ny, pl AZ));
      (hx && hz, (Hi, Mid, Hi), (ph AX, ny, ph AZ));
      (ly, (Mid, Lo, Mid), (nx, pl AY, nz));
      (ly && lz, (Mid, Lo, Lo), (nx, pl AY, pl AZ));
      (ly && hz, (Mid, Lo, Hi), (nx, pl AY, ph AZ));
      (hy, (Mid, Hi, Mid), (nx, ph AY, nz));
      (hy && lz, (Mid, Hi, Lo), (nx, pl AY, pl AZ));
      (hy && hz, (Mid, Hi, Hi), (nx, pl AY, ph AZ));
      (lz, (Mid, Mid, Lo), (nx, ny, pl AZ));
      (hz, (Mid, Mid, Hi), (nx, ny, ph AZ)) ].
  Definition connect3 (w : setup3) : mat3 := fun q =>
    match List.find (fun e : bool * at3 * (nat * nat * nat) => fst (fst e) && at3_eqb (snd (fst e)) q) (created w) with
    | Some (_, _, (x, y, z)) => Some (fresh_block (tri x y z)) | None => None end.
  (** sigma_m of the walls (600-647): all but those of the lower x wall are over dy.  For one layer numpy divides by zero. *)
  Definition smax (w : setup3) (n : nat) (d : T) : T :=
    - (nofnat 4) * w_eps w * w_c w / (nofnat 2 * (nofnat n - none_) * d) * w_logr w.
  Definition sm_lo (w : setup3) (a : axis3) : T := smax w (n_lo w a) (match a with AX => w_d w AX | _ => w_d w AY end).
  Definition sm_hi (w : setup3) (a : axis3) : T := smax w (n_hi w a) (w_d w AY).
  (** (n / N) ** alpha_pml *)
  Definition ramp (n N : nat) : T := let r := nofnat n / nofnat N in r * r * r.
  (** One loop over the layers of a wall: sigma[-(n+1)] and sigma_star[-(n+1)] for a lower wall, [n] for an upper one.
      Without layers nothing is touched; the arrays have one entry more than the block has cells, and as many. *)
  Definition fill (w : setup3) (q : at3) (a : axis3) (low : bool) (m : mat3) : result mat3 :=
    let N := if low then n_lo w a else n_hi w a in
    let sm := if low then sm_lo w a else sm_hi w a in
    if (N =? 0)%nat then Ok m else
    match m q with
    | None => Err AttributeError
    | Some b =>
        let size := b_n b a in
        if (size <? N)%nat then Err IndexError else
        let layer dim i := if low then (dim - (i + 1))%nat else i in
        let new old dim f i := if (i <? dim)%nat && (layer dim i <? N)%nat then f (sm * ramp (layer dim i) N) else old a i in
        let b' := {| b_n := b_n b;
          b_sigma := fun a' => if axis3_eqb a' a then new (b_sigma b) (S size) (fun v => v) else b_sigma b a';
          b_star := fun a' => if axis3_eqb a' a then new (b_star b) size (fun v => v * (w_mu w / w_eps w)) else b_star b a';
          b_done := b_done b |} in
        Ok (fun q' => if at3_eqb q' q then Some b' else m q')
    end.
  (** assemble_conductivities_pmls (649-1263): condition, block and walls, in the order of the code.  The corners at the upper
      z wall are guarded by the lower one (717, 812, 965, 1059). *)
  Definition assigned (w : setup3) : list (bool * at3 * list (axis3 * bool)) :=
    let lx := w_lo w AX in let hx := w_hi w AX in let ly := w_lo w AY in let hy := w_hi w AY in let lz := w_lo w AZ in let hz := w_hi w AZ in
    let XL := (AX, true) in let XH := (AX, false) in let YL := (AY, true) in let YH := (AY, false) in let ZL := (AZ, true) in let ZH := (AZ, false) in
    [ (lx, (Lo, Mid, Mid), [XL]);
      (lx && ly, (Lo, Lo, Mid), [XL; YL]);
      (lx && ly && lz, (Lo, Lo, Lo), [XL; YL; ZL]);
      (lx && ly && lz, (Lo, Lo, Hi), [XL; YL; ZH]);
      (lx && hy, (Lo, Hi, Mid), [XL; YH]);
      (lx && hy && lz, (Lo, Hi, Lo), [XL; YH; ZL]);
      (lx && hy && lz, (Lo, Hi, Hi), [XL; YH; ZH]);
      (lx && lz, (Lo, Mid, Lo), [XL; ZL]);
      (lx && hz, (Lo, Mid, Hi), [XL; ZH]);
      (hx, (Hi, Mid, Mid), [XH]);
      (hx && ly, (Hi, Lo, Mid), [XH; YL]);
      (hx && ly && lz, (Hi, Lo, Lo), [XH; YL; ZL]);
      (hx && ly && lz, (Hi, Lo, Hi), [XH; YL; ZH]);
      (hx && hy, (Hi, Hi, Mid), [XH; YH]);
      (hx && hy && lz, (Hi, Hi, Lo), [XH; YH; ZL]);
      (hx && hy && lz, (Hi, Hi, Hi), [XH; YH; ZH]);
      (hx && lz, (Hi, Mid, Lo), [XH; ZL]);
      (hx && hz, (Hi, Mid, Hi), [XH; ZH]);
      (ly, (Mid, Lo, Mid), [YL]);
      (ly && lz, (Mid, Lo, Lo), [YL; ZL]);
      (ly && hz, (Mid, Lo, Hi), [YL; ZH]);
      (hy, (Mid, Hi, Mid), [YH]);
      (hy && lz, (Mid, Hi, Lo), [YH; ZL]);
      (hy && hz, (Mid, Hi, Hi), [YH; ZH]);
      (lz, (Mid, Mid, Lo), [ZL]);
      (hz, (Mid, Mid, Hi), [ZH]) ].
  Definition fill_all (w : setup3) (l : list (at3 * axis3 * bool)) (m : result mat3) : result mat3 :=
    fold_left (fun r (e : at3 * axis3 * bool) => match r with Ok m => fill w (fst (fst e)) (snd (fst e)) (snd e) m | Err x => Err x end) l m.
  Definition fills (w : setup3) : list (at3 * axis3 * bool) :=
    flat_map (fun e : bool * at3 * list (axis3 * bool) => if fst (fst e) then map (fun ab => (snd (fst e), fst ab, snd ab)) (snd e) else []) (assigned w).
  (** assemble_coeffs_pmls (1265-1271) after the rest of the constructor *)
  Definition build3 (w : setup3) : result mat3 :=
    match fill_all w (fills w) (Ok (connect3 w)) with
    | Ok m => Ok (fun q => match m q with Some b => Some {| b_n := b_n b; b_sigma := b_sigma b; b_star := b_star b; b_done := true |} | None => None end)
    | Err e => Err e
    end.
End Solver3D.
