(** Property C58 in binary64 arithmetic. *)
From Coq Require Import List Arith ZArith Bool String Lia.
From Coq.Floats Require Import SpecFloat.
From Verif Require Import Num Vec FieldModel GridModel SolverModel WakeModel WakeNames WakeRun WakeFloat.
Import ListNotations.

(** Every run writes this file, whatever the arithmetic. *)
Theorem C58_file_of_run : forall (T : Type) (NT : Num T) (OT : NumOrd T) (FT : NumFl T)
    (s : Solver T) g (w : Wake T) (a : WakeArgs T) s' f,
  wake_record s g w a = Ok (s', f) ->
  exists zmax zmin xs ys zs ts c, np_max (centres (gz g)) = Ok zmax /\ np_min (centres (gz g)) = Ok zmin /\
    let Nt := wake_Nt w (wa_len a) (sdt s) zmax zmin in
    arange nzero (nmul (nofZ Nt) (sdt s)) (sdt s) = Ok ts /\
    f = axes_file xs ys zs (widths (gx g)) (widths (gy g)) (widths (gz g)) ts ++ map (fun n => (snap_key n, c n)) (seq 0 (Z.to_nat Nt)).
Proof. exact (fun T NT OT FT => @record_file T NT OT FT). Qed.
Print Assumptions C58_file_of_run.

(** In binary64 the time array can be longer than the number of steps: dt = 0x1.bc34aaaaaaaaap-22 and
    three steps give four times, and the widths dx are integrated as the field of the fourth step. *)
Definition dtF : spec_float := S754_finite false 7814549829495466 (-74).
Definition halfF : spec_float := S754_finite false 7814549829495466 (-75).
Definition wF : Wake spec_float :=
  {| wk_q := none_; wk_v := none_; wk_ti := dtF; wk_xtest := nzero; wk_ytest := nzero;
     wk_len := Some (dtF + halfF)%num; wk_skip := 0; wk_ntc := 1; wk_counter := false; wk_save := true; wk_hf := None;
     wk_t := None; wk_z := None; wk_zf := None; wk_xf := None; wk_yf := None; wk_dx := None; wk_dy := None; wk_dz := None; wk_Ezt := None;
     wk_s := None; wk_WP := None; wk_WP3 := None; wk_WPx := None; wk_WPy := None; wk_txt := [] |}.
Definition zF : list spec_float := [nzero; halfF; dtF].
Definition dxF : list spec_float := [none_; none_ + none_; none_]%num.
Definition rowF (n : nat) : list spec_float := [nofnat n; none_; nofnat (n + 2)].
Theorem C58_refuted : exists (w w' : Wake spec_float) len dt zf zmin zmax dx dz ts (row : nat -> list spec_float) cols,
  np_min zf = Ok zmin /\ np_max zf = Ok zmax /\ wk_len w = Some len /\ wake_Nt w len dt zmax zmin = 3%Z /\
  arange nzero (nofZ 3 * dt)%num dt = Ok ts /\ List.length ts = 4 /\ (forall n, List.length (row n) = List.length zf) /\
  calc_long_WP w (Some (axes_file [nzero] [nzero] zf dx dx dz ts ++ map (fun n => (snap_key n, vec (row n))) (seq 0 3))) None = Ok w' /\
  wk_Ezt w' = Some cols /\ List.length cols = 4 /\ nth 3 cols [] = dx /\ nth 2 cols [] = row 2.
Proof.
  destruct (arange nzero (nofZ 3 * dtF)%num dtF) as [ts|] eqn:Ets; [|vm_compute in Ets; discriminate Ets].
  destruct (np_min zF) as [zmin|] eqn:E1; [|discriminate E1]. destruct (np_max zF) as [zmax|] eqn:E2; [|discriminate E2].
  pose (f := axes_file [nzero] [nzero] zF dxF dxF dxF ts ++ map (fun n => (snap_key n, vec (rowF n))) (seq 0 3)).
  destruct (calc_long_WP wF (Some f) None) as [w'|] eqn:E3.
  2:{ exfalso. unfold f in E3. vm_compute in Ets. injection Ets as <-. vm_compute in E3. discriminate E3. }
  destruct (wk_Ezt w') as [cols|] eqn:E4.
  2:{ exfalso. unfold f in E3. vm_compute in Ets. injection Ets as <-. vm_compute in E3. injection E3 as <-. discriminate E4. }
  exists wF, w', (dtF + halfF)%num, dtF, zF, zmin, zmax, dxF, dxF, ts, rowF, cols.
  split; [exact E1|]. split; [exact E2|]. split; [reflexivity|].
  split. { vm_compute in E1, E2. injection E1 as <-. injection E2 as <-. vm_compute. reflexivity. }
  split; [exact Ets|]. split. { vm_compute in Ets. injection Ets as <-. reflexivity. }
  split; [reflexivity|]. split; [exact E3|]. split; [exact E4|].
  unfold f in E3. vm_compute in Ets. injection Ets as <-. vm_compute in E3. injection E3 as <-. cbn [wk_Ezt] in E4. injection E4 as <-.
  split; [reflexivity|]. split; vm_compute; reflexivity.
Qed.
Print Assumptions C58_refuted.
