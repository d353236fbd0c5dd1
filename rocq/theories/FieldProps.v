(** Properties C01-C10: the Field container. *)
From Coq Require Import List Arith ZArith Bool String Reals Lra Lia QArith Qcanon.
From Verif Require Import Num Vec FieldModel FieldSpec FieldProofs FieldProofs2.
Import ListNotations.
Open Scope nat_scope.

(** Sample data for the non-vacuity examples: a 2x3x2 field holding 0..35. *)
Definition qn (n : nat) : Qc := Q2Qc (inject_Z (Z.of_nat n)).
Definition sampleF : Field Qc :=
  {| fNx := 2; fNy := 3; fNz := 2; farr := tab 36 qn |}.
Example sampleF_wf : wf sampleF.
Proof. reflexivity. Qed.

(** C01 *)
Theorem C01_cell_write : forall (T : Type) (NT : Num T) (F : Field T) zx zy zz ck c i j k v sq,
  wf F -> names_component ck c ->
  pyindex (fNx F) zx i -> pyindex (fNy F) zy j -> pyindex (fNz F) zz k ->
  exists F', setitem F (KTup (KI zx) (KI zy) (KI zz) ck) (VNum v) = Ok F' /\
    wf F' /\ fNx F' = fNx F /\ fNy F' = fNy F /\ fNz F' = fNz F /\
    getitem sq F' (KTup (KI zx) (KI zy) (KI zz) ck) = Ok (scalar v) /\
    (forall zx' zy' zz' ck' c' i' j' k',
       names_component ck' c' ->
       pyindex (fNx F) zx' i' -> pyindex (fNy F) zy' j' -> pyindex (fNz F) zz' k' ->
       (c', i', j', k') <> (c, i, j, k) ->
       getitem sq F' (KTup (KI zx') (KI zy') (KI zz') ck') =
       getitem sq F (KTup (KI zx') (KI zy') (KI zz') ck')) /\
    (forall n, n < 3 * (fNx F * fNy F * fNz F) ->
       get (farr F') n =
       if n =? i + j * fNx F + k * (fNx F * fNy F) + c * (fNx F * fNy F * fNz F)
       then v else get (farr F) n).
Proof. intros. eapply cell_write; eassumption. Qed.
Print Assumptions C01_cell_write.

(** Reads really return the addressed entry (so the frame clause above is not about errors). *)
Theorem C01_cell_read : forall (T : Type) (NT : Num T) (F : Field T) zx zy zz ck c i j k sq,
  names_component ck c ->
  pyindex (fNx F) zx i -> pyindex (fNy F) zy j -> pyindex (fNz F) zz k ->
  getitem sq F (KTup (KI zx) (KI zy) (KI zz) ck) =
  Ok {| shape := [];
        dat := [get (farr F) (i + j * fNx F + k * (fNx F * fNy F) + c * (fNx F * fNy F * fNz F))] |}.
Proof. intros. eapply getitem_cell; eassumption. Qed.
Print Assumptions C01_cell_read.

Example C01_case :
  names_component (CStr "y") 1 /\ pyindex 2 (-1) 1 /\ pyindex 3 1 1 /\ pyindex 2 (-2) 0 /\
  exists F', setitem sampleF (KTup (KI (-1)) (KI 1) (KI (-2)) (CStr "y")) (VNum (qn 99)) = Ok F' /\
    get (farr F') 15 = qn 99 /\ get (farr F') 14 = qn 14.
Proof.
  cbn [names_component]. unfold pyindex.
  split; [tauto|]. split; [lia|]. split; [lia|]. split; [lia|].
  eexists. split; [vm_compute; reflexivity|]. split; vm_compute; reflexivity.
Qed.

(** C02 *)
Theorem C02_matrix_write_read : forall (T : Type) (NT : Num T) (F : Field T) m ck c,
  wf F -> names_component ck c ->
  List.length (mdat m) = m0 m * m1 m * m2 m ->
  m0 m = fNx F -> m1 m = fNy F -> m2 m = fNz F ->
  exists F', from_matrix F m ck = Ok F' /\ to_matrix F' ck = Some m /\
    (forall ck' c', names_component ck' c' -> c' <> c -> to_matrix F' ck' = to_matrix F ck').
Proof. intros. eapply matrix_write_read; eassumption. Qed.
Print Assumptions C02_matrix_write_read.

Theorem C02_matrix_read_write : forall (T : Type) (NT : Num T) (F : Field T) ck m,
  wf F -> to_matrix F ck = Some m -> from_matrix F m ck = Ok F.
Proof. intros. eapply matrix_read_write; eassumption. Qed.
Print Assumptions C02_matrix_read_write.

(** The matrix read is the field: entry (i,j,k) is the addressed flat entry. *)
Theorem C02_matrix_entries : forall (T : Type) (NT : Num T) (F : Field T) ck c,
  names_component ck c ->
  exists m, to_matrix F ck = Some m /\ m0 m = fNx F /\ m1 m = fNy F /\ m2 m = fNz F /\
    forall i j k, i < fNx F -> j < fNy F -> k < fNz F -> mget m i j k = entry F c i j k.
Proof. intros. eapply matrix_entries; eassumption. Qed.
Print Assumptions C02_matrix_entries.

Theorem C02_matrix_wrong_size : forall (T : Type) (NT : Num T) (F : Field T) m ck,
  m0 m * m1 m * m2 m <> fNx F * fNy F * fNz F -> exists e, from_matrix F m ck = Err e.
Proof. intros. eapply matrix_wrong_size; eassumption. Qed.
Print Assumptions C02_matrix_wrong_size.

Theorem C02_array_write_read : forall (T : Type) (NT : Num T) (F : Field T) a,
  List.length a = List.length (toarray F) ->
  exists F', fromarray F a = Ok F' /\ toarray F' = a /\
             fNx F' = fNx F /\ fNy F' = fNy F /\ fNz F' = fNz F.
Proof. intros. eapply array_write_read; eassumption. Qed.
Print Assumptions C02_array_write_read.

Theorem C02_array_read_write : forall (T : Type) (NT : Num T) (F : Field T),
  fromarray F (toarray F) = Ok F.
Proof. intros. apply array_read_write. Qed.
Print Assumptions C02_array_read_write.

Theorem C02_array_wrong_size : forall (T : Type) (NT : Num T) (F : Field T) a,
  List.length a <> List.length (toarray F) -> List.length a <> 1 ->
  fromarray F a = Err ValueError.
Proof. intros. eapply array_wrong_size; eassumption. Qed.
Print Assumptions C02_array_wrong_size.

(** The one-element array is a wrong size that is not rejected: NumPy spreads it. *)
Theorem C02_array_wrong_size_refuted : exists (F : Field Qc) a,
  wf F /\ List.length a <> List.length (toarray F) /\ exists F', fromarray F a = Ok F'.
Proof.
  exists sampleF, [qn 5]. split; [reflexivity|]. split; [vm_compute; discriminate|].
  eexists. reflexivity.
Qed.
Print Assumptions C02_array_wrong_size_refuted.

Example C02_case : exists F',
  from_matrix sampleF {| m0 := 2; m1 := 3; m2 := 2; mdat := tab 12 (fun n => qn (100 + n)) |} (CInt 2)
  = Ok F' /\ get (farr F') 24 = qn 100 /\ get (farr F') 25 = qn 106 /\ get (farr F') 23 = qn 23.
Proof.
  eexists. split; [vm_compute; reflexivity|]. repeat split; vm_compute; reflexivity.
Qed.

(** C03 *)
Theorem C03_slice_write : forall (T : Type) (NT : Num T) (F : Field T) kx ky kz ck c v,
  wf F -> names_component ck c ->
  key_ok (fNx F) kx -> key_ok (fNy F) ky -> key_ok (fNz F) kz ->
  exists F', setitem F (KTup kx ky kz ck) (VNum v) = Ok F' /\ wf F' /\
    fNx F' = fNx F /\ fNy F' = fNy F /\ fNz F' = fNz F /\
    (forall i j k p q r,
       selects (fNx F) kx i p -> selects (fNy F) ky j q -> selects (fNz F) kz k r ->
       entry F' c i j k = v) /\
    (forall c' i j k, c' < 3 -> i < fNx F -> j < fNy F -> k < fNz F ->
       c' <> c \/ (forall p, ~ selects (fNx F) kx i p) \/
       (forall p, ~ selects (fNy F) ky j p) \/ (forall p, ~ selects (fNz F) kz k p) ->
       entry F' c' i j k = entry F c' i j k).
Proof. intros. eapply slice_write; eassumption. Qed.
Print Assumptions C03_slice_write.

Theorem C03_slice_write_array : forall (T : Type) (NT : Num T) (F : Field T) kx ky kz ck c lx ly lz a,
  wf F -> names_component ck c ->
  key_ok (fNx F) kx -> key_ok (fNy F) ky -> key_ok (fNz F) kz ->
  count_is (fNx F) kx lx -> count_is (fNy F) ky ly -> count_is (fNz F) kz lz ->
  shape a = keep3 kx ky kz lx ly lz ->
  exists F', setitem F (KTup kx ky kz ck) (VArr a) = Ok F' /\ wf F' /\
    fNx F' = fNx F /\ fNy F' = fNy F /\ fNz F' = fNz F /\
    (forall i j k p q r,
       selects (fNx F) kx i p -> selects (fNy F) ky j q -> selects (fNz F) kz k r ->
       entry F' c i j k = get (dat a) ((p * ly + q) * lz + r)) /\
    (forall c' i j k, c' < 3 -> i < fNx F -> j < fNy F -> k < fNz F ->
       c' <> c \/ (forall p, ~ selects (fNx F) kx i p) \/
       (forall p, ~ selects (fNy F) ky j p) \/ (forall p, ~ selects (fNz F) kz k p) ->
       entry F' c' i j k = entry F c' i j k).
Proof. intros. eapply slice_write_array; eassumption. Qed.
Print Assumptions C03_slice_write_array.

(** The keys covered: in-range integers and slices with non-zero step; what they select
    lies on the axis. *)
Theorem C03_selects_on_axis : forall d k i p, key_ok d k -> selects d k i p -> i < d.
Proof. exact selects_bound. Qed.
Print Assumptions C03_selects_on_axis.

Theorem C03_bad_index_rejected : forall (T : Type) (NT : Num T) (F : Field T) sq kx ky kz ck v,
  wf F ->
  (forall c, ~ names_component ck c) \/ ~ key_ok (fNx F) kx \/ ~ key_ok (fNy F) ky \/
  ~ key_ok (fNz F) kz ->
  (exists e, snd (setitem_st F (KTup kx ky kz ck) v) = Some e) /\
  (is_abs ck = false -> exists e, getitem sq F (KTup kx ky kz ck) = Err e).
Proof. intros. eapply tuple_bad_rejected; eassumption. Qed.
Print Assumptions C03_bad_index_rejected.

Example C03_case :
  key_ok 2 kfull /\ key_ok 3 (KS (Some (-2)%Z) None None) /\ key_ok 2 (KI (-1)) /\
  selects 3 (KS (Some (-2)%Z) None None) 1 0 /\ selects 3 (KS (Some (-2)%Z) None None) 2 1 /\
  exists F', setitem sampleF (KTup kfull (KS (Some (-2)%Z) None None) (KI (-1)) (CStr "x"))
               (VArr {| shape := [2; 2]; dat := [qn 51; qn 52; qn 53; qn 54] |}) = Ok F' /\
    map (get (farr F')) [6; 7; 8; 9; 10; 11] = [qn 6; qn 7; qn 51; qn 53; qn 52; qn 54].
Proof.
  split; [discriminate|]. split; [discriminate|]. split; [cbn; lia|].
  split; [cbn; lia|]. split; [cbn; lia|].
  eexists. split; [vm_compute; reflexivity|]. vm_compute. reflexivity.
Qed.

(** C04 *)
Theorem C04_flat_of_ijk : forall (T : Type) (F : Field T) n,
  n < fNx F * fNy F * fNz F ->
  exists i j k, compute_ijk F n = Ok (i, j, k) /\
    i < fNx F /\ j < fNy F /\ k < fNz F /\ n = i + j * fNx F + k * (fNx F * fNy F) /\
    (forall i' j' k', i' < fNx F -> j' < fNy F -> k' < fNz F ->
       n = i' + j' * fNx F + k' * (fNx F * fNy F) -> i' = i /\ j' = j /\ k' = k).
Proof. intros. eapply flat_of_ijk; eassumption. Qed.
Print Assumptions C04_flat_of_ijk.

Theorem C04_ijk_of_flat : forall (T : Type) (F : Field T) i j k,
  i < fNx F -> j < fNy F -> k < fNz F ->
  compute_ijk F (i + j * fNx F + k * (fNx F * fNy F)) = Ok (i, j, k).
Proof. intros. eapply ijk_of_flat; eassumption. Qed.
Print Assumptions C04_ijk_of_flat.

Example C04_case : 9 < fNx sampleF * fNy sampleF * fNz sampleF /\
  compute_ijk sampleF 9 = Ok (1, 1, 1).
Proof. split; [vm_compute; lia|reflexivity]. Qed.

(** C05.  Full claim: an integer key is accepted exactly when it names a flat entry, and
    compute_ijk accepts exactly the cells.  False: keys N+1 .. 3N-1 name entries and are
    rejected; compute_ijk(N) is accepted and returns a cell outside the grid. *)
Theorem C05_int_keys_refuted :
  (exists (F : Field Qc) z n, wf F /\ pyindex (List.length (farr F)) z n /\
     getitem (fun x => x) F (KInt z) = Err IndexError) /\
  (exists (F : Field Qc) n i j k, wf F /\ n >= fNx F * fNy F * fNz F /\
     compute_ijk F n = Ok (i, j, k) /\ k >= fNz F).
Proof.
  split.
  - exists sampleF, 20%Z, 20. split; [reflexivity|]. split; [|reflexivity].
    unfold pyindex. vm_compute List.length. lia.
  - exists sampleF, 12, 0, 0, 2. repeat split; vm_compute; lia.
Qed.
Print Assumptions C05_int_keys_refuted.

(** What holds: an accepted key addresses the entry it names, a key naming nothing is
    rejected. *)
Theorem C05_accepted_keys_partial : forall (T : Type) (NT : Num T) (F : Field T) sq z n v,
  wf F -> pyindex (3 * (fNx F * fNy F * fNz F)) z n ->
  (z <= Z.of_nat (fNx F * fNy F * fNz F))%Z ->
  getitem sq F (KInt z) = Ok (scalar (get (farr F) n)) /\
  exists F', setitem F (KInt z) (VNum v) = Ok F' /\
    fNx F' = fNx F /\ fNy F' = fNy F /\ fNz F' = fNz F /\
    forall m, m < 3 * (fNx F * fNy F * fNz F) ->
      get (farr F') m = if m =? n then v else get (farr F) m.
Proof. intros. eapply int_key_ok; eassumption. Qed.
Print Assumptions C05_accepted_keys_partial.

Theorem C05_rejected_keys_partial : forall (T : Type) (NT : Num T) (F : Field T) sq z v,
  wf F ->
  (z < - Z.of_nat (3 * (fNx F * fNy F * fNz F)) \/ z > Z.of_nat (fNx F * fNy F * fNz F))%Z ->
  getitem sq F (KInt z) = Err IndexError /\ setitem F (KInt z) (VNum v) = Err IndexError.
Proof. intros. eapply int_key_bad; eassumption. Qed.
Print Assumptions C05_rejected_keys_partial.

Example C05_case : pyindex (3 * (fNx sampleF * fNy sampleF * fNz sampleF)) (-5) 31 /\
  getitem (fun x => x) sampleF (KInt (-5)) = Ok (scalar (qn 31)).
Proof. split; [unfold pyindex; vm_compute Nat.mul; lia|vm_compute; reflexivity]. Qed.

(** C06 *)
Theorem C06_mul_number : forall (T : Type) (NT : Num T) (F : Field T) x,
  wf F -> exists G, fmul F (ONum x) = Ok G /\ wf G /\
    fNx G = fNx F /\ fNy G = fNy F /\ fNz G = fNz F /\
    forall c i j k, c < 3 -> i < fNx F -> j < fNy F -> k < fNz F ->
      entry G c i j k = nmul (entry F c i j k) x.
Proof. intros. apply mul_number; assumption. Qed.
Print Assumptions C06_mul_number.

Theorem C06_mul_matrix : forall (T : Type) (NT : Num T) (F : Field T) (a : ndarray T),
  wf F -> shape a = [fNx F; fNy F; fNz F] ->
  exists G, fmul F (OArr a) = Ok G /\ wf G /\
    fNx G = fNx F /\ fNy G = fNy F /\ fNz G = fNz F /\
    forall c i j k, c < 3 -> i < fNx F -> j < fNy F -> k < fNz F ->
      entry G c i j k = nmul (entry F c i j k) (get (dat a) ((i * fNy F + j) * fNz F + k)).
Proof. intros. apply mul_matrix; assumption. Qed.
Print Assumptions C06_mul_matrix.

Theorem C06_add_matrix : forall (T : Type) (NT : Num T) (F : Field T) (a : ndarray T),
  wf F -> shape a = [fNx F; fNy F; fNz F] ->
  exists G, fadd F (OArr a) = Ok G /\ wf G /\
    fNx G = fNx F /\ fNy G = fNy F /\ fNz G = fNz F /\
    forall c i j k, c < 3 -> i < fNx F -> j < fNy F -> k < fNz F ->
      entry G c i j k = nadd (entry F c i j k) (get (dat a) ((i * fNy F + j) * fNz F + k)).
Proof. intros. apply add_matrix; assumption. Qed.
Print Assumptions C06_add_matrix.

Theorem C06_add_field : forall (T : Type) (NT : Num T) (F G : Field T),
  wf F -> wf G -> fNx G = fNx F -> fNy G = fNy F -> fNz G = fNz F ->
  exists H, fadd F (OField G) = Ok H /\ wf H /\
    fNx H = fNx F /\ fNy H = fNy F /\ fNz H = fNz F /\
    forall c i j k, c < 3 -> i < fNx F -> j < fNy F -> k < fNz F ->
      entry H c i j k = nadd (entry F c i j k) (entry G c i j k).
Proof. intros. apply add_field_spec; assumption. Qed.
Print Assumptions C06_add_field.

(** Operands unchanged: in any program, an arithmetic operation (or any operation that
    does not write variable x) leaves what variable x reads as it was. *)
Theorem C06_operands_unchanged : forall (T : Type) (NT : Num T) (pre : list (hop T)) op x,
  x < List.length (objs (hrun pre)) -> hwrites op <> Some x ->
  read (hrun (pre ++ [op])) x = read (hrun pre) x.
Proof. intros. apply operands_unchanged; assumption. Qed.
Print Assumptions C06_operands_unchanged.

Example C06_case : exists G H,
  fmul sampleF (OArr {| shape := [2; 3; 2]; dat := tab 12 qn |}) = Ok G /\
  fadd sampleF (OField sampleF) = Ok H /\ get (farr G) 19 = qn (19 * 7) /\ get (farr H) 19 = qn 38.
Proof.
  eexists _, _. split; [vm_compute; reflexivity|]. split; [vm_compute; reflexivity|].
  split; vm_compute; reflexivity.
Qed.

(** C07 *)
Theorem C07_rejected_unchanged : forall (T : Type) (NT : Num T) (F : Field T) k v e,
  wf F -> snd (setitem_st F k v) = Some e -> fst (setitem_st F k v) = F.
Proof. intros. eapply rejected_unchanged; eassumption. Qed.
Print Assumptions C07_rejected_unchanged.

Theorem C07_malformed_rejected : forall (T : Type) (NT : Num T) (F : Field T) sq v,
  (exists e, snd (setitem_st F KTupBad v) = Some e) /\ (exists e, getitem sq F KTupBad = Err e) /\
  (exists e, snd (setitem_st F KOtherKey v) = Some e) /\ (exists e, getitem sq F KOtherKey = Err e).
Proof. intros. apply other_keys_rejected. Qed.
Print Assumptions C07_malformed_rejected.

Theorem C07_bad_tuple_rejected : forall (T : Type) (NT : Num T) (F : Field T) sq kx ky kz ck v,
  wf F ->
  (forall c, ~ names_component ck c) \/ ~ key_ok (fNx F) kx \/ ~ key_ok (fNy F) ky \/
  ~ key_ok (fNz F) kz ->
  (exists e, snd (setitem_st F (KTup kx ky kz ck) v) = Some e) /\
  (is_abs ck = false -> exists e, getitem sq F (KTup kx ky kz ck) = Err e).
Proof. intros. eapply tuple_bad_rejected; eassumption. Qed.
Print Assumptions C07_bad_tuple_rejected.

Theorem C07_from_matrix_bad_component : forall (T : Type) (NT : Num T) (F : Field T) m ck,
  (forall c, ~ names_component ck c) -> from_matrix F m ck = Err IndexError.
Proof. intros. apply from_matrix_bad_comp; assumption. Qed.
Print Assumptions C07_from_matrix_bad_component.

Example C07_case :
  setitem_st sampleF (KTup (KI 0) (KI 3) (KI 0) (CInt 0)) (VNum (qn 7)) = (sampleF, Some IndexError) /\
  (forall c, ~ names_component (CInt 3) c) /\ ~ key_ok 3 (KI 3).
Proof. split; [reflexivity|]. split; [intros c [? ?]; lia|]. cbn. lia. Qed.

(** C08 *)
Theorem C08_copy_independent : forall (T : Type) (NT : Num T) (pre : list (hop T)) x F post y,
  read (hrun pre) x = Some F ->
  let g := List.length (objs (hrun pre)) in
  y = x \/ y = g ->
  (forall op, In op post -> hwrites op <> Some y) ->
  read (hrun (pre ++ HCopy x :: post)) y = Some F.
Proof. intros. eapply copy_independent; eassumption. Qed.
Print Assumptions C08_copy_independent.

Example C08_case :
  let pre := [HNew 2 1 1; HSet 0 (KInt 1) (VNum (qn 4))] in
  let post := [HSet 1 (KInt 1) (VNum (qn 9))] in
  read (hrun pre) 0 = Some {| fNx := 2; fNy := 1; fNz := 1;
                              farr := [qn 0; qn 4; qn 0; qn 0; qn 0; qn 0] |} /\
  read (hrun (pre ++ HCopy 0 :: post)) 1 = Some {| fNx := 2; fNy := 1; fNz := 1;
                              farr := [qn 0; qn 9; qn 0; qn 0; qn 0; qn 0] |}.
Proof. split; vm_compute; reflexivity. Qed.

(** C09 *)
Theorem C09_abs : forall (F : Field R) zx zy zz ck i j k,
  lower ck = "abs"%string ->
  pyindex (fNx F) zx i -> pyindex (fNy F) zy j -> pyindex (fNz F) zz k ->
  exists a, getitem sqrt F (KTup (KI zx) (KI zy) (KI zz) (CStr ck)) = Ok (scalar a) /\
    (0 <= a)%R /\
    (a * a = entry F 0 i j k * entry F 0 i j k + entry F 1 i j k * entry F 1 i j k
             + entry F 2 i j k * entry F 2 i j k)%R /\
    (a = 0%R <-> entry F 0 i j k = 0%R /\ entry F 1 i j k = 0%R /\ entry F 2 i j k = 0%R).
Proof. intros. apply abs_cell; assumption. Qed.
Print Assumptions C09_abs.

Example C09_case : lower "Abs" = "abs"%string /\ lower "ABS" = "abs"%string /\ pyindex 4 (-1) 3.
Proof. split; [reflexivity|]. split; [reflexivity|]. unfold pyindex. lia. Qed.

(** C10.  Full claim: [F + x] and [F / x] return the cell-wise result for a Python number.
    False for every field and number. *)
Theorem C10_scalar_operands_refuted : forall (T : Type) (NT : Num T) (F : Field T) x,
  fdiv F (ONum x) = Err AttributeError /\ ftruediv F (ONum x) = Err TypeError /\
  fadd F (ONum x) = Err AttributeError.
Proof. intros. apply scalar_operands_fail. Qed.
Print Assumptions C10_scalar_operands_refuted.
