(** Vocabulary for the Field properties: small definitions a reader can check alone. *)
From Coq Require Import List Arith ZArith Bool String.
From Verif Require Import Num Vec FieldModel.
Import ListNotations.

(** The array of a field holds three values per cell. *)
Definition wf {T} (F : Field T) : Prop :=
  List.length (farr F) = 3 * (fNx F * fNy F * fNz F).

(** Python index [z] names position [i] of an axis of length [d]. *)
Definition pyindex (d : nat) (z : Z) (i : nat) : Prop :=
  i < d /\ (z = Z.of_nat i \/ z = (Z.of_nat i - Z.of_nat d)%Z).

(** Position of cell (i,j,k), component c, in the flat array. *)
Definition flat {T} (F : Field T) (c i j k : nat) : nat :=
  i + j * fNx F + k * (fNx F * fNy F) + c * (fNx F * fNy F * fNz F).

Definition entry {T} {NT : Num T} (F : Field T) (c i j k : nat) : T :=
  get (farr F) (flat F c i j k).

Definition scalar {T} (x : T) : ndarray T := {| shape := []; dat := [x] |}.

(** Component names of the interface. *)
Definition names_component (ck : ckey) (c : nat) : Prop :=
  match ck with
  | CInt z => z = Z.of_nat c /\ c < 3
  | CStr s => (s = "x"%string /\ c = 0) \/ (s = "y"%string /\ c = 1) \/ (s = "z"%string /\ c = 2)
  | COther => False
  end.

(** [a:b] and [a:b:s] with s > 0, Python rules: negative bounds count from the end,
    bounds are clipped to the axis.  [selects d key i p]: position [i] is the p-th
    selected one. *)
Definition clip (d z : Z) : Z := Z.max 0 (Z.min d (if (z <? 0)%Z then z + d else z)%Z).
Definition selects (d : nat) (k : ikey) (i p : nat) : Prop :=
  match k with
  | KI z => pyindex d z i /\ p = 0
  | KS a b s =>
      let step := match s with Some s => s | None => 1%Z end in
      let dz := Z.of_nat d in
      if (0 <? step)%Z then
        let lo := match a with Some a => clip dz a | None => 0%Z end in
        let hi := match b with Some b => clip dz b | None => dz end in
        (Z.of_nat i = lo + step * Z.of_nat p /\ Z.of_nat i < hi)%Z
      else
        let lo := match a with Some a => Z.min (dz - 1) (Z.max (-1) (if (a <? 0)%Z then a + dz else a))
                             | None => dz - 1 end%Z in
        let hi := match b with Some b => Z.min (dz - 1) (Z.max (-1) (if (b <? 0)%Z then b + dz else b))
                             | None => -1 end%Z in
        (step < 0 /\ Z.of_nat i = lo + step * Z.of_nat p /\ hi < Z.of_nat i)%Z
  end.

(** A key that names something on the axis: an in-range integer or a slice with
    non-zero step. *)
Definition key_ok (d : nat) (k : ikey) : Prop :=
  match k with
  | KI z => (- Z.of_nat d <= z < Z.of_nat d)%Z
  | KS _ _ s => s <> Some 0%Z
  end.

(** Number of positions a key selects, stated through [selects]. *)
Definition count_is (d : nat) (k : ikey) (n : nat) : Prop :=
  forall p, p < n <-> exists i, selects d k i p.

(** The field held by variable [x] of a program. *)
Definition read {T} (s : store T) (x : nat) : option (Field T) :=
  option_map (load s) (nth_error (objs s) x).
