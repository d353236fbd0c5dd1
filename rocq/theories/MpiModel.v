(** Model of the halo exchange between ranks (solverFIT3D.py:490-518) as a transition system. *)
From Coq Require Import List Arith ZArith Bool Lia.
From Verif Require Import Num Vec.
Import ListNotations.

Section Ranks.
  (** [St]: what one rank holds.  [Msg]: one layer of one component.  [sendbuf fld hi d s] is the
      layer handed to Sendrecv for component [d] of field [fld] on the high or low side, and
      [recvbuf] writes the receive buffer. *)
  Context {St Msg : Type}.
  Context (sendbuf : nat -> bool -> nat -> St -> Msg) (recvbuf : nat -> bool -> nat -> Msg -> St -> St).

  (** Instructions of a rank: a computation on its own data, or one comm.Sendrecv. *)
  Inductive instr : Type :=
  | Local (f : St -> result St)
  | Sendrecv (fld : nat) (hi : bool) (d : nat).

  (** Partner and tags of a Sendrecv (495-515): low side dest=source=rank-1, sendtag=0, recvtag=1;
      high side rank+1, sendtag=1, recvtag=0. *)
  Definition peer (r : nat) (hi : bool) : nat := if hi then r + 1 else r - 1.
  Definition sendtag (hi : bool) : nat := if hi then 1 else 0.
  Definition recvtag (hi : bool) : nat := if hi then 0 else 1.

  (** _mpi_communicate(field) on one rank: low side then high side, x y z each. *)
  Definition communicate (size r fld : nat) : list instr :=
    (if 0 <? r then map (Sendrecv fld false) [0; 1; 2] else []) ++
    (if r <? size - 1 then map (Sendrecv fld true) [0; 1; 2] else []).

  (** A running rank: its data, what is left to do, and how far the current Sendrecv is. *)
  Record Rank : Type := { rst : St; rcode : list instr; rposted : bool; rsent : bool; rrecvd : bool }.
  (** Messages handed over to MPI and not yet received, per (source, destination, tag), in order. *)
  Record World : Type := { wrank : nat -> Rank; wchan : nat -> nat -> nat -> list Msg }.

  Definition set_rank (w : World) (r : nat) (x : Rank) : World :=
    {| wrank := fun n => if n =? r then x else wrank w n; wchan := wchan w |}.
  Definition set_chan (w : World) (a b t : nat) (l : list Msg) : World :=
    {| wrank := wrank w;
       wchan := fun a' b' t' => if (a' =? a) && (b' =? b) && (t' =? t) then l else wchan w a' b' t' |}.
  Definition mark (x : Rank) (posted sent recvd : bool) (s : St) : Rank :=
    {| rst := s; rcode := rcode x; rposted := posted; rsent := sent; rrecvd := recvd |}.
  Definition next_rank (s : St) (c : list instr) : Rank :=
    {| rst := s; rcode := c; rposted := false; rsent := false; rrecvd := false |}.

  (** One transition of the machine, in any order between ranks.  The send half of a Sendrecv may
      finish early by buffering (eager) or only together with the matching receive (rendezvous);
      MPI may do either each time, so both are possible when [eager]; with [eager = false] only
      the second. *)
  Inductive wstep (eager : bool) (size : nat) : World -> World -> Prop :=
  | w_local : forall w r f c s, r < size -> rcode (wrank w r) = Local f :: c -> f (rst (wrank w r)) = Ok s ->
      wstep eager size w (set_rank w r (next_rank s c))
  | w_post : forall w r fld hi d c, r < size -> rcode (wrank w r) = Sendrecv fld hi d :: c -> rposted (wrank w r) = false ->
      wstep eager size w (set_rank w r (mark (wrank w r) true false false (rst (wrank w r))))
  | w_buffer : forall w r fld hi d c, eager = true -> r < size -> rcode (wrank w r) = Sendrecv fld hi d :: c ->
      rposted (wrank w r) = true -> rsent (wrank w r) = false ->
      wstep eager size w (set_chan (set_rank w r (mark (wrank w r) true true (rrecvd (wrank w r)) (rst (wrank w r))))
                      r (peer r hi) (sendtag hi)
                      (wchan w r (peer r hi) (sendtag hi) ++ [sendbuf fld hi d (rst (wrank w r))]))
  | w_deliver : forall w r fld hi d c m l, r < size -> rcode (wrank w r) = Sendrecv fld hi d :: c ->
      rposted (wrank w r) = true -> rrecvd (wrank w r) = false ->
      wchan w (peer r hi) r (recvtag hi) = m :: l ->
      wstep eager size w (set_chan (set_rank w r (mark (wrank w r) true (rsent (wrank w r)) true
                                              (recvbuf fld hi d m (rst (wrank w r)))))
                      (peer r hi) r (recvtag hi) l)
  | w_meet : forall w r q fld hi d c fld' hi' d' c', r < size -> q < size -> r <> q ->
      rcode (wrank w r) = Sendrecv fld hi d :: c -> rposted (wrank w r) = true -> rsent (wrank w r) = false ->
      rcode (wrank w q) = Sendrecv fld' hi' d' :: c' -> rposted (wrank w q) = true -> rrecvd (wrank w q) = false ->
      peer r hi = q -> peer q hi' = r -> sendtag hi = recvtag hi' -> wchan w r q (sendtag hi) = [] ->
      wstep eager size w (set_rank (set_rank w r (mark (wrank w r) true true (rrecvd (wrank w r)) (rst (wrank w r))))
                      q (mark (wrank w q) true (rsent (wrank w q)) true
                           (recvbuf fld' hi' d' (sendbuf fld hi d (rst (wrank w r))) (rst (wrank w q)))))
  | w_return : forall w r fld hi d c, r < size -> rcode (wrank w r) = Sendrecv fld hi d :: c ->
      rposted (wrank w r) = true -> rsent (wrank w r) = true -> rrecvd (wrank w r) = true ->
      wstep eager size w (set_rank w r (next_rank (rst (wrank w r)) c)).

  (** A run of [n] transitions. *)
  Inductive wsteps (eager : bool) (size : nat) : nat -> World -> World -> Prop :=
  | ws_done : forall w, wsteps eager size 0 w w
  | ws_more : forall n w w' w'', wstep eager size w w' -> wsteps eager size n w' w'' -> wsteps eager size (S n) w w''.

  (** Start: every rank at the beginning of its program, nothing in flight. *)
  Definition start (init : nat -> St) (code : nat -> list instr) : World :=
    {| wrank := fun r => next_rank (init r) (code r); wchan := fun _ _ _ => [] |}.
  Definition finished (size : nat) (w : World) : Prop := forall r, r < size -> rcode (wrank w r) = [].
End Ranks.
Arguments instr St : clear implicits.
Arguments Rank St : clear implicits.
Arguments World St Msg : clear implicits.
