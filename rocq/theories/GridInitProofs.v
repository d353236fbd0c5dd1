(** Lemmas about GridInitModel.v. *)
From Coq Require Import List Arith ZArith NArith Bool String Lia Reals Lra.
From Verif Require Import Num Vec FieldModel GridModel SolverModel SolverBuild GridFileModel GridProofs GridProofs2
  GridRefineProofs GridFileProofs MpiModel MpiSolverModel MpiTiles WakeModel WakeNum SourceModel GridInitModel.
Import ListNotations.
Open Scope string_scope.

Lemma dget_map {A} (a : A) ks k : In k ks -> dget (map (fun k => (k, a)) ks) k = Ok a.
Proof.
  induction ks as [|q ks IH]; intros H; [destruct H|]. cbn.
  destruct (String.eqb q k) eqn:E; [reflexivity|]. apply IH. destruct H as [->|H]; [|exact H].
  rewrite String.eqb_refl in E. discriminate.
Qed.
Lemma dget_combine {A} ks : forall (l : list A) i k c, NoDup ks -> nth_error ks i = Some k -> nth_error l i = Some c ->
  dget (combine ks l) k = Ok c.
Proof.
  induction ks as [|q ks IH]; intros l i k c N Hk Hc; [destruct i; discriminate|].
  destruct l as [|c0 l]; [destruct i; discriminate|]. inversion N as [|? ? Nq N']; subst. cbn.
  destruct i as [|i].
  - injection Hk as ->. injection Hc as ->. rewrite String.eqb_refl. reflexivity.
  - cbn in Hk, Hc. destruct (String.eqb q k) eqn:E.
    + apply String.eqb_eq in E. subst. destruct Nq. exact (nth_error_In _ _ Hk).
    + exact (IH l i k c N' Hk Hc).
Qed.
Lemma dget_app {A} (d d' : dict A) k : dget (d ++ d')%list k = match dget d k with Ok v => Ok v | Err _ => dget d' k end.
Proof. induction d as [|[q v] d IH]; cbn; [reflexivity|]. destruct (String.eqb q k); [reflexivity|exact IH]. Qed.
Lemma dget_none {A} (d : dict A) k : ~ In k (map fst d) -> dget d k = Err KeyError.
Proof.
  induction d as [|[q v] d IH]; intros H; [reflexivity|]. cbn in *. destruct (String.eqb q k) eqn:E.
  - apply String.eqb_eq in E. subst. destruct H. left. reflexivity.
  - apply IH. intros K. apply H. right. exact K.
Qed.

Lemma collect_all {A B} (g : A -> result B) l r : collect g l = Ok r -> forall a, In a l -> exists b, g a = Ok b.
Proof.
  unfold collect. set (f := fun (acc : list B) (a : A) => do b <- g a; Ok (acc ++ [b])%list).
  enough (K : forall acc r, seq_upd f acc l = Ok r -> forall a, In a l -> exists b, g a = Ok b) by exact (K [] r).
  clear r. induction l as [|q l IH]; intros acc r H a Ha; [destruct Ha|].
  cbn [seq_upd] in H. binv H v Hv. binv Hv b Hb. destruct Ha as [<-|Ha]; [exists b; exact Hb|exact (IH _ _ H a Ha)].
Qed.

Section Colours.
  Context {T : Type} {NT : Num T} {OT : NumOrd T}.
  Lemma assign_go (ms : dict (pymat T)) ks : forall d,
    (forall k, In k ks -> exists m, dget ms k = Ok m) -> NoDup ks -> (forall k, In k ks -> ~ In k (map fst d)) ->
    exists d', seq_upd (fun d k => do ms <- some TypeError (Some ms); do m <- dget ms k; Ok (d ++ [(k, auto_colour m)])%list) d ks = Ok (d ++ d')%list /\
      map fst d' = ks /\ forall k m, In k ks -> dget ms k = Ok m -> dget d' k = Ok (auto_colour m).
  Proof.
    induction ks as [|k ks IH]; intros d H N D.
    - exists []. rewrite app_nil_r. split; [reflexivity|]. split; [reflexivity|]. intros k m [].
    - destruct (H k (or_introl eq_refl)) as [m Hm]. inversion N as [|? ? Nk N']; subst.
      cbn [seq_upd some bind]. rewrite Hm. cbn [bind].
      destruct (IH (d ++ [(k, auto_colour m)])%list) as (d' & E & F & G).
      + intros q Hq. apply H. right. exact Hq.
      + exact N'.
      + intros q Hq C. rewrite map_app in C. apply in_app_or in C. destruct C as [C|[C|[]]].
        * exact (D q (or_intror Hq) C).
        * cbn in C. subst. exact (Nk Hq).
      + exists ((k, auto_colour m) :: d'). rewrite <- app_assoc in E. split; [exact E|]. split; [cbn; f_equal; exact F|].
        intros q m' Hq Hm'. cbn. destruct (String.eqb k q) eqn:Ek.
        * apply String.eqb_eq in Ek. subst. rewrite Hm in Hm'. injection Hm' as <-. reflexivity.
        * destruct Hq as [->|Hq]; [rewrite String.eqb_refl in Ek; discriminate|]. exact (G q m' Hq Hm').
  Qed.
  Lemma assign_ok (ms : dict (pymat T)) ks : NoDup ks -> (forall k, In k ks -> exists m, dget ms k = Ok m) ->
    exists d, assign_colors ks (Some ms) = Ok d /\ map fst d = ks /\
      forall k m, In k ks -> dget ms k = Ok m -> dget d k = Ok (auto_colour m).
  Proof.
    intros N H. destruct (assign_go ms ks [] H N (fun _ _ K => K)) as (d & E & F & G).
    exists d. split; [exact E|]. split; [exact F|exact G].
  Qed.

  Lemma prepare_inv so mats rot tra sca c (st : Stl T) : prepare so mats rot tra sca c = Ok st ->
    let ks := map fst (st_solids st) in
    st_rotate st = spread ks rot /\ st_translate st = spread ks tra /\ st_scale st = spread ks sca /\
    prepare_colors ks mats c = Ok (st_colors st) /\
    match so with SoStr f => st_solids st = [("Solid 1", f)] | SoDict d => st_solids st = d | SoOther => False end.
  Proof.
    intros H. unfold prepare in H. binv H d Hd. binv H col HC. injection H as <-. cbn.
    repeat (split; [reflexivity|]). split; [exact HC|].
    destruct so; [injection Hd as <-; reflexivity|injection Hd as <-; reflexivity|discriminate].
  Qed.
End Colours.

Section Init.
  Context {T : Type} {NT : Num T} {OT : NumOrd T} {TR : NumTr T}.
  Context (file : string -> option (list (vec3 T))) (edges : list (list (vec3 T)) -> list (vec3 T)) (round5 : T -> T)
    (lsq : list T -> list bool -> list T) (inside : list T * list T * list T -> list (vec3 T) -> T -> list bool).
  Notation init := (init file edges round5 lsq inside).

  (** What a successful construction went through. *)
  Lemma init_inv (a : GiArgs T) o : init a = Ok o -> exists lo hi x y z,
    first_axes a = Ok (lo, hi, (x, y, z)) /\
    match ga_solids a with
    | None => gi_stl o = None
    | Some so => exists st, gi_stl o = Some st /\
        prepare so (ga_mats a) (ga_rotate a) (ga_translate a) (ga_scale a) (ga_colors a) = Ok st /\
        forall k, In k (map fst (st_solids st)) -> exists surf, read_stl file st k = Ok surf
    end /\
    (if ga_refine a then
       ga_snaps a = None /\
       exists st sx sy sz x' y' z', gi_stl o = Some st /\ gi_snaps o = Some (sx, sy, sz) /\
         compute_snaps file edges round5 st (ga_snap_solids a) (ga_snap_tol a) lo hi = Ok (sx, sy, sz) /\
         refine_axis lsq (px lo) (px hi) (List.length x) sx (ga_method a) = Ok x' /\
         refine_axis lsq (py lo) (py hi) (List.length y) sy (ga_method a) = Ok y' /\
         refine_axis lsq (pz lo) (pz hi) (List.length z) sz (ga_method a) = Ok z' /\
         gx (gi_grid o) = x' /\ gy (gi_grid o) = y' /\
         match ga_mpi a with
         | None => gz (gi_grid o) = z'
         | Some (rank, size) => exists t, mpi_tile (pz lo) (pz hi) (List.length z' - 1) size rank = Ok t /\ gz (gi_grid o) = tl_z t
         end
     else gx (gi_grid o) = x /\ gy (gi_grid o) = y /\
       match ga_mpi a with
       | None => gz (gi_grid o) = z
       | Some (rank, size) => exists t, mpi_tile (pz lo) (pz hi) (List.length z - 1) size rank = Ok t /\ gz (gi_grid o) = tl_z t
       end).
  Proof.
    intros H. unfold GridInitModel.init in H. binv H b Hb. destruct b as [[lo hi] [[x y] z]].
    binv H st Hst. binv H sn Hsn. binv H ax Hax. destruct ax as [[x1 y1] z1]. binv H z2 Hz. binv H g Hg. binv H masks Hm.
    injection H as <-. cbn [gi_grid gi_stl gi_masks gi_snaps].
    assert (Gx : gx g = x1 /\ gy g = y1 /\ gz g = z2).
    { unfold compute_grid in Hg. destruct ((2 <=? List.length x1) && (2 <=? List.length y1) && (2 <=? List.length z2))%nat; [|discriminate].
      binv Hg L HL. binv Hg iA HiA. binv Hg tL HtL. binv Hg itA HitA. injection Hg as <-. split; [|split]; reflexivity. }
    destruct Gx as (Gx & Gy & Gz).
    exists lo, hi, x, y, z. split; [exact Hb|]. split.
    - destruct (ga_solids a) as [so|].
      + binv Hst s Hs. injection Hst as <-. exists s. split; [reflexivity|]. split; [exact Hs|].
        binv Hm mx Hmx. binv Hm my Hmy. binv Hm mz Hmz. binv Hm m Hmm.
        intros k Hk. destruct (collect_all _ _ _ Hm k Hk) as [b Hb2]. binv Hb2 surf Hsurf. exists surf. exact Hsurf.
      + injection Hst as <-. reflexivity.
    - destruct (ga_refine a).
      + binv Hax q Hq. destruct q as [[sx sy] sz]. binv Hax x' Hx. binv Hax y' Hy. binv Hax z' Hz'.
        injection Hax as <- <- <-. destruct (ga_snaps a).
        * destruct st; injection Hsn as <-; discriminate.
        * split; [reflexivity|]. destruct st as [s|]; [|injection Hsn as <-; discriminate].
          binv Hsn q Hs. injection Hsn as <-. injection Hq as ->.
          exists s, sx, sy, sz, x', y', z'.
          split; [reflexivity|]. split; [reflexivity|]. split; [exact Hs|]. split; [exact Hx|]. split; [exact Hy|]. split; [exact Hz'|].
          split; [exact Gx|]. split; [exact Gy|]. destruct (ga_mpi a) as [[rank size]|].
          -- binv Hz t Ht. injection Hz as <-. exists t. split; [exact Ht|exact Gz].
          -- injection Hz as <-. exact Gz.
      + injection Hax as <- <- <-. split; [exact Gx|]. split; [exact Gy|]. destruct (ga_mpi a) as [[rank size]|].
        * binv Hz t Ht. injection Hz as <-. exists t. split; [exact Ht|exact Gz].
        * injection Hz as <-. exact Gz.
  Qed.

  Lemma init_masks (a : GiArgs T) o st : init a = Ok o -> gi_stl o = Some st -> exists mx my mz m,
    np_min (diff (gx (gi_grid o))) = Ok mx /\ np_min (diff (gy (gi_grid o))) = Ok my /\ np_min (diff (gz (gi_grid o))) = Ok mz /\
    np_min [mx; my; mz] = Ok m /\
    collect (fun k => do surf <- read_stl file st k;
                      Ok (k, inside (gx (gi_grid o), gy (gi_grid o), gz (gi_grid o)) surf (nmul m (ga_tol a)))) (map fst (st_solids st)) = Ok (gi_masks o).
  Proof.
    intros H. unfold GridInitModel.init in H. binv H b Hb. destruct b as [[lo hi] [[x y] z]].
    binv H st0 Hst. binv H sn Hsn. binv H ax Hax. destruct ax as [[x1 y1] z1]. binv H z2 Hz. binv H g Hg. binv H masks Hm.
    injection H as <-. cbn [gi_grid gi_stl gi_masks gi_snaps].
    assert (Gx : gx g = x1 /\ gy g = y1 /\ gz g = z2).
    { unfold compute_grid in Hg. destruct ((2 <=? List.length x1) && (2 <=? List.length y1) && (2 <=? List.length z2))%nat; [|discriminate].
      binv Hg L HL. binv Hg iA HiA. binv Hg tL HtL. binv Hg itA HitA. injection Hg as <-. split; [|split]; reflexivity. }
    destruct Gx as (-> & -> & ->). intros ->.
    binv Hm mx Hmx. binv Hm my Hmy. binv Hm mz Hmz. binv Hm m Hmm. exists mx, my, mz, m. auto.
  Qed.

  Lemma read_stl_keys st k surf : read_stl file st k = Ok surf ->
    (exists r, dget (st_rotate st) k = Ok r) /\ (exists t, dget (st_translate st) k = Ok t) /\ (exists s, dget (st_scale st) k = Ok s).
  Proof.
    intros H. unfold read_stl in H. binv H fn Hfn. binv H pts Hp. binv H r Hr. binv H t Ht. binv H s Hs.
    split; [exists r; exact Hr|]. split; [exists t; exact Ht|exists s; exact Hs].
  Qed.
End Init.

Section Snaps.
  Context {T : Type} {NT : Num T} {LT : NumLaws T} {OT : NumOrd T} {FT : NumFl T} {FL : NumFlLaws T} {TR : NumTr T}.
  Add Field snap_field : (@num_field T NT LT).
  Local Open Scope num_scope.

  Lemma uinsert_in x (l : list T) y : In y (uinsert x l) <-> y = x \/ In y l.
  Proof.
    induction l as [|a l IH]; cbn [uinsert]; [cbn; intuition|].
    destruct (nltb x a) eqn:E1; [cbn; intuition|]. destruct (nltb a x) eqn:E2.
    - cbn. rewrite IH. intuition.
    - rewrite (ol_total x a E1 E2). cbn. intuition.
  Qed.
  Lemma unique_in (l : list T) y : In y (unique l) <-> In y l.
  Proof.
    induction l as [|a l IH]; [reflexivity|]. cbn [unique fold_right]. change (fold_right uinsert [] l) with (unique l).
    rewrite uinsert_in, IH. cbn. intuition.
  Qed.
  Lemma bounds_in (a b : T) pts y : In y (snaps_with_bounds a b pts) <-> y = a \/ In y pts \/ y = b.
  Proof. unfold snaps_with_bounds. rewrite unique_in. cbn [app In]. rewrite in_app_iff, unique_in. cbn. intuition. Qed.

  (** The optimiser leaves the marked nodes where they are. *)
  Definition keeps (lsq : list T -> list bool -> list T) : Prop :=
    forall x0 b i, nth_error b i = Some true -> nth_error (lsq x0 b) i = nth_error x0 i.

  Lemma refine_keeps lsq a b n snaps x : keeps lsq -> a <> b -> refine_axis lsq a b n snaps MInsert = Ok x ->
    forall p, In p snaps -> In p x.
  Proof.
    intros K Hab H p Hp. unfold refine_axis in H. binv H x0 H0. injection H as <-. unfold refine_start in H0.
    match type of H0 with (if ?c then _ else _) = _ => destruct c; [discriminate|] end.
    apply (f_equal (fun r => match r with Ok v => v | Err _ => [] end)) in H0. cbn in H0. set (u := (p - a) / (b - a)).
    assert (Hu : In u x0).
    { rewrite <- H0. apply unique_in. apply in_or_app. left. apply in_map_iff. exists p. split; [reflexivity|exact Hp]. }
    apply In_nth_error in Hu. destruct Hu as [i Hi].
    set (bs := map (fun y => existsb (neqb y) (map (fun p => (p - a) / (b - a)) snaps)) x0).
    assert (B : nth_error bs i = Some true).
    { unfold bs. rewrite nth_error_map, Hi. cbn. f_equal. apply existsb_exists. exists u. split.
      - apply in_map_iff. exists p. split; [reflexivity|exact Hp].
      - apply neqb_eq. reflexivity. }
    apply in_map_iff. exists u. split.
    - unfold u. field. intros Z. apply Hab. transitivity (b - (b - a)); [ring|]. rewrite Z. ring.
    - apply (nth_error_In _ i). unfold bs in B. rewrite (K _ _ _ B). exact Hi.
  Qed.

  Context (file : string -> option (list (vec3 T))) (edges : list (list (vec3 T)) -> list (vec3 T)) (round5 : T -> T).
  Lemma collect_forall2 {A B} (g : A -> result B) l : forall r, collect g l = Ok r -> Forall2 (fun a b => g a = Ok b) l r.
  Proof.
    unfold collect. set (f := fun (acc : list B) (a : A) => do b <- g a; Ok (acc ++ [b])%list).
    enough (K : forall acc r, seq_upd f acc l = Ok r -> exists r', r = (acc ++ r')%list /\ Forall2 (fun a b => g a = Ok b) l r').
    { intros r H. destruct (K [] r H) as [r' [-> F]]. exact F. }
    induction l as [|q l IH]; intros acc r H.
    - injection H as <-. exists []. split; [symmetry; apply app_nil_r|constructor].
    - cbn [seq_upd] in H. binv H v Hv. binv Hv b Hb. injection Hv as <-. destruct (IH _ _ H) as [r' [-> F]].
      exists (b :: r'). split; [rewrite <- app_assoc; reflexivity|]. constructor; assumption.
  Qed.
  Lemma forall2_fun {A B} (g : A -> result B) l : forall r r', Forall2 (fun a b => g a = Ok b) l r -> Forall2 (fun a b => g a = Ok b) l r' -> r = r'.
  Proof.
    induction l as [|a l IH]; intros r r' H H'; inversion H; inversion H'; subst; [reflexivity|].
    f_equal; [congruence|]. apply IH; assumption.
  Qed.
  Lemma snaps_bounds st keys tol lo hi sx sy sz :
    compute_snaps file edges round5 st keys tol lo hi = Ok (sx, sy, sz) ->
    In (px lo) sx /\ In (px hi) sx /\ In (py lo) sy /\ In (py hi) sy /\ In (pz lo) sz /\ In (pz hi) sz.
  Proof.
    intros H. unfold compute_snaps in H. binv H ss Hs. destruct ss; [discriminate|]. injection H as <- <- <-.
    repeat split; apply bounds_in; auto.
  Qed.
  Lemma snaps_in st keys tol lo hi sx sy sz surfs p :
    compute_snaps file edges round5 st keys tol lo hi = Ok (sx, sy, sz) ->
    Forall2 (fun k s => read_stl file st k = Ok s) (match keys with Some l => l | None => map fst (st_solids st) end) surfs ->
    In p (edges surfs) ->
    nltb (nabs (px p)) tol = true \/ nltb (nabs (py p)) tol = true \/ nltb (nabs (pz p)) tol = true ->
    In (round5 (px p)) sx /\ In (round5 (py p)) sy /\ In (round5 (pz p)) sz.
  Proof.
    intros H F Hp Hc. unfold compute_snaps in H. binv H ss Hs. apply collect_forall2 in Hs.
    rewrite (forall2_fun _ _ _ _ Hs F) in *. destruct surfs as [|s0 surfs]; [discriminate|].
    injection H as <- <- <-.
    assert (I : In p (filter (fun p => close0 tol (py p)) (edges (s0 :: surfs)) ++ filter (fun p => close0 tol (px p)) (edges (s0 :: surfs)) ++
                    filter (fun p => close0 tol (pz p)) (edges (s0 :: surfs)))%list).
    { rewrite !in_app_iff, !filter_In. unfold close0. intuition. }
    repeat split; apply bounds_in; right; left; apply in_map_iff; exists p; (split; [reflexivity|exact I]).
  Qed.
End Snaps.
