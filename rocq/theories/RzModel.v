(** Histograms of where the packets were made: core/diag.c:38-45, 571-619,
    core/input.c:250-253, core/io.c:1175-1195, core/coord.c:40-61, 129-147.  The
    operations that choose a bin are rounded by the given functions; positions and weights
    are not rounded.  The threads of a process add one after the other (the additions are
    atomic); overflow is left out. *)
From Coq Require Import Reals Bool ZArith List.
From Verif Require Import RLib XLib IntLib BinModel.
Import ListNotations.
Open Scope R_scope.

(** Fields of a packet: w, type == TYPE_TRACER, has_oscillated and origin[1..3].  made_on
    is global_start of the process the packet was made on: it is not kept by the code and
    read by no function here, only by the specification. *)
Record packet := Pk { w : R; tracer : bool; has_oscillated : bool; origin : nat -> Z; made_on : nat -> Z }.
(** RZ_HISTOGRAMS_N, rz_rmax, rz_zmax; startx and dx; what cart_coord does *)
Record cfg := Cfg { nbins : nat; rz_rmax : R; rz_zmax : R; startx : nat -> R; delx : nat -> R; cart_coord : (nat -> R) -> nat -> R }.
(** the two forms of cart_coord, coord.c:129-147; bl_coord gives r and th *)
Definition cart_flat (x : nat -> R) : nat -> R := x.
Definition cart_mks (bl_coord : (nat -> R) -> R * R) (x : nat -> R) (a : nat) : R :=
  let r := fst (bl_coord x) in let th := snd (bl_coord x) in let ph := x 3%nat in
  match a with 1%nat => r * sin th * cos ph | 2%nat => r * sin th * sin ph | _ => r * cos th end.
(** the four arrays: rz_r_orig_hist, rz_z_orig_hist and those with osc_ *)
Record hists := Hists { hr : list R; hz : list R; osc_hr : list R; osc_hz : list R }.
(** reset_dump_variables, diag.c:38-45 *)
Definition cleared (c : cfg) : hists := let z := repeat 0 (nbins c) in Hists z z z z.

(** h[i] += v; undefined outside the array *)
Definition add_at (h : list R) (i : Z) (v : R) : option (list R) :=
  match rd h i with
  | Some a => Some (firstn (Z.to_nat i) h ++ (a + v) :: skipn (S (Z.to_nat i)) h)
  | None => None
  end.

Section Rounded.
(** rounding to double and to float *)
Variables fl fs : R -> R.
(** input.c:251-252 *)
Definition delta (c : cfg) (rmax : R) : R := fl (rmax / INR (nbins c)).
(** sqrtf *)
Definition sqrtf (v : R) : R := fs (sqrt (fs v)).
(** diag.c:588-589 *)
Definition rcyl (c : cfg) (x y : R) : R := MY_MIN (sqrtf (fl (fl (x * x) + fl (y * y)))) (fl (Rabs (rz_rmax c) - SMALL)).
Definition zcyl (c : cfg) (z : R) : R := MY_MIN (Rabs z) (fl (Rabs (rz_zmax c) - SMALL)).
Definition xround (a : X) : X := match a with Fin r => Fin (fl r) | _ => a end.
(** 591-592 *)
Definition bin_of (v d : R) : option Z := to_int (xround (Fin v / Fin (fl (d + SMALL)))%X).
(** 578-592: the bins of a packet on the process with the given global_start *)
Definition where_made (c : cfg) (gs : nat -> Z) (p : packet) : nat -> R :=
  cart_coord c (coord {| start := startx c; dx := delx c; gs := gs |} CENT (origin p)).
Definition ir (c : cfg) (gs : nat -> Z) (p : packet) : option Z :=
  let X := where_made c gs p in bin_of (rcyl c (X 1%nat) (X 2%nat)) (delta c (rz_rmax c)).
Definition iz (c : cfg) (gs : nat -> Z) (p : packet) : option Z :=
  let X := where_made c gs p in bin_of (zcyl c (X 3%nat)) (delta c (rz_zmax c)).
(** 594-606: one packet *)
Definition one (c : cfg) (gs : nat -> Z) (h : hists) (p : packet) : option hists :=
  match ir c gs p, iz c gs p with
  | Some r, Some z =>
      match add_at (hr h) r (w p), add_at (hz h) z (w p),
            (if has_oscillated p then add_at (osc_hr h) r (w p) else Some (osc_hr h)),
            (if has_oscillated p then add_at (osc_hz h) z (w p) else Some (osc_hz h)) with
      | Some a, Some b, Some oa, Some ob => Some (Hists a b oa ob)
      | _, _, _, _ => None
      end
  | _, _ => None
  end.
(** 577-609: a list of packets *)
Fixpoint walk (c : cfg) (gs : nat -> Z) (ps : list packet) (h : hists) : option hists :=
  match ps with
  | [] => Some h
  | p :: ps => match one c gs h p with Some h => walk c gs ps h | None => None end
  end.
(** a process: global_start and the packet lists of its threads *)
Record proc := Proc { pgs : nat -> Z; threads : list (list packet) }.
Definition local (c : cfg) (p : proc) (h : hists) : option hists := walk c (pgs p) (concat (threads p)) h.
Fixpoint locals (c : cfg) (ps : list proc) (hs : list hists) : option (list hists) :=
  match ps, hs with
  | [], [] => Some []
  | p :: ps, h :: hs => match local c p h, locals c ps hs with Some a, Some l => Some (a :: l) | _, _ => None end
  | _, _ => None
  end.
(** 610-615, mpi.c:618-620: MPI_Allreduce of each array *)
Definition vadd (a b : list R) : list R := map (fun p => fst p + snd p) (combine a b).
Definition allreduce (n : nat) (l : list (list R)) : list R := fold_right vadd (repeat 0 n) l.
Definition reduced (c : cfg) (l : list hists) : hists :=
  Hists (allreduce (nbins c) (map hr l)) (allreduce (nbins c) (map hz l)) (allreduce (nbins c) (map osc_hr l)) (allreduce (nbins c) (map osc_hz l)).
Definition generate_rz_histograms (c : cfg) (ps : list proc) (hs : list hists) : option (list hists) :=
  match locals c ps hs with Some l => Some (map (fun _ => reduced c l) l) | None => None end.
(** io.c:1175-1195 and diag.c:236-251: a sequence of dumps, each with the packets there are
    then; process 0 writes its arrays and all processes clear theirs *)
Fixpoint dumps (c : cfg) (snaps : list (list proc)) (hs : list hists) : option (list hists) :=
  match snaps with
  | [] => Some []
  | ps :: snaps =>
      match generate_rz_histograms c ps hs with
      | Some (h0 :: rest) => match dumps c snaps (map (fun _ => cleared c) (h0 :: rest)) with Some l => Some (h0 :: l) | None => None end
      | _ => None
      end
  end.
End Rounded.
