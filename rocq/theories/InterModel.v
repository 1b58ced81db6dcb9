(** Interactions of packets with the fluid.  core/interact.c:120-700. *)
From Coq Require Import Reals Bool Arith List Lia.
From Verif Require Import RLib GeomModel.
Import ListNotations.
Open Scope R_scope.

(** decs.h:87 *)
Definition SMALL : R := / 10 ^ 20.
(** interact.c:119 *)
Definition MAX_INTERACTIONS : nat := 100.

(** One scattering process: sampled depth -log(rand)/bias (443), optical depth along the
    rest of the step (370-373) and bias. *)
Record chan := mkch { xs : R; ds : R; bs : R }.
(** 463, 560: fraction of the step at which the sampled depth is reached *)
Definition frac (c : chan) : R := xs c / (ds c + SMALL).

Inductive choice := Nothing | Absorb | Scatter (n : nat) (f : R).
(** 557-566: the process with the smallest fraction, the first one of equals *)
Fixpoint first_min (l : list chan) (i best : nat) (f : R) : nat * R :=
  match l with
  | [] => (best, f)
  | c :: l => if Rltb (frac c) f then first_min l (S i) i (frac c) else first_min l (S i) best f
  end.
(** 445-472, 557-566.  [ABS] is the compile-time switch ABSORPTION; with SCATTERING off
    the list of processes is empty (the C arrays then hold infinite sampled depths, for
    which the test 466 always passes).  The sampled depths are positive, get_rand being
    below one. *)
Definition decide (ABS : bool) (xabs dabs : R) (chans : list chan) : choice :=
  let abs_possible := Rleb xabs dabs && ABS in
  let scatt_possible := match chans with [] => false | _ => forallb (fun c => Rleb (xs c) (ds c)) chans end in
  if negb (abs_possible || scatt_possible) then Nothing
  else if abs_possible && forallb (fun c => Rltb (xabs / (dabs + SMALL)) (frac c)) chans then Absorb
  else match chans with
       | [] => Nothing
       | c :: _ => let '(n, f) := first_min chans 0 0 (frac c) in Scatter n f
       end.

(** A packet: an identity (not in the C), weight, covariant wave vector, birth time
    and whether it is a tracer.  decs.h:574-593 *)
Record packet := mkp { id : nat; w : R; K : vec; t0 : R; tracer : bool }.
Definition zone := (nat * nat * nat)%type.
(** 484-490, 629-635: directions with one zone *)
Definition NG : nat := 3.
Definition fold_zone (n1 n2 n3 : nat) (z : zone) : zone :=
  let '(i, j, k) := z in
  (if Nat.eqb n1 1 then NG else i, if Nat.eqb n2 1 then NG else j, if Nat.eqb n3 1 then NG else k).

(** What happens in one pass of the inner loop is decided by the packet's place (180-241,
    Bad: outside the grid or a bad frequency, the packet is removed; Skip: interpolation
    failed, atmosphere, too cold), the samples, and whether the interpolation to the
    point of interaction, the scattering and the push of the scattered packet succeed. *)
Inductive place := Bad | Skip | Good.
Record sample := mks { at_ : place; xabs : R; dabs : R; chans : list chan;
  interp_ok : bool; sz : zone; K' : vec; scatter_ok : bool; push_ok : bool }.
(** An interaction, for the record (not in the C): who, when, how much weight. *)
Inductive event := EAbs (i : nat) (tm : R) (wt : R) | EScat (i : nat) (tm : R) (wt : R).

Section Interact.
Variable ABS : bool.
Variables n1 n2 n3 : nat.
(** time, step, zone volume in coordinates dx[1]*dx[2]*dx[3], kphys_to_num *)
Variables t dt d3x kphys : R.
(** Kcov returned by the interpolation (475, 571) *)
Variable Kat : packet -> sample -> vec.

Record state := mkst { done : list packet; todo : list packet; nint : nat; tmin : R;
  radG : list (zone * vec); events : list event }.

(** The head of the outer loop, 163-173: packets of negligible weight and tracers are
    passed over; a new packet starts at max(t, t0) with no interactions.  radG is kept
    as the list of its increments (each is added atomically). *)
Fixpoint settle (done todo : list packet) (g : list (zone * vec)) (e : list event) : state :=
  match todo with
  | [] => mkst done [] 0 t g e
  | ph :: rest =>
    if Rltb (w ph) SMALL || tracer ph then settle (ph :: done) rest g e
    else mkst done todo 0 (MY_MAX t (t0 ph)) g e
  end.
(** "prev = ph; ph = ph->next; break" *)
Definition advance (s : state) : state :=
  match todo s with [] => s | ph :: rest => settle (ph :: done s) rest (radG s) (events s) end.

(** One pass of the inner loop, 175-700.  [nid] names a packet that is made. *)
Definition step (nid : nat) (s : state) (m : sample) : state :=
  match todo s with
  | [] => s
  | ph :: rest =>
    let nint' := S (nint s) in
    match at_ m with
    | Bad => settle (done s) rest (radG s) (events s)
    | Skip => advance s
    | Good =>
      let dtint := t + dt - tmin s in
      match decide ABS (xabs m) (dabs m) (chans m) with
      | Nothing => advance s
      | Absorb =>
        if negb (interp_ok m) then advance s
        else
          let tabs := tmin s + xabs m / dabs m * dtint in
          let g : vec := fun mu => 1 / (dt * d3x) * w ph * kphys * Kat ph m mu in
          settle (mkp (id ph) 0 (K ph) (t0 ph) (tracer ph) :: done s) rest
            ((fold_zone n1 n2 n3 (sz m), g) :: radG s) (EAbs (id ph) tabs (w ph) :: events s)
      | Scatter n f =>
        if negb (interp_ok m) then advance s
        else
          let tscatt := tmin s + f * dtint in
          let b := bs (nth n (chans m) (mkch 0 0 0)) in
          let ws := w ph / b in
          let phscatt := mkp nid ws (K' m) tscatt (tracer ph) in
          let ph' := mkp (id ph) ((1 - 1 / b) * w ph) (K ph) (t0 ph) (tracer ph) in
          if negb (scatter_ok m) then settle (ph' :: done s) rest (radG s) (events s)
          else
            let g : vec := fun mu => 1 / (dt * d3x) * ws * kphys * (Kat ph m mu - K' m mu) in
            let radG' := (fold_zone n1 n2 n3 (sz m), g) :: radG s in
            if negb (push_ok m) then settle (ph' :: done s) rest radG' (events s)
            else
              let e := EScat (id ph) tscatt ws :: events s in
              let todo' := ph' :: phscatt :: rest in
              if Nat.ltb nint' MAX_INTERACTIONS
              then mkst (done s) todo' nint' tscatt radG' e
              else settle (done s) todo' radG' e
      end
    end
  end.

(** Any number of passes; the n-th names its packet nid + n. *)
Fixpoint run (nid : nat) (s : state) (l : list sample) : state :=
  match l with [] => s | m :: l => run (S nid) (step nid s m) l end.
Definition start (l : list packet) : state := settle [] l [] [].
End Interact.
