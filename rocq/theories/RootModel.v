(** Root finding: core/root_finding.c, over exact reals.  [f] is any real function
    (it returns finite values); a division by zero in the secant step makes the
    C value infinite or NaN and is reported as [None].  The two unbounded loops
    take fuel; running out is [Diverge].  The counters root_fcount are not
    modelled, nor the unreachable code after line 152 (ROOT_NAN_OK 0). *)
From Coq Require Import Reals Bool.
From Verif Require Import RLib.
Open Scope R_scope.

Inductive outcome := Success (x : R) | Fail | Diverge.

Section F.
Variables (f : R -> R) (ytarget xmin xmax xtol ytol : R).

(** lines 106-115: one step; [None]: isnan(x) || isinf(x) *)
Definition secant_step (x : R) : option R :=
  let dx := Rabs (/ 10 ^ 7 * x) + xtol in
  let y := f x - ytarget in
  let yp := f (x + dx) in
  let ym := f (x - dx) in
  let dy := (yp - ym) / (2 * dx) in
  if Reqb dy 0 then None else Some (x - y / dy).
(** lines 105-157: do-while with at most [S k] steps; returns x_last and x *)
Fixpoint secant_loop (k : nat) (x : R) : option (R * R) :=
  match secant_step x with
  | None => None
  | Some x' =>
      match k with
      | O => Some (x, x')
      | S k' => if Rltb xtol (Rabs (x' - x) / (Rabs x' + xtol)) then secant_loop k' x' else Some (x, x')
      end
  end.
(** SECANT_NITER_MAX = 10, line 16; lines 164-203 *)
Definition root_secant (xguess : R) : option R :=
  match secant_loop 9 xguess with
  | None => None
  | Some (x_last, x) =>
      let y := f x in
      let frac_error := Rabs (y - ytarget) / (Rabs y + ytol) in
      if Rltb xtol (Rabs (x - x_last)) && Rltb ytol (Rabs frac_error) then None else Some x
  end.

(** lines 216-223 *)
Fixpoint widen (fuel : nat) (grow x : R) : option (R * R) :=
  match fuel with
  | O => None
  | S n =>
      let dx := Rabs (grow * x) in
      let xl := x - dx in
      let xr := x + dx in
      let fl := f xl - ytarget in
      let fr := f xr - ytarget in
      if Rltb 0 (fl * fr) && Rleb xmin xl && Rleb xr xmax then widen n (grow * (11 / 10)) x else Some (xl, xr)
  end.
(** lines 226-268: the bracket, [None]: no sign change *)
Definition bracket (xl xr : R) : option (R * R) :=
  let xr := if Rltb xmax xr then xmax else xr in
  let xl := if Rltb xl xmin then xmin else xl in
  let v x := f x - ytarget in
  if Rltb 0 (v xl * v xr) then
    let xl := xmin in
    if Rltb 0 (v xl * v xr) then
      let xr := xmax in
      if Rltb 0 (v xl * v xr) then None else Some (xl, xr)
    else Some (xl, xr)
  else Some (xl, xr).
(** lines 270-281 *)
Fixpoint bisect (fuel : nat) (xl xr : R) : option (R * R) :=
  match fuel with
  | O => None
  | S n =>
      let xm := 5 / 10 * (xl + xr) in
      let '(xl, xr) := if Rleb ((f xl - ytarget) * (f xm - ytarget)) 0 then (xl, xm) else (xm, xr) in
      if Rltb xtol (xr - xl) then bisect n xl xr else Some (xl, xr)
  end.
(** lines 206-309 *)
Definition root_bisect (fuel : nat) (xguess : R) : outcome :=
  let x := if Rltb (Rabs xguess) xtol then xguess + 2 * xtol else xguess in
  match widen fuel (1 / 100) x with
  | None => Diverge
  | Some (xl, xr) =>
      match bracket xl xr with
      | None => Fail
      | Some (xl, xr) =>
          match bisect fuel xl xr with
          | None => Diverge
          | Some (xl, xr) => Success (5 / 10 * (xl + xr))
          end
      end
  end.
(** lines 32-95 *)
Definition find_root (fuel : nat) (xguess : R) : outcome :=
  let fmax := f xmax in
  if Rltb (Rabs (fmax - ytarget) / (Rabs fmax + ytol)) ytol then Success xmax else
  let fmin := f xmin in
  if Rltb (Rabs (fmin - ytarget) / (Rabs fmin + ytol)) ytol then Success xmin else
  let xguess := if Rleb xmax xguess then xmax - xtol else xguess in
  let xguess := if Rltb xguess xmin then xmin else xguess in
  match root_secant xguess with
  | Some x => Success x
  | None =>
      match root_bisect fuel xguess with
      | Success x => if Rltb x xmin then Fail else if Rltb xmax x then Fail else Success x
      | o => o
      end
  end.
End F.
