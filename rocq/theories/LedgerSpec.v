(** Lepton number carried by neutrinos. *)
From Coq Require Import Reals ZArith List.
From Verif Require Import TallyModel LedgerModel.
Import ListNotations.
Open Scope R_scope.

(** Electron neutrinos are of type 0, their antiparticles of type 1. *)
Definition lepton_number (ty : Z) : R := match ty with 0%Z => 1 | 1%Z => -1 | _ => 0 end.
Definition worth (p : nu_packet) : R := nw p * lepton_number (ntype p).
(** Where things happen: in the zones zs, with a bias that is not zero. *)
Definition inside (zs : list zone) (e : event) : Prop := match e with Emit z _ | Absorb _ z => In z zs | Scatter _ b | ScatterFails _ b => b <> 0 | _ => True end.
(** In fluid with u^t = 1, no scattering that fails. *)
Definition calm (ut_half ut_grd : zone -> R) (e : event) : Prop :=
  match e with Emit z _ => ut_half z = 1 | Absorb _ z => ut_grd z = 1 | ScatterFails _ _ => False | _ => True end.
(** What an event adds to the sum of the books: emission and absorption book (u^t - 1) times the packet's lepton number too much on
    the side of the gas, a failed scattering takes the share of the new packet away. *)
Definition drift1 (ut_half ut_grd : zone -> R) (l : list nu_packet) (e : event) : R :=
  match e with
  | Emit z p => (1 - ut_half z) * worth p
  | Absorb n z => match nth_error l n with Some p => (ut_grd z - 1) * worth p | None => 0 end
  | ScatterFails n b => match nth_error l n with Some p => - (worth p / b) | None => 0 end
  | _ => 0
  end.
(** The packets after an event. *)
Definition after (l : list nu_packet) (e : event) : list nu_packet :=
  let replace n by_ := match nth_error l n with Some p => firstn n l ++ by_ p ++ skipn (S n) l | None => l end in
  match e with
  | Emit _ p => p :: l
  | Absorb n _ => replace n (fun p => [mkn 0 (ntype p)])
  | Scatter n b => replace n (fun p => [mkn ((1 - 1 / b) * nw p) (ntype p); mkn (nw p / b) (ntype p)])
  | ScatterFails n b => replace n (fun p => [mkn ((1 - 1 / b) * nw p) (ntype p)])
  | Leave n => replace n (fun _ => [])
  end.
Fixpoint drift (ut_half ut_grd : zone -> R) (l : list nu_packet) (es : list event) : R :=
  match es with [] => 0 | e :: es => drift1 ut_half ut_grd l e + drift ut_half ut_grd (after l e) es end.
