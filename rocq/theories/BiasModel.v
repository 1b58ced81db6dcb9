(** Scattering biases.  core/interact.c:25-116. *)
From Coq Require Import Reals Bool List.
From Verif Require Import RLib XLib.
Import ListNotations.
Open Scope R_scope.

(** decs.h:87, 101 *)
Definition SMALL : X := Fin (/ 10 ^ 20).
Definition SCATT_BIAS_SAFETY : X := Fin (1 / 2).

(** A process: optical depth and bias (dtau_scatt[i], bias_scatt[i]). *)
Definition proc := (X * X)%type.

(** interact.c:61-81 *)
Definition max_prod (l : list proc) : X :=
  fold_left (fun m p => let prod := (snd p * fst p)%X in if xltb m prod then prod else m) l NInf.
Definition rebalance_biases (l : list proc) : list proc :=
  match l with
  | [_] => l
  | _ => let m := max_prod l in
    map (fun p => (fst p, if xltb (fst p) SMALL then Fin 1 else (m / (fst p + SMALL))%X)) l
  end.

(** interact.c:90-116; nu, type and m are not used there *)
Definition is_bad (b : X) : bool := match b with NaN | PInf | NInf => true | Fin r => Rltb r 1 end.
Definition bound_all_biases (l : list proc) : list proc :=
  let l1 := map (fun p => (fst p, if xltb (snd p) (Fin 1) then Fin 1 else snd p)) l in
  let sum := fold_left (fun s p => (s + fst p * snd p)%X) l1 (Fin 0) in
  let ratio := (SCATT_BIAS_SAFETY / sum)%X in
  let l2 := if xltb ratio (Fin 1) then map (fun p => (fst p, (snd p * ratio)%X)) l1 else l1 in
  map (fun p => (fst p, if is_bad (snd p) then Fin 1 else snd p)) l2.

(** interact.c:25-48 (used with REBALANCE off): [dtau] is the conservative estimate
    (alpha_inv / nu) * Rout_rad * L_unit, or one if that is not usable (33-34);
    [num] = RAD_NUM_TYPES * RAD_SCATT_TYPES. *)
Definition bound_bias (bias dtau : X) (num : R) : X :=
  xmax (xmin bias (Fin 1 / (dtau * Fin num))%X) (Fin 1).
