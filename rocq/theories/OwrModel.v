(** Writing the table of neutrino opacities: core/opac_emis_neutrino.c:147-268, and
    EOS_SC_get_bounds, core/eos_stellar_collapse.c:1242-1258, whose result it is given,
    over exact reals.  The Fortran routine that computes the opacities is an arbitrary
    function; HDF5 is left out, what is written is the contents of the arrays. *)
From Coq Require Import Reals Bool ZArith List.
From Verif Require Import RLib XLib IntLib TabModel InvModel OpacModel.
Import ListNotations.
Open Scope R_scope.

(** of_tablebounds, decs.h:636-641, the members used *)
Record bounds := Bounds { Nrho : Z; NT : Z; NYe : Z; lrho_min : R; lrho_max : R; lT_min : R; lT_max : R; Ye_min : R; Ye_max : R }.
(** 189-191 with 207, 211, 215: the values of one axis.  Each is stored in every pass of
    the loops inside it. *)
Definition node (lo hi : R) (n i : Z) : R := lo + IZR i * ((hi - lo) / IZR (n - 1)).
Definition axis_of (lo hi : R) (n : Z) : list R := map (node lo hi n) (range n).
(** a product of type int; an overflow is undefined *)
Definition int_of (z : Z) : option Z := if (z <? 2147483648)%Z then Some z else None.

Section Write.
(** RAD_NUM_TYPES, NU_BINS + 1, the two constants, and what get_opacity_emissivity stores
    at element n of its arrays kappa and eta for a density, a fraction and a temperature *)
Variables (RAD_NUM_TYPES nb : Z) (HPL MEV : R) (fort : R -> R -> R -> Z -> R * R).
(** 37 *)
Definition ngroups3 : Z := (3 * nb)%Z.
(** opac_emis 147-183 with kappa = kg + e and jg = jg + e: 167-170 fill, 171-179 convert *)
Definition opac_emis (size : Z) (rho T Ye : R) (e : Z) (kj : buffer * buffer) : option (buffer * buffer) :=
  match each (fun n kj =>
    match store size (fst kj) (e + n) (fst (fort rho Ye T n)), store size (snd kj) (e + n) (snd (fort rho Ye T n)) with
    | Some k, Some j => Some (k, j)
    | _, _ => None
    end) (range ngroups3) kj with
  | None => None
  | Some kj =>
      each (fun n kj =>
        match snd kj (e + n)%Z with
        | None => None
        | Some v => match store size (snd kj) (e + n) (v * (HPL / MEV)) with Some j => Some (fst kj, j) | None => None end
        end) (range ngroups3) kj
  end.
(** opac_emis_to_hdf 186-268: kg and jg as they are written, 193 and 205-221 *)
Definition opac_emis_to_hdf (b : bounds) : option (buffer * buffer) :=
  match int_of (Nrho b * NT b * NYe b * RAD_NUM_TYPES * nb) with
  | None => None
  | Some size =>
      each (fun irho =>
        let rho := InvModel.pow10 (node (lrho_min b) (lrho_max b) (Nrho b) irho) in
        each (fun iT =>
          let T := InvModel.pow10 (node (lT_min b) (lT_max b) (NT b) iT) in
          each (fun iY =>
            let Ye := node (Ye_min b) (Ye_max b) (NYe b) iY in
            let e := ((Nrho b * (iY * NT b + iT) + irho) * RAD_NUM_TYPES * nb)%Z in
            opac_emis size rho T Ye e) (range (NYe b))) (range (NT b))) (range (Nrho b)) (fresh, fresh)
  end.
End Write.
(** what init_opac_emis_hdf reads from such a file, opac_emis_hdf.c:84-109, in a run with
    nb' groups between numin' and numax' *)
Definition reread (b : bounds) (RAD_NUM_TYPES : Z) (lnu : list R) (nb' : Z) (numin' numax' : R) : opac :=
  Opac (axis_of (lrho_min b) (lrho_max b) (Nrho b)) (axis_of (lT_min b) (lT_max b) (NT b)) (axis_of (Ye_min b) (Ye_max b) (NYe b)) lnu RAD_NUM_TYPES nb' numin' numax'.
(** lnugroup[0] as written, opac_emis_neutrino.c:53-62, 253 *)
Definition lnus (nb : Z) (numin numax : R) : list R := lnugroup (Opac [] [] [] [] 0 nb numin numax).
