(** Vocabulary for scattering. *)
From Coq Require Import Reals ZArith.
Open Scope R_scope.

(** length and angle in three dimensions, square in four *)
Definition sq3 (a : R * R * R) : R := let '(x, y, z) := a in x ^ 2 + y ^ 2 + z ^ 2.
Definition prod3 (a b : R * R * R) : R := let '(x, y, z) := a in let '(x', y', z') := b in x * x' + y * y' + z * z'.
Definition mink (v : R * (R * R * R)) : R := - fst v ^ 2 + sq3 (snd v).
(** energy of v seen by an observer u *)
Definition energy (v u : R * (R * R * R)) : R := fst u * fst v - prod3 (snd u) (snd v).
(** inside the closed interval spanned by four numbers *)
Definition hull4 (a b c d x : R) : Prop := Rmin (Rmin a b) (Rmin c d) <= x <= Rmax (Rmax a b) (Rmax c d).
(** The Klein-Nishina total cross-section in units of the Thomson one *)
Definition kn_total (w : R) : R :=
  (3 / 4) * (2 / (w * w) + (1 / (2 * w) - (1 + w) / (w * w * w)) * ln (1 + 2 * w) + (1 + w) / ((1 + 2 * w) * (1 + 2 * w))).
(** scattering off a nucleon with vector and axial couplings cv, ca (ga2 is the square of the
    axial constant): total strength and asymmetry *)
Definition strength (ga2 cv ca : R) : R := cv ^ 2 + 3 * ga2 * ca ^ 2.
Definition asymmetry (ga2 cv ca d : R) : Prop := d * strength ga2 cv ca = cv ^ 2 - ga2 * ca ^ 2.
(** neutral-current couplings of proton and neutron for s the squared sine of the mixing angle *)
Definition proton_cv (s : R) : R := 1 / 2 - 2 * s.
Definition proton_ca : R := 1 / 2.
Definition neutron_cv : R := - (1 / 2).
Definition neutron_ca : R := - (1 / 2).
