(** Vocabulary for oscillations. *)
From Coq Require Import Reals ZArith List.
From Verif Require Import RLib OscModel.
Import ListNotations.
Open Scope R_scope.

(** A neutrino type; particle or antiparticle; electron flavour or heavy. *)
Definition neutrino (t : Z) : Prop := (0 <= t < 4)%Z.
Definition particle (t : Z) : bool := Z.eqb t 0 || Z.eqb t 2.
(** total weight of packets with a property *)
Fixpoint total (c : pk -> bool) (l : list pk) : R := match l with [] => 0 | p :: l => (if c p then wt p else 0) + total c l end.
(** What one set of packets contributes: the weight of its negative and of its positive
    direction bins. *)
Definition negative (NMU : nat) (l : list pk) (b : bool) (z : nat * nat) : R :=
  fold_right (fun imu s => Rmax 0 (- Gnu l b z imu) + s) 0 (seq 0 NMU).
Definition positive (NMU : nat) (l : list pk) (b : bool) (z : nat * nat) : R :=
  fold_right (fun imu s => Rmax 0 (Gnu l b z imu) + s) 0 (seq 0 NMU).
Fixpoint over (f : list pk -> R) (h : list (list pk)) : R := match h with [] => 0 | l :: h => f l + over f h end.
(** The other flavour of the same kind: electron neutrinos and heavy ones, electron
    antineutrinos and heavy ones. *)
Inductive partner : Z -> Z -> Prop :=
| partner_nu : partner 0 2 | partner_nux : partner 2 0 | partner_anti : partner 1 3 | partner_antix : partner 3 1.
(** equilibrium share of a flavour *)
Definition share (t : Z) : R := if (2 <=? t)%Z then 2 / 3 else 1 / 3.
(** The neutrinos (not tracers) that are in a zone and direction. *)
Definition here (b : bool) (z : nat * nat) (imu : nat) (p : pk) : bool :=
  (0 <=? ty p)%Z && Nat.eqb (fst (cell p)) (fst z) && Nat.eqb (snd (cell p)) (snd z) && Nat.eqb (mub p b) imu.
Fixpoint rsum (f : pk -> R) (l : list pk) : R := match l with [] => 0 | p :: l => f p + rsum f l end.
(** what a neutrino of a type counts for in the flavour excess: electron lepton number, less
    half that of the heavy ones *)
Definition lepton (t : Z) : R := if (t =? 0)%Z then 1 else if (t =? 1)%Z then -1 else if (t =? 2)%Z then - (1 / 2) else if (t =? 3)%Z then 1 / 2 else 0.
(** mean weight and the square of the noise of a sum of weights: n times the square of the
    mean, plus n times the sample variance; 1e-20 keeps the divisions defined *)
Definition mean (l : list pk) : R := rsum wt l / (INR (length l) + / 10 ^ 20).
Definition noise2 (l : list pk) : R :=
  INR (length l) * mean l * mean l +
  INR (length l) * (rsum (fun p => wt p * wt p) l - INR (length l) * mean l * mean l) / (Rabs (INR (length l) - 1) + / 10 ^ 20).
