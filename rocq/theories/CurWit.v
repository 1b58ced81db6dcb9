(** A witness for the sign of the current. *)
From Coq Require Import Reals Bool ZArith Lia Lra.
From Verif Require Import RLib GeomModel GeomSpec FluxModel CurModel CurSpec CurProofs.
Open Scope R_scope.
Definition shear (z : zone) : prim := let '(i, _, _) := z in {| vel := fun _ => 0; CurModel.field := fun m => if Nat.eqb m 3 then IZR i else 0 |}.
Lemma sign_refuted : exists dx dt P Ps z j, 0 < dt /\ (forall d, 0 < dx d) /\
  current_calc (fun _ _ => {| gcov := eta; gcon := eta; alpha := 1; gdet := 1 |}) dx dt 1 P Ps z 2 = Some j /\
  4 * PI * j = 1 /\ curl dx (fun z => midway (CurModel.field (P z)) (CurModel.field (Ps z))) z 2 = -1 /\
  electric (vel (P z)) (CurModel.field (P z)) 2 = electric (vel (Ps z)) (CurModel.field (Ps z)) 2.
Proof.
  exists (fun _ => 1), 1, shear, shear, (0, 0, 0)%Z. eexists. split; [lra|]. split; [intros; lra|]. split; [apply (ampere_flat (fun _ => 1) 1 shear shear 1 (0, 0, 0)%Z 2); lia|].
  assert (C : curl (fun _ => 1) (Bc shear shear) (0, 0, 0)%Z 2 = -1) by (unfold curl, central, Bc, midway, shear; cbn [neighbour CurModel.field Nat.eqb]; cbn; lra).
  split; [|split; [exact C|reflexivity]]. rewrite C. set (e := electric _ _ _). pose proof PI_neq0. field. exact H.
Qed.
