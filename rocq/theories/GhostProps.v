(** C112: diagnostics summed over steps and processes. *)
From Coq Require Import ZArith List Bool Lia.
Import ListNotations.
From Verif Require Import SumLib ExchModel ExchProofs HaloModel HaloSpec HaloProofs GhostModel GhostProofs.
Open Scope Z_scope.

(** After any number of steps since the last dump, the value of a zone is the
    sum over the steps of everything any process deposited for that zone, ghost
    deposits included; the ghost zones hold nothing. *)
Theorem C112_history : forall (M : Type) (zero : M) (plus : M -> M -> M),
  (forall a b, plus a b = plus b a) -> (forall a b c, plus a (plus b c) = plus (plus a b) c) ->
  (forall a, plus zero a = a) ->
  forall g deps, (forall d, 2 <= get d (nloc g)) ->
  (forall c z, on_grid g c -> (forall d, 0 <= get d z < get d (nloc g)) ->
   since_dump zero plus g deps c z = gsum zero plus (fun dep => deposited zero plus g dep (gz g c z)) deps) /\
  (forall c z, (forall d, - NG <= get d z < get d (nloc g) + NG) -> ~ (forall d, 0 <= get d z < get d (nloc g)) ->
   since_dump zero plus g deps c z = zero).
Proof. exact @since_ok. Qed.
Print Assumptions C112_history.

(** Nothing is lost or counted twice: the total over all processes. *)
Theorem C112_total : forall (M : Type) (zero : M) (plus : M -> M -> M),
  (forall a b, plus a b = plus b a) -> (forall a b c, plus a (plus b c) = plus (plus a b) c) ->
  (forall a, plus zero a = a) ->
  forall g deps, (forall d, 2 <= get d (nloc g)) -> (forall d, 0 < get d (nproc g)) ->
  interior_total zero plus g (since_dump zero plus g deps) = gsum zero plus (deposit_total zero plus g) deps.
Proof. exact @since_total. Qed.
Print Assumptions C112_total.

(** A second synchronisation with no deposit in between changes nothing. *)
Theorem C112_again : forall (M : Type) (zero : M) (plus : M -> M -> M),
  (forall a b, plus a b = plus b a) -> (forall a b c, plus a (plus b c) = plus (plus a b) c) ->
  (forall a, plus zero a = a) ->
  forall g st c z, (forall d, 2 <= get d (nloc g)) -> (forall d, - NG <= get d z < get d (nloc g) + NG) ->
  sync_Jrad zero plus g (sync_Jrad zero plus g st) c z = sync_Jrad zero plus g st c z.
Proof. exact @sync_again. Qed.
Print Assumptions C112_again.

(** The four-force has no clearing and depends on the reset in every step. *)
Theorem C112_force_refuted : exists g (st : rank -> v3 -> Z) c z,
  (forall d, 2 <= get d (nloc g)) /\ on_grid g c /\ (forall d, 0 <= get d z < get d (nloc g)) /\
  sync_radG 0 Z.add g st c z = 1 /\ sync_radG 0 Z.add g (sync_radG 0 Z.add g st) c z = 2.
Proof. exact radG_again. Qed.
Print Assumptions C112_force_refuted.

(** Two processes, three steps, deposits in a ghost zone and in its owner. *)
Definition ex_dep (a b : Z) : rank -> v3 -> Z := fun c z =>
  match c, z with V3 0 0 0, V3 2 0 0 => a | V3 1 0 0, V3 0 0 0 => b | _, _ => 0 end.
Example C112_nonvacuous :
  let J := since_dump 0 Z.add two_procs [ex_dep 1 10; ex_dep 2 20; ex_dep 3 30] in
  J (V3 1 0 0) (V3 0 0 0) = 66 /\ J (V3 0 0 0) (V3 2 0 0) = 0 /\
  gsum 0 Z.add (fun dep => deposited 0 Z.add two_procs dep (gz two_procs (V3 1 0 0) (V3 0 0 0)))
    [ex_dep 1 10; ex_dep 2 20; ex_dep 3 30] = 66 /\
  (forall d, 2 <= get d (nloc two_procs)) /\ on_grid two_procs (V3 1 0 0).
Proof.
  cbv zeta. repeat split; try reflexivity; try (intros [| |]; cbn; lia); destruct d; cbn; lia.
Qed.
