(** Vocabulary of the statements on the range of the energies of the whole Hamiltonian.  Used in statements only. *)
From Coq Require Import ZArith List Bool QArith Qcanon.
From Verif Require Import PyBase Lattice Base Interact Spec SpecTJ SpinDefs EnergyDefs.
Import ListNotations.
Open Scope Z_scope.

(** [x] is between [- b] and [b] *)
Definition within (b x : Qc) : Prop := (- b <= x)%Qc /\ (x <= b)%Qc.
(** The couplings of the six parts, in the order of the switches: hops, exchanges, crossings of singlets, longer hops and repulsions. *)
Record sizes : Type := mkSizes { z_t : Qc; z_J : Qc; z_SD : Qc; z_tN : Qc; z_V : Qc }.
Definition couplings_within (z : sizes) (K : interactions) : Prop :=
  within (z_t z) (i_t K) /\
  within (z_J z) (i_J K) /\ within (z_J z) (i_Jhpar K) /\ within (z_J z) (i_Jhper K) /\
  within (z_SD z) (i_hSDpar K) /\ within (z_SD z) (i_hSDper K) /\
  within (z_tN z) (i_tNNN K) /\ within (z_tN z) (i_tnNNN K) /\
  within (z_V z) (i_VNN K) /\ within (z_V z) (i_VNNNper K).
(** A bound of the energies of [h] holes on a lattice of [bonds] bonds: a hole has four neighbours, twelve paths of two bonds that end
    elsewhere, and eight sites two bonds away; a crossing has two images; a pair of holes is counted once. *)
Definition energy_bound (z : sizes) (S : switches) (h bonds : Z) : Qc :=
  (only (s_bt S) (qz (4 * h) * z_t z) + only (s_bz S) (qz bonds * (half * z_J z)) + only (s_bij S) (qz bonds * (half * z_J z))
   + only (s_bSD S) (qz (24 * h) * z_SD z) + only (s_btN S) (qz (8 * h) * z_tN z) + only (s_bV S) (qz (4 * h) * z_V z))%Qc.
(** Hops to neighbours and both parts of the exchanges act; the exchanges are between 0 and [Jm], the hops between [- tm] and [tm]. *)
Definition hops_and_exchanges (K : interactions) (S : switches) (Jm tm : Qc) : Prop :=
  S = mkSwitches true true true false false false /\ within tm (i_t K) /\
  (0 <= i_J K)%Qc /\ (i_J K <= Jm)%Qc /\ (0 <= i_Jhpar K)%Qc /\ (i_Jhpar K <= Jm)%Qc /\ (0 <= i_Jhper K)%Qc /\ (i_Jhper K <= Jm)%Qc.
