(** Theorems on the spin of a vector computed with rounded operations (C112). *)
From Coq Require Import ZArith List Bool QArith Qcanon Lia.
From Verif Require Import PyBase PyFacts Runtimes Lattice Base Interact Ham Spin Round RoundSpin Spec SpecOps SpecTJ SpecSpin SpinDefs SignDefs RangeDefs RoundDefs PBinary FRound FRound2 FRoundSpin Examples.
Import ListNotations.
Open Scope Z_scope.

(** C112 *)
Theorem C112_elements :
  forall u F E c l v psi, rounds u F -> set_iter_ok E -> proper c -> holes_in_order E c -> construct_basis c = Ok (mkBasis c l) ->
  on_lattice (nsites c) psi -> amplitudes c l v psi ->
  exists v', compute_S2_fl F E c v = Ok v' /\ length v' = length v /\
    forall k d s, nth_error l k = Some d -> describes (nsites c) (nholes c) (nbeta c) d s ->
      (magnitude (nth k v' 0 - S_squared (nsites c) psi s) <= growth u (2 + nsites c * (nsites c - 1) / 2) * S_squared (nsites c) (fun t => magnitude (psi t)) s)%Qc.
Proof. exact C112_elements_pf. Qed.
Print Assumptions C112_elements.

Theorem C112_mean :
  forall u F E c l v, rounds u F -> set_iter_ok E -> proper c -> holes_in_order E c -> construct_basis c = Ok (mkBasis c l) -> length v = length l ->
  exists a' a, compute_S2_fl F E c v = Ok a' /\ compute_S2 E c v = Ok a /\
    let j := (half * qz (nalpha c + nbeta c))%Qc in
    (magnitude (vdot_fl F v a' - inner v a) <= growth u (3 + nsites c * (nsites c - 1) / 2 + zlen l) * (j * (j + 1)) * inner v v)%Qc.
Proof. exact C112_mean_pf. Qed.
Print Assumptions C112_mean.

Theorem C112_value :
  forall u F d norm E c l v, rounds u F -> norm_within d norm v -> (0 <= d)%Qc -> (u + d + u * d < 1)%Qc -> set_iter_ok E -> proper c -> holes_in_order E c -> construct_basis c = Ok (mkBasis c l) ->
  length v = length l -> (exists x, In x v /\ x <> 0%Qc) ->
  exists y x, compute_S2_exp_val_fl F norm E c v = Ok y /\ compute_S2_exp_val E c v = Ok x /\
    let j := (half * qz (nalpha c + nbeta c))%Qc in let g := growth u (3 + nsites c * (nsites c - 1) / 2 + zlen l) in let d' := (u + d + u * d)%Qc in
    (magnitude (y - x) * (1 - d') <= j * (j + 1) * (u * (1 + g) + g + d'))%Qc.
Proof. exact C112_value_pf. Qed.
Print Assumptions C112_value.

Theorem C112_spin :
  forall u F d norm E c l v roots y a b t rho s k, rounds u F -> norm_within d norm v -> (0 <= d)%Qc -> (u + d + u * d < 1)%Qc -> set_iter_ok E -> proper c -> holes_in_order E c ->
  construct_basis c = Ok (mkBasis c l) -> length v = length l -> (exists x, In x v /\ x <> 0%Qc) ->
  compute_S2_exp_val E c v = Ok (s * (s + 1))%Qc -> 0 <= k -> s = (half * qz k)%Qc ->
  compute_S2_exp_val_fl F norm E c v = Ok y -> roots y = (a, b) -> (0 <= a /\ t = a \/ a < 0 /\ t = b)%Qc -> (0 <= t)%Qc -> (magnitude (t * (t + 1) - y) <= rho)%Qc ->
  let j := (half * qz (nalpha c + nbeta c))%Qc in let g := growth u (3 + nsites c * (nsites c - 1) / 2 + zlen l) in let d' := (u + d + u * d)%Qc in
  (rho + j * (j + 1) * (u * (1 + g) + g + d') / (1 - d') < (s + 1) / qz 4)%Qc ->
  compute_spin_number_fl F norm E roots c v = Ok (Some s).
Proof. exact C112_spin_pf. Qed.
Print Assumptions C112_spin.

Theorem C112_exact :
  forall F E c l v, exact_floats F -> set_iter_ok E -> proper c -> holes_in_order E c -> construct_basis c = Ok (mkBasis c l) -> length v = length l ->
  compute_S2_fl F E c v = compute_S2 E c v.
Proof. exact C112_exact_pf. Qed.
Print Assumptions C112_exact.

(** The rounded operators fail when the exact ones do, with the same exception. *)
Theorem C112_failures :
  forall F norm E roots c v,
  (forall e, compute_S2_fl F E c v = Err e <-> compute_S2 E c v = Err e) /\
  (norm v = 0%Qc -> compute_S2_exp_val_fl F norm E c v = Ok 0%Qc) /\
  (norm v <> 0%Qc -> compute_S2 E c v = Err IndexError -> compute_spin_number_fl F norm E roots c v = Ok None).
Proof. exact C112_failures_pf. Qed.
Print Assumptions C112_failures.

Example C112_failures_example : exists E c v, set_iter_ok E /\ proper c /\ compute_S2_fl binary64 E c v = Err IndexError /\
  compute_spin_number_fl binary64 (fun _ => 1%Qc) E (fun x => (x, x)) c v = Ok None.
Proof.
  destruct FSpinVal.C37_two_holes_refuted_pf as (E & c & l & v & HE & P & _ & _ & Q). destruct (C112_failures binary64 (fun _ => 1%Qc) E (fun x => (x, x)) c v) as (A & _ & B).
  exists E, c, v. split; [exact HE|]. split; [exact P|]. split; [now apply A|]. apply B; [discriminate | exact Q].
Qed.

(** A vector of floats that is exactly a singlet, whose computed value is negative: the computed spin is -1 and has no name. *)
Theorem C112_singlet_refuted :
  exists E c l v norm roots y a b, set_iter_ok E /\ proper c /\ holes_in_order E c /\ construct_basis c = Ok (mkBasis c l) /\ length v = length l /\
  (forall x, In x v -> has_bits 53 x) /\ norm_within (1 / qz (2 ^ 52)) norm v /\ compute_S2_exp_val E c v = Ok 0%Qc /\
  compute_S2_exp_val_fl binary64 norm E c v = Ok y /\ (y < 0)%Qc /\ roots y = (a, b) /\ (a + b = - (1))%Qc /\ (magnitude (a * b + y) <= y * y)%Qc /\
  compute_spin_number_fl binary64 norm E roots c v = Ok (Some (- (1))%Qc) /\ compute_spin_multiplicity (Some (- (1))%Qc) = None.
Proof. exact C112_singlet_refuted_pf. Qed.
Print Assumptions C112_singlet_refuted.

(** The quintet of four sites with all amplitudes equal to the float 0.7: the computed value is not 6, the computed spin is 2. *)
Definition quintet_conf : configuration := ex_rect 4 1 1 0 2.
Definition quintet_basis : list (list Z) := match construct_basis quintet_conf with Ok b => determinants b | Err _ => [] end.
Definition quintet : list Qc := repeat (binary 53 (qfrac 7 10)) 6.
Definition quintet_norm (_ : list Qc) : Qc := Q2Qc (120657261953005 # 70368744177664).
Definition quintet_value : Qc := Q2Qc (3377699720527873 # 562949953421312).
Definition quintet_roots (_ : Qc) : Qc * Qc := (qz (-3), qz 2).
Example C112_example : let u := (1 / qz (2 ^ 53))%Qc in let d := (1 / qz (2 ^ 51))%Qc in let j := (half * qz (nalpha quintet_conf + nbeta quintet_conf))%Qc in
  let g := growth u (3 + nsites quintet_conf * (nsites quintet_conf - 1) / 2 + zlen quintet_basis) in let d' := (u + d + u * d)%Qc in
  rounds u binary64 /\ norm_within d quintet_norm quintet /\ (u + d + u * d < 1)%Qc /\ set_iter_ok cpython /\ proper quintet_conf /\ holes_in_order cpython quintet_conf /\
  construct_basis quintet_conf = Ok (mkBasis quintet_conf quintet_basis) /\ length quintet = length quintet_basis /\
  compute_S2_exp_val cpython quintet_conf quintet = Ok (qz 2 * (qz 2 + 1))%Qc /\ compute_S2_exp_val_fl binary64 quintet_norm cpython quintet_conf quintet = Ok quintet_value /\
  quintet_value <> (qz 2 * (qz 2 + 1))%Qc /\ (magnitude (qz 2 * (qz 2 + 1) - quintet_value) <= d * qz 6)%Qc /\
  (d * qz 6 + j * (j + 1) * (u * (1 + g) + g + d') / (1 - d') < (qz 2 + 1) / qz 4)%Qc /\
  compute_spin_number_fl binary64 quintet_norm cpython quintet_roots quintet_conf quintet = Ok (Some (qz 2)).
Proof.
  cbv zeta. split; [apply C111_binary_pf; [lia | reflexivity]|]. split; [vm_compute; discriminate|]. split; [vm_compute; reflexivity|]. split; [exact cpython_ok|].
  split; [vm_compute; intuition congruence|]. split; [left; vm_compute; discriminate|]. split; [vm_compute; reflexivity|]. split; [vm_compute; reflexivity|].
  assert (Y : compute_S2_exp_val_fl binary64 quintet_norm cpython quintet_conf quintet = Ok quintet_value) by (apply ok_q; vm_compute; reflexivity).
  split; [apply ok_q; vm_compute; reflexivity|]. split; [exact Y|]. split; [vm_compute; discriminate|]. split; [vm_compute; discriminate|]. split; [vm_compute; reflexivity|].
  unfold compute_spin_number_fl. rewrite Y. apply ok_some_q. vm_compute. reflexivity.
Qed.
