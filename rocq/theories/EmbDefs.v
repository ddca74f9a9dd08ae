(** Vocabulary of the statements on embeddings.  Used in statements only. *)
From Coq Require Import ZArith List Bool QArith Qcanon.
From Verif Require Import PyBase Lattice Base Interact Ham Prob Spec SpecTJ Geometry.
Import ListNotations.
Open Scope Z_scope.

(** The probability of each particle on each site. *)
Definition field : Type := particle -> Z -> Qc.

(** The program holds the field [rho] of [n] sites. *)
Definition holds (p : list (Z * list Qc)) (n : Z) (rho : field) : Prop :=
  forall q, exists l, dict_get p (spin_code q) = Ok l /\ length l = Z.to_nat n /\
    forall x, 0 <= x < n -> nth_error l (Z.to_nat x) = Some (rho q x).

(** Classical energy of the state [s] of the [n] sites at [pos 0], [pos 1], ... in the field [rho] of the [m] sites at [around 0], [around 1], ... *)
Definition facing (K : interactions) (n : Z) (pos : Z -> Z * Z) (s : occupation) (m : Z) (around : Z -> Z * Z) (rho : field) : Qc :=
  sum_sites n (fun x => sum_sites m (fun r =>
    only (bondb (pos x) (around r))
         (only (samep (s x) Up) (- (half * i_J K) * rho Down r) + only (samep (s x) Down) (- (half * i_J K) * rho Up r)
          + only (holeb (s x)) (i_VNN K * rho Hole r))
    + only (diagb (pos x) (around r) && holeb (s x)) (i_VNNNper K * rho Hole r)))%Qc.

(** The Néel state of points of the plane. *)
Definition checkerboard (p : Z * Z) : particle := if Z.odd (fst p + snd p) then Down else Up.

(** A self-consistent loop: [step k x r y] makes the turn [k] from [x], with the result [r] and the next state [y];
    the turns [0], ..., [n] are made, all but the last one fail the test [close], the last one answers [b]. *)
Definition self_consistent {X R} (step : nat -> X -> R -> X -> Prop) (close : X -> X -> bool -> Prop) (start : X) (n : nat) (out : R) (b : bool) : Prop :=
  exists (xs : nat -> X) (rs : nat -> R),
    xs O = start /\ rs n = out /\
    (forall k, (k <= n)%nat -> step k (xs k) (rs k) (xs (S k))) /\
    (forall k, (k < n)%nat -> close (xs k) (xs (S k)) false) /\
    close (xs n) (xs (S n)) b.

(** The search for a row by row numbering of the two blocks side by side ends on one. *)
Definition numbering_found (E : runtime) (h v s : Z) : Prop :=
  exists m P iso, let n := 2 * ((s * h) * (s * v)) in
    build_bond_matrix_block_embedding h v s = Ok m /\ build_rectangular_bond_matrix (2 * h) v s = Ok P /\
    (forall i j, 0 <= i < n -> 0 <= j < n -> iso i = iso j -> i = j) /\
    (forall i j, 0 <= i < n -> 0 <= j < n -> mat_at m i j = mat_at P (iso i) (iso j)) /\
    search_finds n (transfer E m P) iso.

(** The sites of the block on the right of a [w] by [h] block. *)
Definition beside (w x : Z) : Z * Z := (w + x mod w, x / w).
