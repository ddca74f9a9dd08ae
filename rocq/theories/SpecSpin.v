(** Spin operators on wave functions.  Nothing here refers to the model. *)
From Coq Require Import ZArith List Bool QArith Qcanon.
From Verif Require Import Spec SpecOps SpecTJ.
Import ListNotations.
Open Scope Z_scope.

(** A wave function on [n] sites only looks at the [n] sites. *)
Definition wave : Type := occupation -> Qc.
Definition on_lattice (n : Z) (psi : wave) : Prop := forall s t, same_state n s t -> psi s = psi t.

Definition put (x : Z) (p : particle) (s : occupation) : occupation := fun z => if z =? x then p else s z.

(** [S+] turns a down into an up, [S-] an up into a down, on every site in turn:
    [<t|S+|psi>] is the sum of the amplitudes of the states that become [t]. *)
Definition S_plus (n : Z) (psi : wave) : wave :=
  fun t => sum_sites n (fun i => only (samep (t i) Up) (psi (put i Down t))).
Definition S_minus (n : Z) (psi : wave) : wave :=
  fun t => sum_sites n (fun i => only (samep (t i) Down) (psi (put i Up t))).

(** spin of a particle along z *)
Definition spin_of (p : particle) : Qc := match p with Hole => 0%Qc | Down => (- half)%Qc | Up => half end.
Definition total_z (n : Z) (s : occupation) : Qc := sum_sites n (fun i => spin_of (s i)).
Definition S_z (n : Z) (psi : wave) : wave := fun t => (total_z n t * psi t)%Qc.

(** [S^2 = Sx^2 + Sy^2 + Sz^2 = (S+ S- + S- S+) / 2 + Sz^2] *)
Definition S_squared (n : Z) (psi : wave) : wave :=
  fun t => (half * (S_plus n (S_minus n psi) t + S_minus n (S_plus n psi) t) + S_z n (S_z n psi) t)%Qc.
