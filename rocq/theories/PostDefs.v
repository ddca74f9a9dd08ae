(** Vocabulary of the statements on plots.  Nothing here refers to the model. *)
From Coq Require Import ZArith List Bool QArith Qcanon Qcabs Sorted Permutation.
From Verif Require Import Spec SpecQ SpecTJ.
Import ListNotations.
Open Scope Z_scope.

(** The distinct values of a list, in the order in which they first appear. *)
Fixpoint firsts (l : list Qc) : list Qc :=
  match l with
  | [] => []
  | x :: l' => x :: remove Qc_eq_dec x (firsts l')
  end.

(** How many times a value appears. *)
Definition times_in (l : list Qc) (x : Qc) : Z := Z.of_nat (count_occ Qc_eq_dec l x).

(** How many coefficients have magnitude at least [x]. *)
Definition at_least (v : list Qc) (x : Qc) : Z :=
  Z.of_nat (length (filter (fun a => if Qclt_le_dec (Qcabs a) x then false else true) v)).

(** A sum of integers. *)
Definition int_total (l : list Z) : Z := fold_right Z.add 0 l.

(** The largest magnitude of the coefficients. *)
Definition peak (v : list Qc) (m : Qc) : Prop := In m (map Qcabs v) /\ Forall (fun a => Qcabs a <= m)%Qc v.

(** The number [k] on an axis. *)
Definition abscissa (k : nat) : Qc := Q2Qc (inject_Z (Z.of_nat k)).

(** The lines of a spectrum: one per eigenvalue, at its height, those of one energy side by side from abscissa 1 on. *)
Definition spectrum_lines (l : list Qc) : list ((Qc * Qc) * (Qc * Qc)) :=
  concat (map (fun v => map (fun k => ((abscissa (S k), (abscissa (S k) + Q2Qc (1 # 2))%Qc), (v, v))) (seq 0 (count_occ Qc_eq_dec l v))) (firsts l)).

(** The [n] largest values of [l], from the largest down. *)
Definition largest (n : nat) (l bars : list Qc) : Prop :=
  length bars = n /\ StronglySorted (fun a b => b <= a)%Qc bars /\
  exists rest, Permutation l (bars ++ rest) /\ forall b r, In b bars -> In r rest -> (r <= b)%Qc.
