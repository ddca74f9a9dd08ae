(** Vocabulary of the statements on plots that names the records of the model.  Used in statements only. *)
From Coq Require Import ZArith String List Bool QArith Qcanon.
From Verif Require Import PyBase Lattice Base Interact Ham Spin Prob Dav Files Emb Display Post PostDefs.
Import ListNotations.
Open Scope Z_scope.

(** A request for the spectra alone. *)
Definition spectra_only (i : input_plotting) : Prop :=
  p_spectrum i = true /\ p_holes i = false /\ p_electrons i = false /\ p_determinants i = false /\ p_neel i = false /\ p_static i = false /\ p_dynamic i = false.

(** The picture of the spectrum of the run [dc]. *)
Definition spectrum_of (dc : data_computations) (x : drawing) : Prop :=
  x = DSpectrum (append (picture (d_conf (dc_data dc)) "Spectrum") ".png") (spectrum_lines (e_vals (dc_eig dc))).
