(** Vocabulary of the statements on the signs of amplitudes.  Used in statements only. *)
From Coq Require Import ZArith List Bool QArith Qcanon.
From Verif Require Import PyBase Lattice Base Interact Ham Spec SpecTJ SpinDefs.
Import ListNotations.
Open Scope Z_scope.

(** The black squares of a chess board. *)
Definition black (p : Z * Z) : bool := Z.odd (fst p + snd p).
(** [-1] to the number of sites with the property *)
Definition sign_of (n : Z) (f : Z -> bool) : Qc := fold_right (fun x a => if f x then (- a)%Qc else a) 1%Qc (sites n).
(** by the holes on black squares *)
Definition hole_sign (n : Z) (p : Z -> Z * Z) (s : occupation) : Qc := sign_of n (fun x => holeb (s x) && black (p x)).
(** by the downs on black squares *)
Definition downb (p : particle) : bool := match p with Down => true | _ => false end.
Definition down_sign (n : Z) (p : Z -> Z * Z) (s : occupation) : Qc := sign_of n (fun x => downb (s x) && black (p x)).

(** The same couplings with hops of the opposite sign. *)
Definition opposite_t (K : interactions) : interactions :=
  mkInter (- i_t K)%Qc (i_J K) (i_Jhpar K) (i_Jhper K) (i_hSDpar K) (i_hSDper K) (i_tNNN K) (i_tnNNN K) (i_VNN K) (i_VNNNper K).

(** mean of the matrix on the vector *)
Definition csr_mean (m : csr) (v : list Qc) : Qc := inner v (times m v).
(** [v'] has the entries of [v] with the signs [f] of the determinants; [v'] has their sizes with these signs. *)
Definition signed (c : configuration) (l : list (list Z)) (f : occupation -> Qc) (v v' : list Qc) : Prop :=
  length v = length l /\ length v' = length l /\
  forall k d s, nth_error l k = Some d -> describes (nsites c) (nholes c) (nbeta c) d s -> nth k v' 0%Qc = (f s * nth k v 0)%Qc.
Definition magnitude (x : Qc) : Qc := if Qclt_le_dec x 0 then (- x)%Qc else x.

(** [v] has everywhere the sign [f] of the determinant. *)
Definition follows (c : configuration) (l : list (list Z)) (f : occupation -> Qc) (v : list Qc) : Prop :=
  forall k d s, nth_error l k = Some d -> describes (nsites c) (nholes c) (nbeta c) d s -> (0 < f s * nth k v 0)%Qc.
(** No vector has a smaller energy than [e]. *)
Definition lowest (m : csr) (e : Qc) : Prop := forall u, zlen u = csr_dim m -> (e * inner u u <= csr_mean m u)%Qc.
(** Ferromagnetic exchanges, long hops of the sign of bonds, no displacement of singlets. *)
Definition unfrustrated (K : interactions) (S : switches) : Prop :=
  s_bSD S = false /\ (s_bij S = true -> (i_J K <= 0 /\ i_Jhpar K <= 0 /\ i_Jhper K <= 0)%Qc) /\ (s_btN S = true -> (i_tNNN K <= 0 /\ i_tnNNN K <= 0)%Qc).
(** the sign which makes the hops not positive *)
Definition hop_sign (K : interactions) (n : Z) (p : Z -> Z * Z) (s : occupation) : Qc :=
  if Qclt_le_dec 0 (i_t K) then hole_sign n p s else 1%Qc.
(** All exchanges are ferromagnetic, and present. *)
Definition ferromagnetic (K : interactions) (S : switches) : Prop :=
  unfrustrated K S /\ s_bij S = true /\ (i_J K < 0)%Qc /\ (i_Jhpar K < 0)%Qc /\ (i_Jhper K < 0)%Qc.
