(** Vocabulary of the statements on probabilities and dominant determinants.  Used in statements only. *)
From Coq Require Import ZArith List Bool Sorted QArith Qcanon Qcabs.
From Verif Require Import Spec SpecTJ.
Import ListNotations.
Open Scope Z_scope.

(** The determinants [l] describe the states [st 0], [st 1], ... *)
Definition listed (n h b : Z) (l : list (list Z)) (st : nat -> occupation) : Prop :=
  forall k d, nth_error l k = Some d -> describes n h b d (st k).

(** Sum of the squared amplitudes of the states with [p] on the site [x]. *)
Definition weight (st : nat -> occupation) (v : list Qc) (p : particle) (x : Z) : Qc :=
  qsum (fun k => only (samep (st k x) p) (nth k v 0 * nth k v 0)%Qc) (seq 0 (length v)).

(** Sum of a list. *)
Definition total (l : list Qc) : Qc := qsum (fun x => x) l.

(** Magnitude of the entry [i]. *)
Definition magnitude (v : list Qc) (i : nat) : Qc := Qcabs (nth i v 0%Qc).

(** [idx] lists distinct entries in decreasing order of magnitude, and no other entry exceeds one of them. *)
Definition largest (v : list Qc) (idx : list nat) : Prop :=
  NoDup idx /\ (forall i, In i idx -> (i < length v)%nat) /\
  StronglySorted (fun i j => magnitude v j <= magnitude v i)%Qc idx /\
  forall i j, In i idx -> (j < length v)%nat -> ~ In j idx -> (magnitude v j <= magnitude v i)%Qc.

(** Number of elements of a list of [len] elements kept by the slice [:count]. *)
Definition kept (len : nat) (count : Z) : nat :=
  Z.to_nat (if count <? 0 then Z.of_nat len + count else Z.min count (Z.of_nat len)).
