(** Vocabulary of the specifications that concerns numbers.  Nothing here refers to the model. *)
From Coq Require Import ZArith List QArith Qcanon.
Import ListNotations.
Open Scope Z_scope.

Definition sum_squares (v : list Qc) : Qc := fold_right (fun x acc => (x * x + acc)%Qc) 0%Qc v.
