(** Vocabulary of the statements on davidson.py.  Used in statements only. *)
From Coq Require Import ZArith List Bool Sorted QArith Qcanon.
From Verif Require Import PyBase Spec SpecTJ SpinDefs Dav.
Import ListNotations.
Open Scope Z_scope.

(** [idx] lists distinct entries in increasing order of their values, and no other entry is below one of them. *)
Definition smallest (vals : list Qc) (idx : list nat) : Prop :=
  NoDup idx /\ (forall i, In i idx -> (i < length vals)%nat) /\
  StronglySorted (fun i j => nth i vals 0 <= nth j vals 0)%Qc idx /\
  forall i j, In i idx -> (j < length vals)%nat -> ~ In j idx -> (nth i vals 0 <= nth j vals 0)%Qc.

(** Shapes: a square matrix; columns of [dim] entries. *)
Definition square (A : list (list Qc)) : Prop := Forall (fun row => length row = length A) A.
Definition tall (dim : nat) (V : list (list Qc)) : Prop := Forall (fun v => length v = dim) V.

(** [l x - A x] *)
Definition residual (A : list (list Qc)) (l : Qc) (x : list Qc) : list Qc :=
  map (fun i => l * nth i x 0 - inner (nth i A []) x)%Qc (seq 0 (length A)).

(** [A x]; the combination of the columns [V] of weights [y]; [- v] *)
Definition image (A : list (list Qc)) (x : list Qc) : list Qc := map (fun row => inner row x) A.
Definition blend (dim : nat) (V : list (list Qc)) (y : list Qc) : list Qc :=
  map (fun i => qsum (fun k => nth k y 0 * nth i (nth k V []) 0)%Qc (seq 0 (length V))) (seq 0 dim).
Definition opposite (v : list Qc) : list Qc := map Qcopp v.

(** The matrix of [A] between the columns [V], as the list of its columns. *)
Definition projected (A V : list (list Qc)) : list (list Qc) := map (fun w => map (fun v => inner v (image A w)) V) V.

(** The correction of Davidson: the residual divided by the diagonal of [A - l]. *)
Definition correction (A : list (list Qc)) (l : Qc) (x : list Qc) : list Qc :=
  map (fun i => nth i (residual A l x) 0 / (nth i (nth i A []) 0 - l))%Qc (seq 0 (length A)).

(** The columns are orthogonal and of length one. *)
Definition orthonormal (V : list (list Qc)) : Prop :=
  forall i j, (i < length V)%nat -> (j < length V)%nat -> inner (nth i V []) (nth j V []) = if Nat.eqb i j then 1%Qc else 0%Qc.

(** Contracts of numpy: shape of the factor Q, orthonormal columns, unit eigenvectors, norm not underestimated. *)
Definition qr_shape (N : numerics) : Prop :=
  forall dim V, tall dim V -> tall dim (qr N dim V) /\ length (qr N dim V) = Nat.min dim (length V).
Definition qr_orthonormal (N : numerics) : Prop := forall dim V, tall dim V -> orthonormal (qr N dim V).
Definition eigh_unit (N : numerics) : Prop :=
  forall R y, square R -> In y (snd (eigh N R)) -> length y = length R /\ inner y y = 1%Qc.
Definition norm_above (N : numerics) : Prop := forall v, (0 <= norm N v)%Qc /\ (inner v v <= norm N v * norm N v)%Qc.

(** The basis after [i] iterations of modified_davidson_algorithm from [K0]. *)
Inductive search_space (N : numerics) (A : list (list Qc)) (nb : Z) (tol : Qc) (dim_max : Z) (K0 : list (list Qc)) : nat -> list (list Qc) -> Prop :=
| search_first : search_space N A nb tol dim_max K0 0 K0
| search_next : forall i K vals vects K', search_space N A nb tol dim_max K0 i K ->
    dav_step N A nb tol dim_max K = Ok (Continue vals vects K') -> search_space N A nb tol dim_max K0 (S i) K'.

(** The values [es] and vectors diagonalise [A]: each is an eigenpair, and they resolve every vector. *)
Definition symmetric (A : list (list Qc)) : Prop :=
  forall i j, (i < length A)%nat -> (j < length A)%nat -> nth j (nth i A []) 0%Qc = nth i (nth j A []) 0%Qc.
Definition spectrum (A : list (list Qc)) (es : list (Qc * list Qc)) : Prop :=
  (forall l e, In (l, e) es -> length e = length A /\ residual A l e = repeat 0%Qc (length A)) /\
  forall x, length x = length A -> inner x x = qsum (fun p => inner x (snd p) * inner x (snd p))%Qc es.

(** The state of modified_davidson_algorithm_opt after some iterations. *)
Inductive opt_reached (N : numerics) (A : list (list Qc)) (nb nu_0 : Z) (tol droptol eta : Qc) (dim_max : Z) (s0 : opt_state) : opt_state -> Prop :=
| opt_first : opt_reached N A nb nu_0 tol droptol eta dim_max s0 s0
| opt_next : forall s s', opt_reached N A nb nu_0 tol droptol eta dim_max s0 s ->
    opt_step N A nb nu_0 tol droptol eta dim_max s = Ok (ONext s') -> opt_reached N A nb nu_0 tol droptol eta dim_max s0 s'.

(** At most one new pair in each iteration. *)
Definition one_at_a_time (N : numerics) (A : list (list Qc)) (nb nu_0 : Z) (tol droptol eta : Qc) (dim_max : Z) (s0 : opt_state) : Prop :=
  forall s, opt_reached N A nb nu_0 tol droptol eta dim_max s0 s ->
  (forall s', opt_step N A nb nu_0 tol droptol eta dim_max s = Ok (ONext s') -> o_found s' <= o_found s + 1) /\
  (forall vals vects, opt_step N A nb nu_0 tol droptol eta dim_max s = Ok (ODone (vals, vects)) -> Z.of_nat (length vals) <= o_found s + 1).

(** No column is a combination of the previous ones. *)
Definition combination (dim : nat) (V : list (list Qc)) (x : list Qc) : Prop :=
  exists y, length y = length V /\ x = blend dim V y.
Definition independent (dim : nat) (V : list (list Qc)) : Prop :=
  forall k, (k < length V)%nat -> ~ combination dim (firstn k V) (nth k V []).

(** [x] without its components on the columns [us]; the corrections kept one after the other. *)
Definition orthogonal_part (us : list (list Qc)) (x : list Qc) : list Qc :=
  map (fun i => nth i x 0 - qsum (fun u => inner u x * nth i u 0) us)%Qc (seq 0 (length x)).
Fixpoint kept_corrections (nrm : list Qc -> Qc) (droptol : Qc) (us xs : list (list Qc)) : list (list Qc) :=
  match xs with
  | [] => []
  | x :: xs' =>
    let w := orthogonal_part us x in
    if Qclt_le_dec droptol (nrm w)
    then let c := map (fun e => e / nrm w)%Qc w in c :: kept_corrections nrm droptol (us ++ [c]) xs'
    else kept_corrections nrm droptol us xs'
  end.
