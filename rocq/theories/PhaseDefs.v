(** Vocabulary of the statements on Phase.v.  Used in statements only. *)
From Coq Require Import ZArith String List Bool Permutation QArith Qcanon.
From Verif Require Import PyBase Lattice Base Interact Ham Spin Prob Dav Spec SpecTJ SpinDefs DavDefs Files Post Phase.
Import ListNotations.
Open Scope Z_scope.

(** Every curve has [n] points; the points of all the curves at the abscissa [k]. *)
Definition rectangle (n : nat) (curves : list (list point)) : Prop := Forall (fun l => length l = n) curves.
Definition column (k : nat) (curves : list (list point)) : list (option point) := map (fun l => nth_error l k) curves.

(** The [i]-th state of a run, as a point: its energy rounded, the name of its spin, how many energies round to the same number. *)
Definition point_of_run (e : eigenstates) (i : nat) (p : point) : Prop :=
  exists l s, nth_error (e_vals e) i = Some l /\ nth_error (e_spins e) i = Some s /\
    q_energy p = round_to l 6 /\ q_mult p = compute_spin_multiplicity s /\
    q_deg p = Z.of_nat (length (filter (fun l' => if Qc_eq_dec (round_to l' 6) (round_to l 6) then true else false) (e_vals e))).

(** A point that has a colour and a style, and which ones. *)
Definition drawable (p : point) : Prop :=
  (q_mult p = Some "doublet"%string \/ q_mult p = Some "quartet"%string) /\ (q_deg p = 1 \/ q_deg p = 2).
Definition look (p : point) (color style : string) : Prop :=
  (q_mult p = Some "doublet" /\ color = "b" \/ q_mult p = Some "quartet" /\ color = "g")%string /\
  (q_deg p = 1 /\ style = "--" \/ q_deg p = 2 /\ style = "-")%string.

(** The lines drawn for the curves: one for each curve, with the look of its first point, and at every abscissa the same
    energies, possibly not in the same order. *)
Definition drawn (curves : list (list point)) (lines : list ((string * string) * list Qc)) : Prop :=
  length lines = length curves /\
  (forall i l, nth_error curves i = Some l -> exists p color style es, nth_error l 0 = Some p /\ look p color style /\
     nth_error lines i = Some ((color, style), es) /\ length es = length l /\
     forall k q, (k < 3)%nat -> nth_error l k = Some q -> nth_error es k = Some (q_energy q)) /\
  forall k, Permutation (map (option_map q_energy) (column k curves)) (map (fun l => nth_error (snd l) k) lines).

(** Two points with the same labels; where the labels of a curve change first; the labels of two curves exchanged after [k]. *)
Definition alike (p q : point) : Prop := q_mult p = q_mult q /\ q_deg p = q_deg q.
Definition steady_to (k : nat) (a : list point) : Prop :=
  forall i p q, (i < k)%nat -> nth_error a i = Some p -> nth_error a (S i) = Some q -> alike p q.
Definition changes_after (k : nat) (a : list point) : Prop :=
  steady_to k a /\ exists p q, nth_error a k = Some p /\ nth_error a (S k) = Some q /\ ~ alike p q.
Definition crosses (k : nat) (a b : list point) : Prop :=
  exists a0 a1 b0 b1, nth_error a k = Some a0 /\ nth_error a (S k) = Some a1 /\ nth_error b k = Some b0 /\ nth_error b (S k) = Some b1 /\
    alike a0 b1 /\ alike b0 a1.

(** How much the distance between successive energies changes at [y]; going on along the same curve is smoother for both curves. *)
Definition size (x : Qc) : Qc := if Qclt_le_dec x 0 then (- x)%Qc else x.
Definition bend (x y z : point) : Qc := size (size (q_energy z - q_energy y) - size (q_energy y - q_energy x)).
Definition smoother_apart (k : nat) (a b : list point) : Prop :=
  (2 <= k)%nat /\ exists x y z x' y' z', nth_error a (k - 1) = Some x /\ nth_error a k = Some y /\ nth_error a (S k) = Some z /\
    nth_error b (k - 1) = Some x' /\ nth_error b k = Some y' /\ nth_error b (S k) = Some z' /\
    (bend x y z < bend x y z' /\ bend x' y' z' < bend x' y' z)%Qc.

(** What the loop does from curve [i] on. *)
Inductive untangled : nat -> list (list point) -> list (list point) -> Prop :=
| untangled_end : forall i curves, (length curves <= S i)%nat -> untangled i curves curves
| untangled_steady : forall x a rest curves', rest <> [] -> steady_to (length a) a -> untangled (S (length x)) (x ++ a :: rest) curves' ->
    untangled (length x) (x ++ a :: rest) curves'
| untangled_alone : forall k x a rest curves', rest <> [] -> changes_after k a -> Forall (fun b => ~ crosses k a b) rest ->
    untangled (S (length x)) (x ++ a :: rest) curves' -> untangled (length x) (x ++ a :: rest) curves'
| untangled_kept : forall k x a y b z curves', changes_after k a -> Forall (fun b => ~ crosses k a b) y -> crosses k a b -> ~ smoother_apart k a b ->
    untangled (S (length x)) (x ++ a :: y ++ b :: z) curves' -> untangled (length x) (x ++ a :: y ++ b :: z) curves'
| untangled_exchanged : forall k x a y b z curves', changes_after k a -> Forall (fun b => ~ crosses k a b) y -> crosses k a b -> smoother_apart k a b ->
    untangled (length x) (x ++ (firstn (S k) a ++ skipn (S k) b) :: y ++ (firstn (S k) b ++ skipn (S k) a) :: z) curves' ->
    untangled (length x) (x ++ a :: y ++ b :: z) curves'.
