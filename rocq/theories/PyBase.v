(** Python and numpy primitives used by the modelled code.
    Python ints are [Z].  Exceptions are values of [res]. *)
From Coq Require Import ZArith List Bool Lia.
Import ListNotations.
Open Scope Z_scope.

(** Exceptions.  [OutOfFuel] is not a Python exception: it marks a loop of the
    model that was given too few steps. *)
Inductive exn : Type :=
| ValueError | IndexError | TypeError | AttributeError | KeyError
| NameError | ZeroDivisionError | FileNotFoundError | OutOfFuel.

Inductive res (A : Type) : Type :=
| Ok (a : A)
| Err (e : exn).
Arguments Ok {A} a.
Arguments Err {A} e.

Definition bind {A B} (x : res A) (f : A -> res B) : res B :=
  match x with Ok a => f a | Err e => Err e end.

Notation "x <- e ;; k" := (bind e (fun x => k))
  (at level 61, e at next level, right associativity).
Notation "' p <- e ;; k" := (bind e (fun p => k))
  (at level 61, p pattern, e at next level, right associativity).

(** [for x in l: out.append(f(x))] *)
Fixpoint mapM {A B} (f : A -> res B) (l : list A) : res (list B) :=
  match l with
  | [] => Ok []
  | x :: l' => y <- f x ;; ys <- mapM f l' ;; Ok (y :: ys)
  end.

(** [for x in l: out += f(x)] *)
Definition concatM {A B} (f : A -> res (list B)) (l : list A) : res (list B) :=
  ys <- mapM f l ;; Ok (concat ys).

(** [for x in l: acc = f(acc, x)] *)
Fixpoint foldM {A B} (f : B -> A -> res B) (b : B) (l : list A) : res B :=
  match l with
  | [] => Ok b
  | x :: l' => b' <- f b x ;; foldM f b' l'
  end.

(** [[x for x in l if p(x)]] *)
Fixpoint filterM {A} (p : A -> res bool) (l : list A) : res (list A) :=
  match l with
  | [] => Ok []
  | x :: l' => b <- p x ;; r <- filterM p l' ;; Ok (if b : bool then x :: r else r)
  end.

(** ** Lists *)

Definition zlen {A} (l : list A) : Z := Z.of_nat (length l).

(** [range(a, b)] *)
Definition zrange (a b : Z) : list Z :=
  map (fun k => a + Z.of_nat k) (seq 0 (Z.to_nat (b - a))).

(** [x in l] for a list of ints *)
Definition mem (x : Z) (l : list Z) : bool := existsb (Z.eqb x) l.

(** equality of lists of ints *)
Fixpoint zlist_eqb (a b : list Z) : bool :=
  match a, b with
  | [], [] => true
  | x :: a', y :: b' => (x =? y) && zlist_eqb a' b'
  | _, _ => false
  end.

(** [l.index(x)], raising ValueError when [x] is absent *)
Fixpoint py_index (l : list Z) (x : Z) : res Z :=
  match l with
  | [] => Err ValueError
  | y :: l' => if y =? x then Ok 0 else (i <- py_index l' x ;; Ok (i + 1))
  end.

(** [l.remove(x)], raising ValueError when [x] is absent *)
Fixpoint py_remove (l : list Z) (x : Z) : res (list Z) :=
  match l with
  | [] => Err ValueError
  | y :: l' => if y =? x then Ok l' else (r <- py_remove l' x ;; Ok (y :: r))
  end.

(** effective position of index [i] in a sequence of length [n] *)
Definition py_norm (n i : Z) : Z := if i <? 0 then i + n else i.

(** [l[i]] *)
Definition py_get {A} (l : list A) (i : Z) : res A :=
  let j := py_norm (zlen l) i in
  if j <? 0 then Err IndexError
  else match nth_error l (Z.to_nat j) with Some a => Ok a | None => Err IndexError end.

Fixpoint set_nth {A} (l : list A) (k : nat) (v : A) : list A :=
  match l, k with
  | [], _ => []
  | _ :: l', O => v :: l'
  | x :: l', S k' => x :: set_nth l' k' v
  end.

(** [l[i] = v] *)
Definition py_set {A} (l : list A) (i : Z) (v : A) : res (list A) :=
  let j := py_norm (zlen l) i in
  if (j <? 0) || (zlen l <=? j) then Err IndexError
  else Ok (set_nth l (Z.to_nat j) v).

(** bound of a slice, clamped to [0, n] *)
Definition py_clamp (n i : Z) : Z :=
  if i <? 0 then Z.max 0 (i + n) else Z.min i n.

(** [l[a:b]] *)
Definition py_slice {A} (l : list A) (a b : Z) : list A :=
  let n := zlen l in
  let lo := py_clamp n a in
  let hi := py_clamp n b in
  firstn (Z.to_nat (hi - lo)) (skipn (Z.to_nat lo) l).

(** [l[a:]] *)
Definition py_slice_from {A} (l : list A) (a : Z) : list A :=
  py_slice l a (zlen l).

(** [l.sort()] on ints (insertion sort) *)
Fixpoint zinsert (x : Z) (l : list Z) : list Z :=
  match l with
  | [] => [x]
  | y :: l' => if x <=? y then x :: l else y :: zinsert x l'
  end.
Fixpoint zsort (l : list Z) : list Z :=
  match l with
  | [] => []
  | x :: l' => zinsert x (zsort l')
  end.

(** [enumerate(l)] *)
Definition enumerate {A} (l : list A) : list (Z * A) :=
  combine (zrange 0 (zlen l)) l.

Definition zsum (l : list Z) : Z := fold_right Z.add 0 l.

(** ** Combinatorics *)

(** sums of consecutive elements, then the last one *)
Fixpoint pair_sums (l : list Z) : list Z :=
  match l with
  | x :: l' => match l' with y :: _ => x + y :: pair_sums l' | [] => [x] end
  | [] => []
  end.
(** row of the triangle of Pascal *)
Fixpoint pascal (n : nat) : list Z :=
  match n with O => [1] | S n' => 1 :: pair_sums (pascal n') end.

(** [scipy.special.comb(N, k, exact=True)]: 0 outside [0 <= k <= N] *)
Definition comb (n k : Z) : Z :=
  if (n <? k) || (n <? 0) || (k <? 0) then 0
  else nth (Z.to_nat k) (pascal (Z.to_nat n)) 0.

(** [itertools.combinations(l, k)] for [k >= 0], in lexicographic order of positions *)
Fixpoint combs {A} (k : nat) (l : list A) : list (list A) :=
  match k with
  | O => [[]]
  | S k' => (fix go (l : list A) : list (list A) :=
               match l with
               | [] => []
               | x :: l' => map (cons x) (combs k' l') ++ go l'
               end) l
  end.

(** [itertools.combinations(l, k)]: ValueError when [k] is negative *)
Definition py_combinations {A} (l : list A) (k : Z) : res (list (list A)) :=
  if k <? 0 then Err ValueError else Ok (combs (Z.to_nat k) l).

(** ** numpy matrices of bonds *)

Record mat : Type := mkMat {
  mrows : Z;
  mcols : Z;
  mat_at : Z -> Z -> Z
}.

(** [m[i, j]] *)
Definition mget (m : mat) (i j : Z) : res Z :=
  let i' := py_norm (mrows m) i in
  let j' := py_norm (mcols m) j in
  if (0 <=? i') && (i' <? mrows m) && (0 <=? j') && (j' <? mcols m)
  then Ok (mat_at m i' j') else Err IndexError.

(** [m[i, j] = v] *)
Definition mset (m : mat) (i j v : Z) : res mat :=
  let i' := py_norm (mrows m) i in
  let j' := py_norm (mcols m) j in
  if (0 <=? i') && (i' <? mrows m) && (0 <=? j') && (j' <? mcols m)
  then Ok (mkMat (mrows m) (mcols m)
             (fun a b => if (a =? i') && (b =? j') then v else mat_at m a b))
  else Err IndexError.

(** [np.zeros((r, c))] for non-negative sizes *)
Definition mzeros (r c : Z) : res mat :=
  if (r <? 0) || (c <? 0) then Err ValueError else Ok (mkMat r c (fun _ _ => 0)).

(** [np.eye(n)] *)
Definition meye (n : Z) : mat := mkMat (Z.max n 0) (Z.max n 0) (fun i j => if i =? j then 1 else 0).

(** [np.diag(v, k)] for a list [v] *)
Definition mdiag (v : list Z) (k : Z) : mat :=
  let n := zlen v + Z.abs k in
  mkMat n n (fun i j => if j - i =? k then nth (Z.to_nat (Z.min i j)) v 0 else 0).

(** [a + b] on equal shapes (broadcasting is not modelled: ValueError) *)
Definition madd (a b : mat) : res mat :=
  if (mrows a =? mrows b) && (mcols a =? mcols b)
  then Ok (mkMat (mrows a) (mcols a) (fun i j => mat_at a i j + mat_at b i j))
  else Err ValueError.

(** [m.T] *)
Definition mtrans (m : mat) : mat := mkMat (mcols m) (mrows m) (fun i j => mat_at m j i).

(** [np.concatenate((a, b), axis=0)] *)
Definition mconcat0 (a b : mat) : res mat :=
  if mcols a =? mcols b
  then Ok (mkMat (mrows a + mrows b) (mcols a)
             (fun i j => if i <? mrows a then mat_at a i j else mat_at b (i - mrows a) j))
  else Err ValueError.

(** [np.concatenate((a, b), axis=1)] *)
Definition mconcat1 (a b : mat) : res mat :=
  if mrows a =? mrows b
  then Ok (mkMat (mrows a) (mcols a + mcols b)
             (fun i j => if j <? mcols a then mat_at a i j else mat_at b i (j - mcols a)))
  else Err ValueError.

(** [m[r0:r1, c0:c1] = b] on equal shapes (broadcasting is not modelled: ValueError) *)
Definition mset_block (m : mat) (r0 r1 c0 c1 : Z) (b : mat) : res mat :=
  let r0' := py_clamp (mrows m) r0 in
  let r1' := py_clamp (mrows m) r1 in
  let c0' := py_clamp (mcols m) c0 in
  let c1' := py_clamp (mcols m) c1 in
  if (r1' - r0' =? mrows b) && (c1' - c0' =? mcols b)
  then Ok (mkMat (mrows m) (mcols m)
             (fun i j => if (r0' <=? i) && (i <? r1') && (c0' <=? j) && (j <? c1')
                         then mat_at b (i - r0') (j - c0') else mat_at m i j))
  else Err ValueError.

(** ** Behaviour supplied by the interpreter and by LAPACK *)

(** an entry of a float matrix after [round(x, 10)] *)
Inductive rentry : Type := RZero | ROne | ROther.

Record runtime : Type := mkRuntime {
  (** order in which [list(s)] lists a set built by adding the given ints in turn *)
  set_iter : list Z -> list Z;
  (** rounded entry [row, col] of the candidate transfer matrix number [k] computed
      from the eigenvectors of the two bond matrices (baseConstruction.py:368-384) *)
  transfer : mat -> mat -> Z -> Z -> Z -> rentry
}.

(** The only thing Python guarantees about set iteration. *)
Definition set_iter_ok (E : runtime) : Prop :=
  forall l, NoDup (set_iter E l) /\ (forall x, In x (set_iter E l) <-> In x l).

(** [list(set(l))] *)
Definition py_set_list (E : runtime) (l : list Z) : list Z := set_iter E l.

(** [list(set(a) & set(b))]: CPython walks through the smaller set
    (setobject.c, set_intersection), the right operand in case of equality *)
Definition py_set_and (E : runtime) (a b : list Z) : list Z :=
  let sa := set_iter E a in
  let sb := set_iter E b in
  if zlen sb <=? zlen sa
  then set_iter E (filter (fun x => mem x sa) sb)
  else set_iter E (filter (fun x => mem x sb) sa).

(** [list(set(a).difference(set(b)))] *)
Definition py_set_diff (E : runtime) (a b : list Z) : list Z :=
  set_iter E (filter (fun x => negb (mem x b)) (set_iter E a)).
