(** Vocabulary of the specifications.  Nothing here refers to the model. *)
From Coq Require Import ZArith List Bool Sorted.
Import ListNotations.
Open Scope Z_scope.

(** What sits on a site. *)
Inductive particle : Type := Hole | Down | Up.

Definition particle_eq_dec : forall a b : particle, {a = b} + {a <> b}.
Proof. decide equality. Defined.

(** A state of the lattice. *)
Definition occupation : Type := Z -> particle.

(** The two states agree on the [n] sites. *)
Definition same_state (n : Z) (s t : occupation) : Prop := forall x, 0 <= x < n -> s x = t x.

(** [d] lists the [h] holes, then the [b] downs, then the ups of the state [s] of [n] sites,
    every site once. *)
Definition describes (n h b : Z) (d : list Z) (s : occupation) : Prop :=
  exists hs bs us,
    d = hs ++ bs ++ us /\ Z.of_nat (length hs) = h /\ Z.of_nat (length bs) = b /\
    NoDup hs /\ NoDup bs /\ NoDup us /\
    (forall x, In x hs <-> 0 <= x < n /\ s x = Hole) /\
    (forall x, In x bs <-> 0 <= x < n /\ s x = Down) /\
    (forall x, In x us <-> 0 <= x < n /\ s x = Up).

(** The three groups of [d] are in increasing order. *)
Definition increasing_groups (h b : Z) (d : list Z) : Prop :=
  exists hs bs us,
    d = hs ++ bs ++ us /\ Z.of_nat (length hs) = h /\ Z.of_nat (length bs) = b /\
    Sorted Z.lt hs /\ Sorted Z.lt bs /\ Sorted Z.lt us.

(** Lexicographic order on lists of sites. *)
Inductive lex_lt : list Z -> list Z -> Prop :=
| lex_head : forall x y l m, x < y -> lex_lt (x :: l) (y :: m)
| lex_tail : forall x l m, lex_lt l m -> lex_lt (x :: l) (x :: m)
| lex_nil : forall y m, lex_lt [] (y :: m).

(** Number of sites below [n] carrying [p]. *)
Fixpoint count_below (n : nat) (s : occupation) (p : particle) : Z :=
  match n with
  | O => 0
  | S k => count_below k s p + (if particle_eq_dec (s (Z.of_nat k)) p then 1 else 0)
  end.

(** The states with [h] holes and [b] downs on [n] sites. *)
Definition sector (n h b : Z) (s : occupation) : Prop :=
  count_below (Z.to_nat n) s Hole = h /\ count_below (Z.to_nat n) s Down = b.

(** Code used by the program for a particle. *)
Definition spin_code (p : particle) : Z := match p with Hole => 0 | Down => -1 | Up => 1 end.

(** Global spin reversal. *)
Definition flip_particle (p : particle) : particle := match p with Hole => Hole | Down => Up | Up => Down end.
Definition flip_state (s : occupation) : occupation := fun x => flip_particle (s x).

(** Two lattices side by side: sites [0..n1-1] from [s], sites [n1..] from [t]. *)
Definition join_states (n1 : Z) (s t : occupation) : occupation :=
  fun x => if x <? n1 then s x else t (x - n1).

(** Plane geometry: the point of a site of a row-major lattice of width [w], and back. *)
Definition point (w x : Z) : Z * Z := (x mod w, x / w).
Definition site (w : Z) (p : Z * Z) : Z := snd p * w + fst p.

(** Clockwise quarter turn of a [w] by [w] square (the second coordinate goes up). *)
Definition quarter (w : Z) (p : Z * Z) : Z * Z := (snd p, w - 1 - fst p).
Fixpoint turns (k : nat) (w : Z) (p : Z * Z) : Z * Z :=
  match k with O => p | S k' => quarter w (turns k' w p) end.

(** [t] is the state [s] of a [w] by [w] square turned [k] times clockwise by 90 degrees. *)
Definition turned (k : nat) (w : Z) (s t : occupation) : Prop :=
  forall x y, 0 <= x < w -> 0 <= y < w -> t (site w (turns k w (x, y))) = s (site w (x, y)).

(** Two points are bonded when they are at distance one. *)
Definition adjacent (p q : Z * Z) : Prop := Z.abs (fst p - fst q) + Z.abs (snd p - snd q) = 1.

(** Three points are on one row or on one column. *)
Definition straight (p q r : Z * Z) : Prop :=
  (fst p = fst q /\ fst q = fst r) \/ (snd p = snd q /\ snd q = snd r).

(** Ring around a [w] by [h] rectangle, numbered counter-clockwise from below site 0:
    south, east, north, west. *)
Definition ring_point (w h k : Z) : Z * Z :=
  if k <? w then (k, -1)
  else if k <? w + h then (w, k - w)
  else if k <? 2 * w + h then (w - 1 - (k - (w + h)), h)
  else (-1, h - 1 - (k - (2 * w + h))).

(** Rectangle followed by its ring. *)
Definition ringed_point (w h x : Z) : Z * Z :=
  if x <? w * h then point w x else ring_point w h (x - w * h).

(** Two [w] by [h] rectangles, the second one immediately to the right of the first. *)
Definition blocks_point (w h x : Z) : Z * Z :=
  if x <? w * h then point w x else (w + (x - w * h) mod w, (x - w * h) / w).

(** The matrix entry [a] says whether the points are bonded. *)
Definition bond_entry (a : Z) (p q : Z * Z) : Prop :=
  (adjacent p q -> a = 1) /\ (~ adjacent p q -> a = 0).
