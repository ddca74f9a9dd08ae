(** Two concrete runtimes: ascending set order, and the order of CPython's hash table. *)
From Coq Require Import ZArith List Bool Lia Permutation.
From Verif Require Import PyBase PyFacts.
Import ListNotations.
Open Scope Z_scope.

Definition no_transfer : mat -> mat -> Z -> Z -> Z -> rentry := fun _ _ _ _ _ => ROther.

(** sets list their elements in increasing order *)
Definition ascending : runtime := mkRuntime (fun l => zsort (nodup Z.eq_dec l)) no_transfer.

Lemma ascending_ok : set_iter_ok ascending.
Proof.
  intros l. simpl. split.
  - eapply Permutation_NoDup; [apply Permutation_sym, zsort_perm | apply NoDup_nodup].
  - intros x. rewrite in_zsort. apply nodup_In.
Qed.

(** sets list their elements in decreasing order *)
Definition descending : runtime := mkRuntime (fun l => rev (zsort (nodup Z.eq_dec l))) no_transfer.

Lemma descending_ok : set_iter_ok descending.
Proof.
  intros l. simpl. split.
  - apply NoDup_rev. eapply Permutation_NoDup; [apply Permutation_sym, zsort_perm | apply NoDup_nodup].
  - intros x. rewrite <- in_rev, in_zsort. apply nodup_In.
Qed.

(** CPython's set of small non-negative ints (Objects/setobject.c, 3.7 to 3.12): a table of
    [mask + 1] slots; an int is its own hash; up to 9 consecutive slots are probed when they
    fit, then the position jumps. *)
Definition slots : Type := list (option Z).

Fixpoint probe (n : nat) (t : slots) (i x : Z) : option Z :=
  match nth (Z.to_nat i) t None with
  | None => Some i
  | Some y => if y =? x then Some i
              else match n with O => None | S n' => probe n' t (i + 1) x end
  end.

Fixpoint find_slot (fuel : nat) (t : slots) (mask i perturb x : Z) : option Z :=
  match fuel with
  | O => None
  | S f =>
      match probe (if i + 9 <=? mask then 9%nat else 0%nat) t i x with
      | Some j => Some j
      | None => let p := Z.shiftr perturb 5 in
                find_slot f t mask (Z.land (i * 5 + 1 + p) mask) p x
      end
  end.

Definition insert_slot (t : slots) (x : Z) : slots :=
  let mask := zlen t - 1 in
  match find_slot (100 + length t) t mask (Z.land x mask) x x with
  | Some j => set_nth t (Z.to_nat j) (Some x)
  | None => t
  end.

Definition elements (t : slots) : list Z :=
  flat_map (fun o => match o with Some x => [x] | None => [] end) t.

Fixpoint table_size (fuel : nat) (size used : Z) : Z :=
  match fuel with
  | O => size
  | S f => if used <? size then size else table_size f (2 * size) used
  end.

Definition set_add (t : slots) (x : Z) : slots :=
  let t' := insert_slot t x in
  let used := zlen (elements t') in
  if (zlen (elements t) <? used) && ((zlen t - 1) * 3 <=? used * 5)
  then fold_left insert_slot (elements t')
         (repeat None (Z.to_nat (table_size 64 8 (if 50000 <? used then used * 2 else used * 4))))
  else t'.

Definition table_order (l : list Z) : list Z := elements (fold_left set_add l (repeat None 8)).

(** [table_order] when it lists the elements of [l] once each (always the case on the examples) *)
Definition cpython_order (l : list Z) : list Z :=
  let r := table_order l in
  if zlist_eqb (zsort r) (zsort (nodup Z.eq_dec l)) then r else nodup Z.eq_dec l.

Definition cpython : runtime := mkRuntime cpython_order no_transfer.

Lemma cpython_ok : set_iter_ok cpython.
Proof.
  intros l. simpl. unfold cpython_order.
  destruct (zlist_eqb (zsort (table_order l)) (zsort (nodup Z.eq_dec l))) eqn:E.
  - apply zlist_eqb_eq in E.
    assert (P : Permutation (table_order l) (nodup Z.eq_dec l)).
    { eapply Permutation_trans; [apply Permutation_sym, zsort_perm|]. rewrite E. apply zsort_perm. }
    split.
    + eapply Permutation_NoDup; [apply Permutation_sym; exact P | apply NoDup_nodup].
    + intros x. rewrite <- (nodup_In Z.eq_dec l x). split; apply Permutation_in; [|apply Permutation_sym]; exact P.
  - split; [apply NoDup_nodup | intros x; apply nodup_In].
Qed.

Example order_1_8 : set_iter cpython [1; 8] = [8; 1].
Proof. reflexivity. Qed.
