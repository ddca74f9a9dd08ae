(** Rounded arithmetic (for C111): errors of sums, and runs of the assembly side by side. *)
From Coq Require Import ZArith List Bool Lia Permutation QArith Qcanon Lqa.
From Verif Require Import PyBase PyFacts Lattice Base Interact Ham Round Spec SpecOps SpecTJ SignDefs RoundDefs PQc PSecSum PBound PPerron PSpin PRep PHam FDav RangeDefs PRange.
Import ListNotations.
Open Scope Z_scope.

(** ** errors *)
Section Errors.
Variables (u : Qc) (F : floats).
Hypothesis HF : rounds u F.

Definition eps (k : nat) : Qc := ((1 + u) ^ k - 1)%Qc.
Lemma eps_0 : eps 0 = 0%Qc.
Proof. unfold eps. cbn [Qcpower]. ring. Qed.
Lemma eps_S : forall k, eps (S k) = (u * (1 + eps k) + eps k)%Qc.
Proof. intros k. unfold eps. cbn [Qcpower]. ring. Qed.
Lemma eps_1 : eps 1 = u.
Proof. rewrite eps_S, eps_0. ring. Qed.
Lemma u_nonneg : (0 <= u)%Qc.
Proof. apply HF. Qed.
Lemma eps_nonneg : forall k, (0 <= eps k)%Qc.
Proof.
  induction k as [|k IH]; [rewrite eps_0; apply Qcle_refl|]. rewrite eps_S. pose proof (Qcmult_nonneg _ _ u_nonneg IH). pose proof u_nonneg. qc.
Qed.
Lemma eps_step : forall k, (eps k <= eps (S k))%Qc.
Proof. intros k. rewrite eps_S. pose proof (Qcmult_nonneg _ _ u_nonneg (eps_nonneg k)). pose proof u_nonneg. qc. Qed.
Lemma eps_le : forall k k', (k <= k')%nat -> (eps k <= eps k')%Qc.
Proof. intros k k' H. induction H as [|k' H IH]; [apply Qcle_refl|]. eapply Qcle_trans; [exact IH | apply eps_step]. Qed.
Lemma eps_add : forall a b, ((1 + eps a) * (1 + eps b) = 1 + eps (a + b))%Qc.
Proof. intros a b. unfold eps. induction a as [|a IH]; cbn [plus Qcpower]; [ring|]. transitivity ((1 + u) * ((1 + ((1 + u) ^ a - 1)) * (1 + ((1 + u) ^ b - 1))))%Qc; [ring|]. rewrite IH. ring. Qed.

(** [x] is [y] with an error below [g] times [s], and [s] bounds the size of [y] *)
Definition near (g x y s : Qc) : Prop := (magnitude (x - y) <= g * s)%Qc /\ (magnitude y <= s)%Qc.
Lemma near_nonneg : forall g x y s, near g x y s -> (0 <= s)%Qc.
Proof. intros g x y s [_ H]. eapply Qcle_trans; [apply magnitude_nonneg | exact H]. Qed.
Lemma near_size : forall g x y s, near g x y s -> (magnitude x <= (1 + g) * s)%Qc.
Proof. intros g x y s [H1 H2]. pose proof (magnitude_add (x - y) y) as H. replace (x - y + y)%Qc with x in H by ring. qc. Qed.
Lemma near_weak : forall g g' x y s, (g <= g')%Qc -> near g x y s -> near g' x y s.
Proof.
  intros g g' x y s G H. pose proof (near_nonneg _ _ _ _ H) as P. destruct H as [H1 H2]. split; [|exact H2]. eapply Qcle_trans; [exact H1|]. now apply Qcmult_le_compat_r.
Qed.
Lemma near_self : forall k x s, (magnitude x <= s)%Qc -> near (eps k) x x s.
Proof.
  intros k x s H. split; [|exact H]. replace (x - x)%Qc with 0%Qc by ring. change (magnitude 0) with 0%Qc. apply Qcmult_nonneg; [apply eps_nonneg|].
  eapply Qcle_trans; [apply magnitude_nonneg | exact H].
Qed.
Lemma near_fl : forall k x y s, near (eps k) x y s -> near (eps (S k)) (fl F x) y s.
Proof.
  intros k x y s H. pose proof (near_nonneg _ _ _ _ H) as P. pose proof (near_size _ _ _ _ H) as Z. destruct H as [H1 H2]. split; [|exact H2].
  destruct HF as (U & R & _). pose proof (R x) as R1. pose proof (magnitude_add (fl F x - x) (x - y)) as A. replace (fl F x - x + (x - y))%Qc with (fl F x - y)%Qc in A by ring.
  assert (B : (u * magnitude x <= u * ((1 + eps k) * s))%Qc) by (rewrite !(Qcmult_comm u); now apply Qcmult_le_compat_r).
  rewrite eps_S. qc.
Qed.
Lemma near_add : forall g x y s x' y' s', near g x y s -> near g x' y' s' -> near g (x + x') (y + y') (s + s').
Proof.
  intros g x y s x' y' s' [H1 H2] [H3 H4]. split.
  - replace (x + x' - (y + y'))%Qc with ((x - y) + (x' - y'))%Qc by ring. eapply Qcle_trans; [apply magnitude_add|]. qc.
  - eapply Qcle_trans; [apply magnitude_add|]. qc.
Qed.
Lemma near_exact : forall x, near (eps 1) (fl F x) x (magnitude x).
Proof. intros x. apply near_fl. apply near_self. apply Qcle_refl. Qed.

(** ** sums of lists *)
Definition total (l : list Qc) : Qc := qsum (fun x => x) l.
Lemma total_perm : forall l l', Permutation l l' -> total l = total l'.
Proof. intros l l' P. unfold total. induction P; rewrite ?qsum_cons in *; try congruence; ring. Qed.
Lemma fold_error : forall l k a y s ys ss, length ys = length l -> length ss = length l -> near (eps k) a y s ->
  (forall i x z t, nth_error l i = Some x -> nth_error ys i = Some z -> nth_error ss i = Some t -> near (eps k) x z t) ->
  near (eps (k + length l)) (fold_left (fun a y => fl F (a + y)%Qc) l a) (y + total ys) (s + total ss).
Proof.
  induction l as [|x l IH]; intros k a y s ys ss L1 L2 H HL.
  - destruct ys; [|discriminate]. destruct ss; [|discriminate]. cbn [length fold_left]. unfold total. rewrite !qsum_nil, Nat.add_0_r, !Qcplus_0_r. exact H.
  - destruct ys as [|z ys]; [discriminate|]. destruct ss as [|t ss]; [discriminate|]. cbn [length fold_left]. unfold total. rewrite !qsum_cons, !Qcplus_assoc.
    rewrite Nat.add_succ_r, <- Nat.add_succ_l. apply IH; [now injection L1 | now injection L2| |].
    + apply near_fl. apply near_add; [exact H|]. exact (HL 0%nat x z t eq_refl eq_refl eq_refl).
    + intros i x' z' t' A B C. eapply near_weak; [apply eps_step|]. exact (HL (S i) x' z' t' A B C).
Qed.
End Errors.

Lemma sum_by_perm : forall A (l : list A) (f : A -> Qc) p, Permutation (map f l) p -> exists q, Permutation l q /\ map f q = p.
Proof.
  intros A l f p H. destruct (Permutation_map_inv f l (Permutation_sym H)) as (q & E & P). exists q. split; [exact P | now symmetry].
Qed.

(** entries with their exact values and sizes *)
Lemma add_all_error : forall u F k (l : list (Qc * Qc * Qc)), rounds u F ->
  (forall x y s, In (x, y, s) l -> near (eps u k) x y s) ->
  near (eps u (k + length l)) (add_all F (add_order F (map (fun p => fst (fst p)) l))) (total (map (fun p => snd (fst p)) l)) (total (map snd l)).
Proof.
  intros u F k l HF H. pose proof HF as (_ & _ & HO). destruct (sum_by_perm _ l (fun p => fst (fst p)) _ (HO _)) as (q & P & E). rewrite <- E. clear E.
  rewrite (total_perm _ _ (Permutation_map (fun p => snd (fst p)) P)), (total_perm _ _ (Permutation_map snd P)), (Permutation_length P).
  assert (HQ : forall x y s, In (x, y, s) q -> near (eps u k) x y s) by (intros x y s I; apply H; eapply Permutation_in; [apply Permutation_sym, P | exact I]). clear H P l.
  destruct q as [|[[x y] s] q]; cbn [map length add_all].
  - unfold total. rewrite !qsum_nil. apply (near_self u F HF). apply Qcle_refl.
  - unfold total. rewrite !qsum_cons. cbn [fst snd]. apply near_weak with (g := eps u (k + length (map (fun p => fst (fst p)) q))).
    { rewrite map_length. apply (eps_le u F HF). lia. }
    apply (fold_error u F HF); rewrite ?map_length; try reflexivity; [apply HQ; now left|].
    intros i a b t A B C. rewrite nth_error_map in A, B, C. destruct (nth_error q i) as [[[a' b'] t']|] eqn:Q; [|discriminate].
    injection A as <-. injection B as <-. injection C as <-. cbn [fst snd]. apply HQ. right. eapply nth_error_In, Q.
Qed.

(** ** runs side by side *)
Inductive lock (R : Qc -> Qc -> Qc -> Prop) : coo -> coo -> coo -> Prop :=
| lock_nil : lock R [] [] []
| lock_cons : forall x y z i j a b c, R x y z -> lock R a b c -> lock R ((x, i, j) :: a) ((y, i, j) :: b) ((z, i, j) :: c).
Lemma lock_app : forall R a b c a' b' c', lock R a b c -> lock R a' b' c' -> lock R (a ++ a') (b ++ b') (c ++ c').
Proof. intros R a b c a' b' c' H H'. induction H; cbn [app]; [exact H' | now constructor]. Qed.
Lemma lock_add : forall (R : Qc -> Qc -> Qc -> Prop) a b c x y z i j, lock R a b c -> R x y z -> lock R (add_ham_coo a x i j) (add_ham_coo b y i j) (add_ham_coo c z i j).
Proof. intros. apply lock_app; [assumption|]. constructor; [assumption | constructor]. Qed.
Lemma total_at : forall h i j, coo_at h i j = total (at_place h i j).
Proof.
  intros h i j. unfold coo_at, total, at_place. induction h as [|[[x r] k] h IH]; [reflexivity|]. rewrite qsum_cons, IH. cbn [filter]. destruct ((r =? i) && (k =? j)); cbn [only map fst]; rewrite ?qsum_cons; ring.
Qed.
Lemma lock_places : forall R a b c i j, lock R a b c -> exists l : list (Qc * Qc * Qc), at_place a i j = map (fun p => fst (fst p)) l /\ at_place b i j = map (fun p => snd (fst p)) l /\
  at_place c i j = map snd l /\ forall x y s, In (x, y, s) l -> R x y s.
Proof.
  intros R a b c i j H. unfold at_place. induction H as [|x y z r k a b c HR H (l & A & B & C & D)]; [exists []; repeat split; intros ? ? ? []|].
  cbn [filter]. destruct ((r =? i) && (k =? j)); [|exists l; auto]. exists ((x, y, z) :: l). cbn [map fst snd]. rewrite A, B, C. repeat split.
  intros x' y' s' [[= <- <- <-]|I]; [exact HR | now apply D].
Qed.

Definition locked (R : Qc -> Qc -> Qc -> Prop) (r r' r'' : res coo) : Prop :=
  forall h', r' = Ok h' -> exists h h'', r = Ok h /\ r'' = Ok h'' /\ lock R h h' h''.
Lemma locked_ok : forall R h h' h'', lock R h h' h'' -> locked R (Ok h) (Ok h') (Ok h'').
Proof. intros R h h' h'' H x [= <-]. eauto. Qed.
Lemma locked_bind : forall R r r' r'' k k' k'', locked R r r' r'' -> (forall h h' h'', lock R h h' h'' -> locked R (k h) (k' h') (k'' h'')) ->
  locked R (bind r k) (bind r' k') (bind r'' k'').
Proof.
  intros R r r' r'' k k' k'' H G h' Q. destruct r' as [x|e]; [|discriminate]. cbn [bind] in Q. destruct (H x eq_refl) as (a & b & -> & -> & Hl). cbn [bind]. exact (G a x b Hl h' Q).
Qed.
Lemma locked_same : forall A R (r : res A) k k' k'', (forall x, r = Ok x -> locked R (k x) (k' x) (k'' x)) -> locked R (bind r k) (bind r k') (bind r k'').
Proof. intros A R r k k' k'' H. destruct r as [x|e]; cbn [bind]; [now apply H | intros h' Q; discriminate]. Qed.
Lemma locked_fold : forall A R (f f' f'' : coo -> A -> res coo) l, (forall h h' h'' x, In x l -> lock R h h' h'' -> locked R (f h x) (f' h' x) (f'' h'' x)) ->
  forall h h' h'', lock R h h' h'' -> locked R (foldM f h l) (foldM f' h' l) (foldM f'' h'' l).
Proof.
  intros A R f f' f'' l. induction l as [|x l IH]; intros H h h' h'' Hl; cbn [foldM]; [now apply locked_ok|].
  apply locked_bind; [apply H; [now left | exact Hl]|]. intros. apply IH; [intros; apply H; [now right | assumption] | assumption].
Qed.
Lemma locked_switch : forall R (b : bool) f f' f'' h h' h'', (forall h h' h'', lock R h h' h'' -> locked R (f h) (f' h') (f'' h'')) -> lock R h h' h'' ->
  locked R (if b then f h else Ok h) (if b then f' h' else Ok h') (if b then f'' h'' else Ok h'').
Proof. intros R [] f f' f'' h h' h'' H Hl; [now apply H | now apply locked_ok]. Qed.
Lemma locked_images : forall (R : Qc -> Qc -> Qc -> Prop) c x y z k images h h' h'', R x y z -> lock R h h' h'' ->
  locked R (add_images c x k h images) (add_images c y k h' images) (add_images c z k h'' images).
Proof.
  intros R c x y z k images h h' h'' HR Hl. unfold add_images. apply locked_fold; [|exact Hl]. intros a a' a'' t _ Ha. apply locked_same. intros i _. apply locked_ok. now apply lock_add.
Qed.

(** the assembly with other values, and the crossings with one sign *)
Definition plus_images (c : configuration) (x : Qc) (k : Z) (ham : coo) (images : list (det * det)) : res coo :=
  foldM (fun ham im => let '(t1, t2) := im in i1 <- get_index_in_basis c t1 ;; i2 <- get_index_in_basis c t2 ;; Ok (add_ham_coo (add_ham_coo ham x k i1) x k i2)) ham images.
Definition plus_step (E : runtime) (c : configuration) (M : interactions) (ham : coo) (p : Z * list Z) : res coo :=
  let '(k, d) := p in
  '(par, per) <- compute_singlet_displacement E c d ;; ham <- plus_images c (i_hSDpar M) k ham par ;; plus_images c (i_hSDper M) k ham per.
Definition diagonal_step (f : list Z -> res Qc) (ham : coo) (p : Z * list Z) : res coo :=
  let '(k, d) := p in x <- f d ;; Ok (add_ham_coo ham x k k).
Definition flip_step (E : runtime) (c : configuration) (M : interactions) (ham : coo) (p : Z * list Z) : res coo :=
  let '(k, d) := p in
  '(par, per, und) <- compute_spin_flip E c d ;; ham <- add_images c (i_Jhpar M / qz 2)%Qc k ham par ;; ham <- add_images c (i_Jhper M / qz 2)%Qc k ham per ;; add_images c (i_J M / qz 2)%Qc k ham und.
Definition build_mirror (E : runtime) (M : interactions) (fs fv : list Z -> res Qc) (b : basis) (S : switches) : res coo :=
  let c := b_conf b in
  ham <- (if s_bt S then add_hopping_integral E [] b M else Ok []) ;;
  ham <- (if s_bz S then foldM (diagonal_step fs) ham (enumerate (determinants b)) else Ok ham) ;;
  ham <- (if s_bij S then foldM (flip_step E c M) ham (enumerate (determinants b)) else Ok ham) ;;
  ham <- (if s_bSD S then foldM (plus_step E c M) ham (enumerate (determinants b)) else Ok ham) ;;
  ham <- (if s_btN S then add_next_hopping_integral E ham b M else Ok ham) ;;
  (if s_bV S then foldM (diagonal_step fv) ham (enumerate (determinants b)) else Ok ham).

(** the entries of the two assemblies of the program *)
Definition entries_of (E : runtime) (b : basis) (I : interactions) (S : switches) : res coo :=
  ham <- (if s_bt S then add_hopping_integral E [] b I else Ok []) ;;
  ham <- (if s_bz S then add_static_spin_interaction E ham b I else Ok ham) ;;
  ham <- (if s_bij S then add_spin_flip E ham b I else Ok ham) ;;
  ham <- (if s_bSD S then add_singlet_displacement E ham b I else Ok ham) ;;
  ham <- (if s_btN S then add_next_hopping_integral E ham b I else Ok ham) ;;
  (if s_bV S then add_hole_repulsion E ham b I else Ok ham).
Definition entries_fl (F : floats) (E : runtime) (b : basis) (I : interactions) (S : switches) : res coo :=
  ham <- (if s_bt S then add_hopping_integral E [] b I else Ok []) ;;
  ham <- (if s_bz S then add_static_spin_interaction_fl F E ham b I else Ok ham) ;;
  ham <- (if s_bij S then add_spin_flip_fl F E ham b I else Ok ham) ;;
  ham <- (if s_bSD S then add_singlet_displacement E ham b I else Ok ham) ;;
  ham <- (if s_btN S then add_next_hopping_integral E ham b I else Ok ham) ;;
  (if s_bV S then add_hole_repulsion_fl F E ham b I else Ok ham).
Lemma bind_bind : forall A B C (r : res A) (f : A -> res B) (g : B -> res C), bind (bind r f) g = bind r (fun x => bind (f x) g).
Proof. intros. destruct r; reflexivity. Qed.
Lemma bind_ext : forall A B (r : res A) (f g : A -> res B), (forall x, f x = g x) -> bind r f = bind r g.
Proof. intros. destruct r; cbn [bind]; auto. Qed.
Lemma build_split : forall E c I b S arg, build_hamiltonian E c I b S arg = bind (entries_of E b I S) (coo_to_csr (compute_dimension (nsites c) (nalpha c) (nbeta c))).
Proof.
  intros. unfold build_hamiltonian, entries_of. cbv zeta. repeat (rewrite ?bind_bind; apply bind_ext; intros ?). reflexivity.
Qed.
Lemma build_fl_split : forall F E c I b S arg, build_hamiltonian_fl F E c I b S arg = bind (entries_fl F E b I S) (coo_to_csr_fl F (compute_dimension (nsites c) (nalpha c) (nbeta c))).
Proof.
  intros. unfold build_hamiltonian_fl, entries_fl. cbv zeta. repeat (rewrite ?bind_bind; apply bind_ext; intros ?). reflexivity.
Qed.

Section Lockstep.
Variables (R : Qc -> Qc -> Qc -> Prop) (F : floats) (E : runtime) (c : configuration) (l : list (list Z)) (K M : interactions) (fs fv : list Z -> res Qc).
Hypothesis R_t : R (i_t K) (i_t K) (i_t M).
Hypothesis R_tN : R (i_tNNN K) (i_tNNN K) (i_tNNN M).
Hypothesis R_tn : R (i_tnNNN K) (i_tnNNN K) (i_tnNNN M).
Hypothesis R_par : R (fl F (i_Jhpar K / qz 2)%Qc) (i_Jhpar K / qz 2)%Qc (i_Jhpar M / qz 2)%Qc.
Hypothesis R_per : R (fl F (i_Jhper K / qz 2)%Qc) (i_Jhper K / qz 2)%Qc (i_Jhper M / qz 2)%Qc.
Hypothesis R_J : R (fl F (i_J K / qz 2)%Qc) (i_J K / qz 2)%Qc (i_J M / qz 2)%Qc.
Hypothesis R_sp : R (i_hSDpar K) (i_hSDpar K) (i_hSDpar M) /\ R (- i_hSDpar K)%Qc (- i_hSDpar K)%Qc (i_hSDpar M).
Hypothesis R_so : R (i_hSDper K) (i_hSDper K) (i_hSDper M) /\ R (- i_hSDper K)%Qc (- i_hSDper K)%Qc (i_hSDper M).
Hypothesis R_s : forall d x, In d l -> compute_static_spin_interaction E c K d = Ok x -> exists x' y, compute_static_spin_interaction_fl F E c K d = Ok x' /\ fs d = Ok y /\ R x' x y.
Hypothesis R_v : forall d x, In d l -> compute_hole_repulsion E c K d = Ok x -> exists x' y, compute_hole_repulsion_fl F E c K d = Ok x' /\ fv d = Ok y /\ R x' x y.
Let b := mkBasis c l.

Lemma in_enum : forall p, In p (enumerate l) -> In (snd p) l.
Proof. intros [k d] H. apply in_enumerate in H. eapply nth_error_In, H. Qed.
Lemma locked_diagonal : forall f f' f'', (forall d x, In d l -> f' d = Ok x -> exists x' y, f d = Ok x' /\ f'' d = Ok y /\ R x' x y) ->
  forall h h' h'', lock R h h' h'' -> locked R (foldM (diagonal_step f) h (enumerate l)) (foldM (diagonal_step f') h' (enumerate l)) (foldM (diagonal_step f'') h'' (enumerate l)).
Proof.
  intros f f' f'' H. apply locked_fold. intros a a' a'' [k d] I Ha. unfold diagonal_step. intros o Q. destruct (f' d) as [x|] eqn:Q1; [|discriminate]. cbn [bind] in Q. injection Q as <-.
  destruct (H d x (in_enum _ I) Q1) as (x' & y & -> & -> & HR). cbn [bind]. eexists. eexists. split; [reflexivity|]. split; [reflexivity|]. now apply lock_add.
Qed.
Lemma locked_plus : forall x z k images h h' h'', R x x z -> R (- x)%Qc (- x)%Qc z -> lock R h h' h'' ->
  locked R (add_singlet_images c x k h images) (add_singlet_images c x k h' images) (plus_images c z k h'' images).
Proof.
  intros x z k images h h' h'' H1 H2 Hl. unfold add_singlet_images, plus_images. apply locked_fold; [|exact Hl]. intros a a' a'' [t1 t2] _ Ha.
  apply locked_same. intros i _. apply locked_same. intros j _. apply locked_ok. apply lock_add; [|exact H2]. now apply lock_add.
Qed.

Lemma locked_build : forall S, locked R (entries_fl F E b K S) (entries_of E b K S) (build_mirror E M fs fv b S).
Proof.
  intros S. unfold entries_fl, entries_of, build_mirror. cbn [b_conf determinants b].
  apply locked_bind.
  { apply (locked_switch R (s_bt S) (fun h => add_hopping_integral E h b K) (fun h => add_hopping_integral E h b K) (fun h => add_hopping_integral E h b M)); [|constructor].
    intros h h' h'' Hl. unfold add_hopping_integral. cbn [b_conf determinants b]. destruct (0 <? nholes c); [|now apply locked_ok]. apply locked_fold; [|exact Hl].
    intros a a' a'' [k d] _ Ha. apply locked_same. intros im _. now apply locked_images. }
  intros h1 h1' h1'' Hl. apply locked_bind.
  { apply (locked_switch R (s_bz S) (fun h => add_static_spin_interaction_fl F E h b K) (fun h => add_static_spin_interaction E h b K) (fun h => foldM (diagonal_step fs) h (enumerate l))); [|exact Hl].
    exact (locked_diagonal _ _ fs R_s). }
  clear h1 h1' h1'' Hl. intros h1 h1' h1'' Hl. apply locked_bind.
  { apply (locked_switch R (s_bij S) (fun h => add_spin_flip_fl F E h b K) (fun h => add_spin_flip E h b K) (fun h => foldM (flip_step E c M) h (enumerate l))); [|exact Hl].
    apply locked_fold. intros a a' a'' [k d] _ Ha. unfold flip_step. apply locked_same. intros [[p q] o] _. apply locked_bind; [now apply locked_images|]. intros. apply locked_bind; [now apply locked_images|]. intros. now apply locked_images. }
  clear h1 h1' h1'' Hl. intros h1 h1' h1'' Hl. apply locked_bind.
  { apply (locked_switch R (s_bSD S) (fun h => add_singlet_displacement E h b K) (fun h => add_singlet_displacement E h b K) (fun h => foldM (plus_step E c M) h (enumerate l))); [|exact Hl].
    apply locked_fold. intros a a' a'' [k d] _ Ha. unfold plus_step. apply locked_same. intros [p q] _. apply locked_bind; [apply locked_plus; [apply R_sp | apply R_sp | exact Ha]|]. intros. apply locked_plus; [apply R_so | apply R_so | assumption]. }
  clear h1 h1' h1'' Hl. intros h1 h1' h1'' Hl. apply locked_bind.
  { apply (locked_switch R (s_btN S) (fun h => add_next_hopping_integral E h b K) (fun h => add_next_hopping_integral E h b K) (fun h => add_next_hopping_integral E h b M)); [|exact Hl].
    intros h h' h'' Hh. unfold add_next_hopping_integral. cbn [b_conf determinants b]. destruct (0 <? nholes c); [|now apply locked_ok]. apply locked_fold; [|exact Hh].
    intros a a' a'' [k d] _ Ha. apply locked_same. intros [p q] _. apply locked_bind; [now apply locked_images|]. intros. now apply locked_images. }
  clear h1 h1' h1'' Hl. intros h1 h1' h1'' Hl.
  apply (locked_switch R (s_bV S) (fun h => add_hole_repulsion_fl F E h b K) (fun h => add_hole_repulsion E h b K) (fun h => foldM (diagonal_step fv) h (enumerate l))); [|exact Hl].
  exact (locked_diagonal _ _ fv R_v).
Qed.
End Lockstep.
