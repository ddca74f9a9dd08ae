(** Result files: names. *)
From Coq Require Import ZArith String Ascii List Bool Lia QArith Qcanon DecimalString Decimal.
From Verif Require Import PyBase PyFacts Lattice Base Interact Files FilesDefs.
Import ListNotations.
Open Scope Z_scope.

Lemma append_assoc : forall a b c, append (append a b) c = append a (append b c).
Proof. induction a as [|x a IH]; intros b c; [reflexivity|]. cbn [append]. now rewrite IH. Qed.
Lemma append_nil_r : forall a, append a "" = a.
Proof. induction a as [|x a IH]; [reflexivity|]. cbn [append]. now rewrite IH. Qed.

Definition isdigit (a : ascii) : bool := existsb (Ascii.eqb a) ["0"; "1"; "2"; "3"; "4"; "5"; "6"; "7"; "8"; "9"]%char.
Fixpoint alldigits (s : string) : bool := match s with EmptyString => true | String a s' => isdigit a && alldigits s' end.
Definition ends (s : string) : bool := match s with EmptyString => true | String a _ => negb (isdigit a) end.

Lemma digits_split : forall a b s t, alldigits a = true -> alldigits b = true -> ends s = true -> ends t = true ->
  append a s = append b t -> a = b /\ s = t.
Proof.
  induction a as [|x a IH]; intros b s t Ha Hb Hs Ht E.
  - destruct b as [|y b]; [auto|]. exfalso. cbn [append] in E. subst s. cbn [ends alldigits] in *. destruct (isdigit y); discriminate.
  - destruct b as [|y b].
    + exfalso. cbn [append] in E. subst t. cbn [ends alldigits] in *. destruct (isdigit x); discriminate.
    + cbn [append] in E. injection E as <- E. cbn [alldigits] in *. apply andb_prop in Ha. apply andb_prop in Hb.
      destruct (IH b s t) as [-> ->]; tauto.
Qed.

Lemma alldigits_app : forall a b, alldigits (append a b) = alldigits a && alldigits b.
Proof. induction a as [|x a IH]; intros b; [reflexivity|]. cbn [append alldigits]. now rewrite IH, andb_assoc. Qed.

Lemma uint_digits : forall d, alldigits (NilEmpty.string_of_uint d) = true.
Proof. induction d; cbn [NilEmpty.string_of_uint alldigits]; auto. Qed.

Lemma str_digits : forall z, 0 <= z -> alldigits (str_of_int z) = true.
Proof.
  intros z H. unfold str_of_int. destruct z as [|p|p]; [reflexivity| |lia]. cbn [Z.to_int NilZero.string_of_int]. unfold NilZero.string_of_uint.
  destruct (Pos.to_uint p) eqn:Q; try apply uint_digits. reflexivity.
Qed.

(** ** Suffixes *)
Definition suffix (s : switches) : string :=
  if all_on s then "Full.json" else
  append (if s_bSD s then "SD" else "") (append (if s_bV s then "V" else "") (append (if s_bij s then "J" else "")
    (append (if s_bt s then "t" else "") (append (if s_btN s then "tN" else "") ".json")))).
Definition suffix_emb (s : switches) : string := if all_on s then "Full.json" else "SDVJttN.json".

Lemma result_name_split : forall c s, result_name c s = append (name_head c) (suffix s).
Proof.
  intros c s. unfold result_name, suffix. destruct (all_on s); [reflexivity|]. unfold dir_switches. generalize (name_head c). intros h.
  cbn [fold_left fst snd extension String.eqb Ascii.eqb Bool.eqb].
  destruct (s_bSD s), (s_bV s), (s_bij s), (s_bt s), (s_btN s); rewrite ?append_assoc; reflexivity.
Qed.
Lemma embedding_name_split : forall c s, embedding_name c s = append (name_head c) (suffix_emb s).
Proof.
  intros c s. unfold embedding_name, suffix_emb. destruct (all_on s); [reflexivity|]. unfold dir_switches. generalize (name_head c). intros h.
  cbn [fold_left fst snd extension String.eqb Ascii.eqb Bool.eqb]. rewrite ?append_assoc. reflexivity.
Qed.

Definition every_switches : list switches :=
  flat_map (fun a => flat_map (fun b => flat_map (fun c => flat_map (fun d => flat_map (fun e => map (fun f => mkSwitches a b c d e f) [true; false])
    [true; false]) [true; false]) [true; false]) [true; false]) [true; false].
Lemma in_bool : forall b, In b [true; false].
Proof. intros []; cbn; auto. Qed.
Lemma in_every : forall s, In s every_switches.
Proof.
  intros [a b c d e f]. unfold every_switches. repeat (apply in_flat_map; eexists; split; [eapply (in_bool)|]). apply in_map. apply in_bool.
Qed.

Definition same_fiveb (s s' : switches) : bool :=
  eqb (s_bt s) (s_bt s') && eqb (s_bij s) (s_bij s') && eqb (s_bSD s) (s_bSD s') && eqb (s_btN s) (s_btN s') && eqb (s_bV s) (s_bV s').
Definition five_onb (s : switches) : bool := s_bt s && s_bij s && s_bSD s && s_btN s && s_bV s.
Lemma same_fiveb_ok : forall s s', same_fiveb s s' = true -> same_five s s'.
Proof.
  intros s s' H. unfold same_fiveb in H. rewrite !andb_true_iff in H. rewrite !eqb_true_iff in H. unfold same_five. tauto.
Qed.
Lemma five_onb_iff : forall s, five_onb s = true <-> five_on s.
Proof. intros s. unfold five_onb, five_on. rewrite !andb_true_iff. tauto. Qed.

Lemma suffix_check :
  forallb (fun s => ends (suffix s) && forallb (fun s' => implb (String.eqb (suffix s) (suffix s'))
     (same_fiveb s s' && implb (five_onb s) (eqb (s_bz s) (s_bz s')))) every_switches) every_switches = true.
Proof. vm_compute. reflexivity. Qed.

Lemma suffix_ends : forall s, ends (suffix s) = true.
Proof. intros s. pose proof suffix_check as H. rewrite forallb_forall in H. specialize (H s (in_every s)). apply andb_prop in H. tauto. Qed.
Lemma suffix_inj : forall s s', suffix s = suffix s' -> same_five s s' /\ (five_on s -> s_bz s = s_bz s').
Proof.
  intros s s' Q. pose proof suffix_check as H. rewrite forallb_forall in H. specialize (H s (in_every s)). apply andb_prop in H. destruct H as [_ H].
  rewrite forallb_forall in H. specialize (H s' (in_every s')). rewrite Q, String.eqb_refl in H. cbn [implb] in H. apply andb_prop in H. destruct H as [A B].
  split; [now apply same_fiveb_ok|]. intros F. apply five_onb_iff in F. rewrite F in B. cbn [implb] in B. now apply eqb_true_iff.
Qed.
Lemma suffix_emb_check :
  forallb (fun s => ends (suffix_emb s) && forallb (fun s' => eqb (String.eqb (suffix_emb s) (suffix s')) (five_onb s' && eqb (all_on s) (all_on s'))) every_switches)
   every_switches = true.
Proof. vm_compute. reflexivity. Qed.
Lemma suffix_emb_ends : forall s, ends (suffix_emb s) = true.
Proof. intros s. pose proof suffix_emb_check as H. rewrite forallb_forall in H. specialize (H s (in_every s)). apply andb_prop in H. tauto. Qed.
Lemma suffix_emb_iff : forall s s', suffix_emb s = suffix s' <-> five_on s' /\ all_on s = all_on s'.
Proof.
  intros s s'. pose proof suffix_emb_check as H. rewrite forallb_forall in H. specialize (H s (in_every s)). apply andb_prop in H. destruct H as [_ H].
  rewrite forallb_forall in H. specialize (H s' (in_every s')). apply (proj1 (eqb_true_iff _ _)) in H.
  rewrite <- five_onb_iff. rewrite <- (eqb_true_iff (all_on s)), <- andb_true_iff, <- H. symmetry. apply String.eqb_eq.
Qed.

(** ** Counts *)
Definition counts_text (n a b : Z) : string := append (str_of_int n) (append (str_of_int a) (str_of_int b)).
Definition small_counts : list (Z * Z * Z) :=
  flat_map (fun n => flat_map (fun a => map (fun b => (n, a, b)) (zrange 0 (n - a + 1))) (zrange 0 (n + 1))) (zrange 0 11).
Lemma in_small : forall n a b, 0 <= a -> 0 <= b -> a + b <= n -> n <= 10 -> In (n, a, b) small_counts.
Proof.
  intros n a b Ha Hb H Hn. unfold small_counts. apply in_flat_map. exists n. split; [apply in_zrange; lia|].
  apply in_flat_map. exists a. split; [apply in_zrange; lia|]. apply in_map_iff. exists b. split; [reflexivity|]. apply in_zrange. lia.
Qed.
Definition small_texts : list (Z * Z * Z * string) := map (fun p => let '(n, a, b) := p in (n, a, b, counts_text n a b)) small_counts.
Lemma small_check :
  forallb (fun p => let '(n, a, b, t) := p in forallb (fun p' => let '(n', a', b', t') := p' in
    implb (String.eqb t t') ((n =? n') && (a =? a') && (b =? b'))) small_texts) small_texts = true.
Proof. vm_compute. reflexivity. Qed.
Lemma counts_inj : forall n a b n' a' b', 0 <= a -> 0 <= b -> a + b <= n -> n <= 10 -> 0 <= a' -> 0 <= b' -> a' + b' <= n' -> n' <= 10 ->
  counts_text n a b = counts_text n' a' b' -> n = n' /\ a = a' /\ b = b'.
Proof.
  intros n a b n' a' b' A B C D A' B' C' D' Q. pose proof small_check as H. rewrite forallb_forall in H.
  specialize (H (n, a, b, counts_text n a b)). cbv beta iota in H.
  assert (I1 : In (n, a, b, counts_text n a b) small_texts) by (apply in_map_iff; exists (n, a, b); split; [reflexivity | now apply in_small]).
  specialize (H I1). rewrite forallb_forall in H. specialize (H (n', a', b', counts_text n' a' b')). cbv beta iota in H.
  assert (I2 : In (n', a', b', counts_text n' a' b') small_texts) by (apply in_map_iff; exists (n', a', b'); split; [reflexivity | now apply in_small]).
  specialize (H I2). rewrite Q, String.eqb_refl in H. cbn [implb] in H. rewrite !andb_true_iff, !Z.eqb_eq in H. tauto.
Qed.

Lemma head_split : forall c, name_head c = append "tJHam-" (counts_text (nsites c) (nalpha c) (nbeta c)).
Proof. reflexivity. Qed.

Lemma prefix_inj : forall p a b, append p a = append p b -> a = b.
Proof. induction p as [|x p IH]; intros a b H; [assumption|]. cbn [append] in H. injection H as H. now apply IH. Qed.

Lemma counts_digits : forall c, counts c -> alldigits (counts_text (nsites c) (nalpha c) (nbeta c)) = true.
Proof. intros c (A & B & C). unfold counts_text. rewrite !alldigits_app, !str_digits by lia. reflexivity. Qed.

Lemma names_split : forall c c' x y, counts c -> counts c' -> ends x = true -> ends y = true -> append (name_head c) x = append (name_head c') y ->
  counts_text (nsites c) (nalpha c) (nbeta c) = counts_text (nsites c') (nalpha c') (nbeta c') /\ x = y.
Proof.
  intros c c' x y C C' X Y Q. rewrite !head_split, !append_assoc in Q. apply prefix_inj in Q.
  apply digits_split in Q; try assumption; now apply counts_digits.
Qed.
