(** The helpers that display a whole basis or the dominant determinants (C62). *)
From Coq Require Import ZArith List Bool Lia QArith Qcanon Qcabs Permutation.
From Verif Require Import PyBase PyFacts Lattice Base Prob Spec SpinDefs ProbDefs PHash PBasis PSites PProb FBasis FProb Display DisplayDefs.
Import ListNotations.
Open Scope Z_scope.

Lemma C62_basis_pf : forall b, get_displayable_basis b = match determinants b with [] => Ok [] | _ => Err AttributeError end.
Proof. intros b. unfold get_displayable_basis. now destruct (determinants b). Qed.

(** with or without ties *)
Lemma dominant_ok : forall c l v ndet, proper c -> construct_basis c = Ok (mkBasis c l) -> length v = length l ->
  exists r, get_dominant_determinants (mkBasis c l) v ndet = Ok r /\ length r = kept (length v) ndet.
Proof.
  intros c l v ndet P HB L. set (k := kept (length v) ndet).
  destruct (indices_of v (firstn k (descending_abs v))) as (idx & M & B & E).
  { intros a Ha. eapply Permutation_in; [apply desc_perm|]. rewrite <- (firstn_skipn k). apply in_or_app. now left. }
  exists (map (fun i => (nth i v 0%Qc, nth i l [])) idx). split.
  - unfold get_dominant_determinants. cbn [b_conf]. cbn zeta. rewrite kept_slice. fold (descending_abs v).
    rewrite desc_length, min_kept. fold k. rewrite (mapM_bind _ _ _ _ _ _ _ E).
    transitivity (mapM (fun i => x <- py_get v (Z.of_nat i) ;; d <- get_hash_basis (nholes c) (nalpha c) (nbeta c) (Z.of_nat i) ;; Ok (x, d)) idx).
    { clear. induction idx as [|i idx IH]; [reflexivity|]. cbn [map mapM]. now rewrite IH. }
    apply mapM_ok. intros i Hi. apply B in Hi.
    rewrite (py_get_nth _ v _ (nth i v 0%Qc)) by (try lia; rewrite Nat2Z.id; now apply nth_error_nth'). cbn [bind].
    destruct P as (P1 & P2 & P3 & P4 & _).
    destruct (C04_hash_basis_pf c l i P1 P2 P3 P4 HB) as (d & Nd & ->); [lia|]. cbn [bind]. now rewrite (nth_error_nth _ _ _ Nd).
  - rewrite map_length, <- (map_length (mag v) idx), M. apply firstn_length_le. rewrite desc_length. apply kept_le.
Qed.

Lemma C62_dominant_pf : forall c l v ndet, proper c -> construct_basis c = Ok (mkBasis c l) -> length v = length l -> v <> [] -> 1 <= ndet ->
  get_displayable_dominant_determinants (mkBasis c l) v ndet = Err AttributeError.
Proof.
  intros c l v ndet P HB L NE Hd. destruct (dominant_ok c l v ndet P HB L) as (r & E & Lr).
  unfold get_displayable_dominant_determinants. rewrite E. cbn [bind]. destruct r as [|p r]; [|reflexivity].
  exfalso. unfold kept in Lr. cbn [length] in Lr. destruct v; [congruence|]. cbn [length] in Lr. destruct (Z.ltb_spec ndet 0); lia.
Qed.

Lemma C62_nothing_pf : forall c l, get_displayable_dominant_determinants (mkBasis c l) [] 0 = Ok ([], []).
Proof. reflexivity. Qed.
