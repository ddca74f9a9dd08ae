(** Sums over the states of a sector. *)
From Coq Require Import ZArith List Bool Lia Permutation QArith Qcanon.
From Verif Require Import PyBase PyFacts Interact Spec SpecOps SpecTJ SpecSpin PBasis PSites PRot PInter PSpin POps PHam PWave.
Import ListNotations.
Open Scope Z_scope.

Section Sector.
Variables n h b : Z.
Hypothesis Hn : 0 <= n.
Hypothesis Hh : 0 <= h.
Hypothesis Hb : 0 <= b.

(** the state of a determinant of the sector *)
Definition stt (d : list Z) : occupation :=
  fun x => if mem x (firstn (Z.to_nat h) d) then Hole else if mem x (firstn (Z.to_nat b) (skipn (Z.to_nat h) d)) then Down else Up.

Lemma stt_describes : forall d s, describes n h b d s -> same_state n (stt d) s.
Proof.
  intros d s D x Hx. destruct D as (hs & bs & us & -> & Lh & Lb & Nh & Nb & Nu & Ih & Ib & Iu).
  unfold stt. rewrite <- Lh, <- Lb, !Nat2Z.id.
  rewrite firstn_app, Nat.sub_diag, firstn_all, firstn_O, app_nil_r.
  rewrite skipn_app, Nat.sub_diag, skipn_all, skipn_O. cbn [app]. rewrite firstn_app, Nat.sub_diag, firstn_all, firstn_O, app_nil_r.
  destruct (mem x hs) eqn:Q1; [apply mem_In, Ih in Q1; symmetry; apply Q1|].
  destruct (mem x bs) eqn:Q2; [apply mem_In, Ib in Q2; symmetry; apply Q2|].
  destruct (s x) eqn:Q; [|  | reflexivity]; exfalso.
  - assert (In x hs) by (apply Ih; auto). apply mem_In in H. congruence.
  - assert (In x bs) by (apply Ib; auto). apply mem_In in H. congruence.
Qed.

Definition slist : list (list Z) := dets n (Z.to_nat h) (Z.to_nat b).

Lemma in_slist : forall d, In d slist <-> exists s, in_sector n h b s /\ d = canon n s.
Proof. intros d. unfold slist. rewrite in_dets by assumption. now rewrite !Z2Nat.id. Qed.

Lemma in_slist_st : forall d, In d slist -> in_sector n h b (stt d) /\ canon n (stt d) = d.
Proof.
  intros d H. apply in_slist in H. destruct H as (s & S & ->). pose proof (stt_describes _ _ (canon_describes _ _ _ _ S)) as Q.
  split; [|now apply canon_same]. eapply describes_sector. eapply describes_same; [|apply (canon_describes _ _ _ _ S)]. intros x Hx. symmetry. now apply Q.
Qed.

Lemma stt_canon : forall s, in_sector n h b s -> same_state n (stt (canon n s)) s.
Proof. intros s S. apply stt_describes. now apply canon_describes. Qed.

Definition ssum (G : occupation -> Qc) : Qc := qsum (fun d => G (stt d)) slist.

Lemma ssum_ext : forall G G', (forall s, in_sector n h b s -> G s = G' s) -> ssum G = ssum G'.
Proof. intros G G' H. apply qsum_ext. intros d Hd. apply H. now apply in_slist_st. Qed.
Lemma ssum_add : forall G G', ssum (fun s => (G s + G' s)%Qc) = (ssum G + ssum G')%Qc.
Proof. intros. apply qsum_add. Qed.
Lemma ssum_scale : forall G k, ssum (fun s => (k * G s)%Qc) = (k * ssum G)%Qc.
Proof. intros. apply qsum_scale. Qed.
Lemma ssum_sites : forall m (G : Z -> occupation -> Qc), ssum (fun s => sum_sites m (fun i => G i s)) = sum_sites m (fun i => ssum (G i)).
Proof. intros. apply qsum_exchange. Qed.
Lemma ssum_zero : forall G, (forall s, in_sector n h b s -> G s = 0%Qc) -> ssum G = 0%Qc.
Proof. intros G H. apply qsum_zero. intros d Hd. apply H. now apply in_slist_st. Qed.
End Sector.

Lemma qsum_le : forall A (f g : A -> Qc) l, (forall x, In x l -> (f x <= g x)%Qc) -> (qsum f l <= qsum g l)%Qc.
Proof.
  intros A f g l H. induction l as [|x l IH]; [apply Qcle_refl|]. rewrite !qsum_cons. apply Qcplus_le_compat; [apply H; now left | apply IH; intros; apply H; now right].
Qed.
Lemma qsum_nonneg : forall A (f : A -> Qc) l, (forall x, In x l -> (0 <= f x)%Qc) -> (0 <= qsum f l)%Qc.
Proof. intros A f l H. rewrite <- (qsum_zero A (fun _ => 0%Qc) l) by reflexivity. now apply qsum_le. Qed.

(** two ways to run over the same states *)
Lemma ssum_move : forall n h b h' b' (f g : occupation -> occupation) (p p' : occupation -> bool) (G : occupation -> Qc),
  0 <= n -> 0 <= h -> 0 <= b -> 0 <= h' -> 0 <= b' ->
  (forall s t, same_state n s t -> same_state n (f s) (f t)) ->
  (forall s t, same_state n s t -> same_state n (g s) (g t)) ->
  (forall s t, same_state n s t -> p s = p t) ->
  (forall s t, same_state n s t -> p' s = p' t) ->
  on_lattice n G ->
  (forall s, in_sector n h b s -> p s = true -> in_sector n h' b' (f s) /\ p' (f s) = true /\ same_state n (g (f s)) s) ->
  (forall t, in_sector n h' b' t -> p' t = true -> in_sector n h b (g t) /\ p (g t) = true /\ same_state n (f (g t)) t) ->
  ssum n h b (fun s => only (p s) (G s)) = ssum n h' b' (fun t => only (p' t) (G (g t))).
Proof.
  intros n h b h' b' f g p p' G Hn Hh Hb Hh' Hb' Ef Eg Ep Ep' OG F1 F2. unfold ssum.
  rewrite <- (qsum_filter _ (fun d => G (stt h b d)) (fun d => p (stt h b d))).
  rewrite <- (qsum_filter _ (fun d => G (g (stt h' b' d))) (fun d => p' (stt h' b' d))).
  set (l := filter (fun d => p (stt h b d)) (slist n h b)). set (l' := filter (fun d => p' (stt h' b' d)) (slist n h' b')).
  transitivity (qsum (fun d => G (g (stt h' b' d))) (map (fun d => canon n (f (stt h b d))) l)).
  - rewrite qsum_map. apply qsum_ext. intros d Hd. apply filter_In in Hd. destruct Hd as [Hd Pd].
    destruct (in_slist_st n h b Hn Hh Hb d Hd) as [S _]. destruct (F1 _ S Pd) as (S' & P' & Q). apply OG. intros x Hx.
    transitivity (g (f (stt h b d)) x); [symmetry; now apply Q|]. apply Eg; [|assumption]. intros y Hy. symmetry. now apply (stt_canon n h' b').
  - apply qsum_perm. apply NoDup_Permutation.
    + assert (NDl : NoDup l) by (apply NoDup_filter, dets_NoDup).
      assert (Inj : forall x y, In x l -> In y l -> canon n (f (stt h b x)) = canon n (f (stt h b y)) -> x = y).
      { intros x y Hx Hy Q. apply filter_In in Hx, Hy. destruct Hx as [Hx Px], Hy as [Hy Py].
        destruct (in_slist_st n h b Hn Hh Hb x Hx) as [Sx Cx]. destruct (in_slist_st n h b Hn Hh Hb y Hy) as [Sy Cy].
        destruct (F1 _ Sx Px) as (Sx' & _ & Qx). destruct (F1 _ Sy Py) as (Sy' & _ & Qy).
        apply (canon_inj n h' b') in Q; try assumption. rewrite <- Cx, <- Cy. apply canon_same. intros z Hz.
        rewrite <- (Qx z Hz), <- (Qy z Hz). now apply Eg. }
      clearbody l. induction NDl as [|x l0 Hx ND IH]; cbn [map]; constructor.
      * intros Hin. apply in_map_iff in Hin. destruct Hin as (y & Q & Hy). apply Hx. rewrite (Inj x y); [assumption | now left | now right | now symmetry].
      * apply IH. intros y z Hy Hz. apply Inj; now right.
    + apply NoDup_filter, dets_NoDup.
    + intros d'. unfold l, l'. rewrite in_map_iff. split.
      * intros (d & <- & Hd). apply filter_In in Hd. destruct Hd as [Hd Pd]. destruct (in_slist_st n h b Hn Hh Hb d Hd) as [S _].
        destruct (F1 _ S Pd) as (S' & P' & _). apply filter_In. split; [apply in_slist; eauto|]. rewrite <- P'. apply Ep'. now apply stt_canon.
      * intros Hd. apply filter_In in Hd. destruct Hd as [Hd Pd]. destruct (in_slist_st n h' b' Hn Hh' Hb' d' Hd) as [S C].
        destruct (F2 _ S Pd) as (S' & P' & Q). exists (canon n (g (stt h' b' d'))). split.
        -- rewrite <- C at 2. apply canon_same. intros x Hx. rewrite <- (Q x Hx). apply Ef; [|assumption]. now apply stt_canon.
        -- apply filter_In. split; [apply in_slist; eauto|]. rewrite <- P'. apply Ep. now apply stt_canon.
Qed.
