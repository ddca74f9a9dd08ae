(** Theorems on the lowest value of modified_davidson_algorithm (C87). *)
From Coq Require Import ZArith List Bool QArith Qcanon.
From Verif Require Import PyBase Interact Spin Prob Dav PSpin PQc Spec SpecTJ SpinDefs DavDefs VarDefs FDav FVar.
Import ListNotations.
Open Scope Z_scope.

(** C87 *)
Theorem C87_monotone :
  forall N A nb tol dim_max K0 eps, qr_shape N -> square A -> tall (length A) K0 -> 1 <= nb ->
  well_behaved N A nb tol dim_max K0 eps ->
  forall i j K K' l l', search_space N A nb tol dim_max K0 i K -> search_space N A nb tol dim_max K0 (i + j) K' ->
  lowest_value (dav_step N A nb tol dim_max K) l -> lowest_value (dav_step N A nb tol dim_max K') l' ->
  (l' <= l + qz (2 * Z.of_nat j) * eps)%Qc.
Proof. exact C87_monotone_pf. Qed.
Print Assumptions C87_monotone.

Theorem C87_bounds :
  forall N A nb guess stp tol dim_max eps found vals vects,
  let dm := if dim_max =? 0 then Z.of_nat (length A) else dim_max in
  let K0 := dav_first N A (Z.min nb dm) guess in
  qr_shape N -> square A -> tall (length A) K0 -> 1 <= nb -> 1 <= dm -> well_behaved N A (Z.min nb dm) tol dm K0 eps ->
  modified_davidson_algorithm N A nb guess stp tol dim_max = Ok (found, vals, vects) ->
  (exists i l, 0 <= i < stp /\ nth_error vals 0 = Some l /\
    forall g, combination (length A) K0 g -> inner g g = 1%Qc -> (l <= mean A g + qz (2 * i + 1) * eps)%Qc) /\
  (forall es k l, symmetric A -> spectrum A es -> nth_error vals k = Some l ->
    (exists m e, In (m, e) es /\ (m <= l + eps)%Qc) /\ exists m e, In (m, e) es /\ (l <= m + eps)%Qc).
Proof. exact C87_bounds_pf. Qed.
Print Assumptions C87_bounds.

(** two iterations, diagonalised exactly: the lowest value goes from 16 to 0 *)
Example C87_example : qr_shape ex_numerics /\ square ex_A4 /\ symmetric ex_A4 /\ spectrum ex_A4 ex_levels /\ tall (length ex_A4) ex_K4 /\
  dav_first ex_numerics ex_A4 2 ex_K4 = ex_K4 /\ well_behaved ex_numerics ex_A4 2 ex_tol 4 ex_K4 0 /\
  ex_second (dav_step ex_numerics ex_A4 2 ex_tol 4 ex_K4) = true /\ ex_found (dav_step ex_numerics ex_A4 2 ex_tol 4 (identity_cols 4 4)) = true /\
  match modified_davidson_algorithm ex_numerics ex_A4 2 ex_K4 100 ex_tol 0 with Ok (b, vals, _) => b && sameql vals [0%Qc; 1%Qc] | Err _ => false end = true.
Proof.
  split; [exact ex_qr_shape|]. split; [repeat constructor|].
  split; [intros i j Hi Hj; destruct i as [|[|[|[|i]]]], j as [|[|[|[|j]]]]; try (cbn in Hi, Hj; Lia.lia); apply Qc_is_canon; vm_compute; reflexivity|].
  split; [exact ex_spectrum|]. split; [repeat constructor|]. split; [apply sameqm_eq; vm_compute; reflexivity|]. split; [exact ex_well_behaved|].
  split; [exact ex_step0|]. split; [exact ex_step1|]. vm_compute. reflexivity.
Qed.
