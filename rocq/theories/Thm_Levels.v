(** Theorems on the ranks of the values of modified_davidson_algorithm (C99). *)
From Coq Require Import ZArith List Bool QArith Qcanon.
From Verif Require Import PyBase Interact Spin Prob Dav PSpin PQc Spec SpecTJ SpinDefs DavDefs VarDefs LevelDefs FDav FVar FLevels.
Import ListNotations.
Open Scope Z_scope.

(** C99 *)
Theorem C99_levels :
  forall N A nb guess stp tol dim_max eps found vals vects es,
  let dm := if dim_max =? 0 then Z.of_nat (length A) else dim_max in
  let K0 := dav_first N A (Z.min nb dm) guess in
  qr_shape N -> square A -> symmetric A -> spectrum A es -> tall (length A) K0 -> 1 <= nb -> 1 <= dm -> well_diagonalised N A (Z.min nb dm) tol dm K0 eps ->
  modified_davidson_algorithm N A nb guess stp tol dim_max = Ok (found, vals, vects) ->
  forall k l, nth_error vals k = Some l -> (k < levels_below es (l + eps))%nat.
Proof. exact C99_levels_pf. Qed.
Print Assumptions C99_levels.

Theorem C99_monotone :
  forall N A nb tol dim_max K0 eps, qr_shape N -> square A -> tall (length A) K0 -> 1 <= nb ->
  well_diagonalised N A nb tol dim_max K0 eps ->
  forall i j K K' k l l', search_space N A nb tol dim_max K0 i K -> search_space N A nb tol dim_max K0 (i + j) K' ->
  value_at (dav_step N A nb tol dim_max K) k l -> value_at (dav_step N A nb tol dim_max K') k l' ->
  (l' <= l + qz (2 * Z.of_nat j) * eps)%Qc.
Proof. exact C99_monotone_pf. Qed.
Print Assumptions C99_monotone.

(** levels 0, 1, 25 and 51; the two values are 16 and 33, then 0 and 1 *)
Example C99_example : qr_shape ex_numerics /\ square ex_A4 /\ symmetric ex_A4 /\ spectrum ex_A4 ex_levels /\ tall (length ex_A4) ex_K4 /\
  dav_first ex_numerics ex_A4 2 ex_K4 = ex_K4 /\ well_diagonalised ex_numerics ex_A4 2 ex_tol 4 ex_K4 0 /\
  value_at (dav_step ex_numerics ex_A4 2 ex_tol 4 ex_K4) 1 (qz 33) /\ value_at (dav_step ex_numerics ex_A4 2 ex_tol 4 (identity_cols 4 4)) 1 (qz 1) /\
  levels_below ex_levels (qz 33) = 3%nat /\ levels_below ex_levels (qz 1) = 2%nat /\
  match modified_davidson_algorithm ex_numerics ex_A4 2 ex_K4 100 ex_tol 0 with Ok (b, vals, _) => b && sameql vals [0%Qc; 1%Qc] | Err _ => false end = true.
Proof.
  split; [exact ex_qr_shape|]. split; [repeat constructor|].
  split; [intros i j Hi Hj; destruct i as [|[|[|[|i]]]], j as [|[|[|[|j]]]]; try (cbn in Hi, Hj; Lia.lia); apply Qc_is_canon; vm_compute; reflexivity|].
  split; [exact ex_spectrum|]. split; [repeat constructor|]. split; [apply sameqm_eq; vm_compute; reflexivity|]. split; [exact ex_well_diagonalised|].
  split; [exact (proj1 ex_second_value)|]. split; [exact (proj2 ex_second_value)|]. split; [vm_compute; reflexivity|]. split; [vm_compute; reflexivity|]. vm_compute. reflexivity.
Qed.
