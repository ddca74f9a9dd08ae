(** Theorems on the Davidson procedures (C46-C51, C66, C67). *)
From Coq Require Import ZArith List Bool Sorted QArith Qcanon.
From Verif Require Import PyBase Interact Spin Prob Dav PSpin PQc Spec SpecTJ SpinDefs DavDefs FDav FDavOpt FGram FTight FTight3.
Import ListNotations.
Open Scope Z_scope.

(** functions in the place of numpy which meet every contract used below *)
Example contracts_met : qr_shape ex_numerics /\ qr_orthonormal ex_numerics /\ eigh_unit ex_numerics /\ norm_above ex_numerics /\
  (forall w, norm ex_numerics w = 0%Qc -> inner w w = 0%Qc).
Proof.
  split; [exact ex_qr_shape|]. split; [exact ex_qr_orthonormal|]. split; [exact ex_eigh_unit|]. split; [exact ex_norm_above | exact norm_up_zero].
Qed.

(** C46 *)
Theorem C46_lowest :
  forall vals (vects : list (list Qc)) nb, 0 <= nb -> (length vals <= length vects)%nat ->
  exists idx, smallest vals idx /\ Z.of_nat (length idx) = Z.min nb (Z.of_nat (length vals)) /\
    get_lowests_eig vals vects nb = Ok (map (fun i => nth i vals 0%Qc) idx, map (fun i => nth i vects []) idx).
Proof. exact C46_lowest_pf. Qed.
Print Assumptions C46_lowest.

Example C46_example : exists vs, 
  get_lowests_eig [qz 3; qz 1; qz 3; qz 1] [[qz 10]; [qz 11]; [qz 12]; [qz 13]] 3 = Ok (vs, [[qz 11]; [qz 13]; [qz 10]]) /\
  map this vs = [1; 1; 3]%Q.
Proof. eexists. split; [vm_compute; reflexivity | vm_compute; reflexivity]. Qed.

(** C47 *)
Theorem C47_iteration :
  forall N A nb tol dim_max K, square A -> tall (length A) K -> 0 <= nb ->
  let vals0 := fst (eigh N (projected A K)) in
  let ys0 := snd (eigh N (projected A K)) in
  (length vals0 <= length ys0)%nat ->
  exists idx, smallest vals0 idx /\ Z.of_nat (length idx) = Z.min nb (Z.of_nat (length vals0)) /\
  dav_step N A nb tol dim_max K =
    if Z.of_nat (length vals0) <? nb then Err IndexError else
    let vals := map (fun i => nth i vals0 0%Qc) idx in
    let vects := map (fun i => blend (length A) K (nth i ys0 [])) idx in
    let pairs := combine vals vects in
    if forallb (fun p => qleb (norm N (residual A (fst p) (snd p))) tol) pairs then Ok (Converged vals vects) else
    if existsb (fun p => existsb (fun i => qeqb (nth i (nth i A []) 0%Qc) (fst p)) (seq 0 (length A))) pairs then Err ZeroDivisionError else
    let cs := map (fun p => correction A (fst p) (snd p)) pairs in
    Ok (Continue vals vects (qr N (length A) ((if dim_max - nb <? Z.of_nat (length A) then vects else K) ++ cs))).
Proof. exact C47_iteration_pf. Qed.
Print Assumptions C47_iteration.

Theorem C47_residual :
  forall N A nb guess stp tol dim_max vals vects, qr_shape N -> square A -> tall (length A) guess ->
  0 <= nb -> 0 <= dim_max ->
  modified_davidson_algorithm N A nb guess stp tol dim_max = Ok (true, vals, vects) ->
  let count := Z.to_nat (Z.min nb (if dim_max =? 0 then Z.of_nat (length A) else dim_max)) in
  length vals = count /\ length vects = count /\
  forall k, (k < count)%nat -> exists l x, nth_error vals k = Some l /\ nth_error vects k = Some x /\ length x = length A /\
    (norm N (residual A l x) <= tol)%Qc.
Proof. exact C47_residual_pf. Qed.
Print Assumptions C47_residual.

Theorem C47_true_residual :
  forall N A nb guess stp tol dim_max vals vects, qr_shape N -> norm_above N -> square A -> tall (length A) guess ->
  0 <= nb -> 0 <= dim_max ->
  modified_davidson_algorithm N A nb guess stp tol dim_max = Ok (true, vals, vects) ->
  forall k l x, nth_error vals k = Some l -> nth_error vects k = Some x ->
  (inner (residual A l x) (residual A l x) <= tol * tol)%Qc.
Proof. exact C47_true_residual_pf. Qed.
Print Assumptions C47_true_residual.

Theorem C47_budget :
  forall N A nb guess stp tol dim_max found vals vects,
  modified_davidson_algorithm N A nb guess stp tol dim_max = Ok (found, vals, vects) ->
  let dm := if dim_max =? 0 then Z.of_nat (length A) else dim_max in
  exists i K, search_space N A (Z.min nb dm) tol dm (dav_first N A (Z.min nb dm) guess) i K /\
    (found = true -> Z.of_nat i < stp /\ dav_step N A (Z.min nb dm) tol dm K = Ok (Converged vals vects)) /\
    (found = false -> Z.of_nat i = stp - 1 /\ exists K', dav_step N A (Z.min nb dm) tol dm K = Ok (Continue vals vects K')).
Proof. exact C47_budget_pf. Qed.
Print Assumptions C47_budget.

Theorem C47_no_iteration :
  forall N A nb guess stp tol dim_max, stp <= 0 ->
  modified_davidson_algorithm N A nb guess stp tol dim_max = Err NameError.
Proof. exact C47_no_iteration_pf. Qed.
Print Assumptions C47_no_iteration.

(** found at the second iteration *)
Example C47_example : square ex_A4 /\ tall (length ex_A4) ex_K4 /\ exists vals vects,
  modified_davidson_algorithm ex_numerics ex_A4 2 ex_K4 100 (qfrac 1 1000) 0 = Ok (true, vals, vects) /\ map this vals = [0; 1]%Q /\
  map (map this) vects = [[1; 0; 0; 0]; [0; 0; 1; 0]]%Q /\
  modified_davidson_algorithm ex_numerics ex_A4 2 ex_K4 1 (qfrac 1 1000) 0 <> Ok (true, vals, vects).
Proof.
  split; [repeat constructor|]. split; [repeat constructor|].
  destruct (modified_davidson_algorithm ex_numerics ex_A4 2 ex_K4 100 (qfrac 1 1000) 0) as [[[b vals] vects]|e] eqn:Q; [|vm_compute in Q; discriminate Q].
  exists vals, vects.
  assert (F : b = true /\ map this vals = [0; 1]%Q /\ map (map this) vects = [[1; 0; 0; 0]; [0; 0; 1; 0]]%Q).
  { change (match Ok (b, vals, vects) with Ok (b, vals, vects) => b = true /\ map this vals = [0; 1]%Q /\ map (map this) vects = [[1; 0; 0; 0]; [0; 0; 1; 0]]%Q | Err _ => True end).
    rewrite <- Q. vm_compute. auto. }
  destruct F as (-> & F1 & F2). split; [reflexivity|]. split; [assumption|]. split; [assumption|].
  intros H. assert (C : match modified_davidson_algorithm ex_numerics ex_A4 2 ex_K4 1 (qfrac 1 1000) 0 with Ok (b, _, _) => b | Err _ => false end = false) by (vm_compute; reflexivity).
  rewrite H in C. discriminate C.
Qed.

(** C48 *)
Theorem C48_columns :
  forall N A nb tol dim_max K0 i K, qr_shape N -> square A -> tall (length A) K0 -> 1 <= nb ->
  dim_max <= Z.of_nat (length A) -> search_space N A nb tol dim_max K0 (S i) K -> length K = Nat.min (length A) (2 * Z.to_nat nb).
Proof. exact C48_columns_pf. Qed.
Print Assumptions C48_columns.

Theorem C48_bounded :
  forall N A nb tol dim_max K0 i K, qr_shape N -> square A -> tall (length A) K0 -> 1 <= nb ->
  dim_max <= Z.of_nat (length A) -> (length K0 <= 2 * Z.to_nat nb)%nat -> search_space N A nb tol dim_max K0 i K -> (length K <= 2 * Z.to_nat nb)%nat.
Proof. exact C48_bounded_pf. Qed.
Print Assumptions C48_bounded.

Theorem C48_never_wider :
  forall N A nb tol dim_max K0 i K, qr_shape N -> square A -> tall (length A) K0 -> 0 <= nb ->
  search_space N A nb tol dim_max K0 (S i) K -> (length K <= length A)%nat.
Proof. exact C48_never_wider_pf. Qed.
Print Assumptions C48_never_wider.

Theorem C48_refuted :
  exists A guess nb dim_max tol, square A /\ tall (length A) guess /\ orthonormal guess /\ length A = 4%nat /\
  nb = 2 /\ dim_max = 3 /\ tol = 1%Qc /\
  forall N, qr_shape N -> norm_above N -> qr N 4 guess = guess ->
    eigh N [[qz 16; qz 0]; [qz 0; qz 33]] = ([qz 16; qz 33], [[1%Qc; 0%Qc]; [0%Qc; 1%Qc]]) ->
    exists K, search_space N A nb tol dim_max (dav_first N A nb guess) 1 K /\ length K = 4%nat /\ dim_max < Z.of_nat (length K).
Proof. exact C48_refuted_pf. Qed.
Print Assumptions C48_refuted.

(** the hypotheses on numpy in C48_refuted are met *)
Example C48_example : qr_shape ex_numerics /\ norm_above ex_numerics /\ qr ex_numerics 4 ex_K4 = ex_K4 /\
  eigh ex_numerics [[qz 16; qz 0]; [qz 0; qz 33]] = ([qz 16; qz 33], [[1%Qc; 0%Qc]; [0%Qc; 1%Qc]]).
Proof.
  split; [exact ex_qr_shape|]. split; [exact ex_norm_above|]. split; vm_compute; reflexivity.
Qed.

(** C49 *)
Theorem C49_aligned :
  forall N A nb init guess stp tol droptol eta dim_max vals vects, qr_shape N -> square A -> tall (length A) guess -> 1 <= nb ->
  one_at_a_time N A nb (Z.max init nb) tol droptol eta (if dim_max =? 0 then Z.of_nat (length A) else dim_max)
    (mkOpt 0 [] (repeat (repeat 0%Qc (length A)) (Z.to_nat nb)) (qr N (length A) guess)) ->
  modified_davidson_algorithm_opt N A nb init guess stp tol droptol eta dim_max = Ok (vals, vects) ->
  length vects = Z.to_nat nb /\ (length vals <= Z.to_nat nb)%nat /\
  (forall k, (k < length vals)%nat -> (norm N (residual A (nth k vals 0%Qc) (nth k vects [])) <= tol)%Qc) /\
  forall k, (length vals <= k < Z.to_nat nb)%nat -> nth k vects [] = repeat 0%Qc (length A).
Proof. exact C49_aligned_pf. Qed.
Print Assumptions C49_aligned.

Theorem C49_single :
  forall N A init guess stp tol droptol eta dim_max vals vects, qr_shape N -> square A -> tall (length A) guess -> init <= 1 ->
  modified_davidson_algorithm_opt N A 1 init guess stp tol droptol eta dim_max = Ok (vals, vects) ->
  length vects = 1%nat /\ 
  (vals = [] /\ vects = [repeat 0%Qc (length A)] \/
   exists l x, vals = [l] /\ vects = [x] /\ (norm N (residual A l x) <= tol)%Qc).
Proof. exact C49_single_pf. Qed.
Print Assumptions C49_single.

Example C49_example : exists vals vects,
  modified_davidson_algorithm_opt ex_numerics [[qz 3; 0%Qc]; [0%Qc; qz 2]] 1 1 [[0%Qc; 1%Qc]] 5 (qfrac 1 1000) (qfrac 1 1000000) (qfrac 1 10) 0 = Ok (vals, vects) /\
  map this vals = [2 # 1]%Q /\ map (map this) vects = [[0; 1]]%Q.
Proof. eexists. eexists. split; [vm_compute; reflexivity | split; vm_compute; reflexivity]. Qed.

Theorem C49_iteration :
  forall N A nb nu_0 tol droptol eta dim_max s, square A -> tall (length A) (o_krylov s) -> o_found s < nb -> o_found s <= nu_0 ->
  let K := o_krylov s in
  let nu := Z.min (Z.of_nat (length K)) (nu_0 - o_found s) in
  let vals0 := fst (eigh N (projected A K)) in
  let ys0 := snd (eigh N (projected A K)) in
  nu <= Z.of_nat (length vals0) -> (length vals0 <= length ys0)%nat ->
  exists idx, smallest vals0 idx /\ Z.of_nat (length idx) = nu /\
  let pairs := map (fun i => (nth i vals0 0%Qc, blend (length A) K (nth i ys0 []))) idx in
  ((forall l x, In (l, x) pairs -> (tol < norm N (residual A l x))%Qc) ->
   opt_step N A nb nu_0 tol droptol eta dim_max s =
     if existsb (fun p => existsb (fun i => qeqb (nth i (nth i A []) 0%Qc) (fst p)) (seq 0 (length A))) pairs then Err ValueError else
     (cs <- get_meaningful_corrections N K (map (fun p => correction A (fst p) (snd p)) pairs) droptol eta nu ;;
      Ok (ONext (mkOpt (o_found s) (o_eigvals s) (o_eigvects s)
            (qr N (length A) ((if (dim_max - Z.of_nat (length cs) <? Z.of_nat (length A)) || (Z.of_nat (length cs) =? 0) then map snd pairs else K) ++ cs)))))).
Proof. exact C49_iteration_pf. Qed.
Print Assumptions C49_iteration.

Example C49_iteration_example :
  let A := [[qz 3; 1%Qc]; [1%Qc; qz 2]] in
  let s := mkOpt 0 [] [[0%Qc; 0%Qc]] [[qfrac 3 5; qfrac 4 5]] in
  map this (fst (eigh ex_numerics (projected A (o_krylov s)))) = [83 # 25]%Q /\
  snd (eigh ex_numerics (projected A (o_krylov s))) = [[1%Qc]] /\
  (qfrac 1 1000 < norm ex_numerics (residual A (qfrac 83 25) [qfrac 3 5; qfrac 4 5]))%Qc /\
  match opt_step ex_numerics A 1 1 (qfrac 1 1000) (qfrac 1 1000000) (qfrac 1 10) 2 s with
  | Ok (ONext s') => map (map this) (o_krylov s') = [[3 # 5; 4 # 5]; [4 # 5; -3 # 5]]%Q
  | _ => False
  end.
Proof. vm_compute. repeat (split; [reflexivity|]). reflexivity. Qed.

Theorem C49_refuted :
  exists N A guess vals vects tol droptol eta, qr_shape N /\ qr_orthonormal N /\ eigh_unit N /\ norm_above N /\ square A /\ symmetric A /\
  tall (length A) guess /\ orthonormal guess /\ (0 < tol)%Qc /\
  modified_davidson_algorithm_opt N A 2 2 guess 1 tol droptol eta 0 = Ok (vals, vects) /\
  length vals = 2%nat /\ length vects = 2%nat /\
  (tol < norm N (residual A (nth 0 vals 0%Qc) (nth 0 vects [])))%Qc /\
  nth 1 vects [] = repeat 0%Qc (length A).
Proof. exact C49_refuted_pf. Qed.
Print Assumptions C49_refuted.

(** C50 *)
Theorem C50_kept :
  forall N krylov temp droptol eta nu dim, tall dim krylov -> tall dim temp -> (0 <= droptol)%Qc ->
  0 <= nu <= Z.of_nat (length temp) ->
  let kept := kept_corrections (norm N) droptol krylov (firstn (Z.to_nat nu) temp) in
  orthonormal (krylov ++ kept) ->
  get_meaningful_corrections N krylov temp droptol eta nu = Ok (match kept with [] => krylov | _ => kept end).
Proof. exact C50_kept_pf. Qed.
Print Assumptions C50_kept.

Theorem C50_none :
  forall N krylov temp droptol eta nu dim, tall dim krylov -> tall dim temp -> (0 <= droptol)%Qc ->
  0 <= nu <= Z.of_nat (length temp) -> orthonormal krylov ->
  (forall k, (k < Z.to_nat nu)%nat -> (norm N (orthogonal_part krylov (nth k temp [])) <= droptol)%Qc) ->
  get_meaningful_corrections N krylov temp droptol eta nu = Ok krylov.
Proof. exact C50_none_pf. Qed.
Print Assumptions C50_none.

Theorem C50_never_empty :
  forall N krylov temp droptol eta nu r, 0 <= nu <= Z.of_nat (length temp) -> krylov <> [] ->
  get_meaningful_corrections N krylov temp droptol eta nu = Ok r -> r <> [].
Proof. exact C50_never_empty_pf. Qed.
Print Assumptions C50_never_empty.

Theorem C50_eta_unused :
  forall N krylov temp droptol eta eta' nu, 
  get_meaningful_corrections N krylov temp droptol eta nu = get_meaningful_corrections N krylov temp droptol eta' nu.
Proof. exact C50_eta_unused_pf. Qed.
Print Assumptions C50_eta_unused.

(** one correction along the basis is dropped, the other one is made orthogonal and kept *)
Example C50_example :
  let krylov := [[1%Qc; 0%Qc; 0%Qc]] in
  let temp := [[qz 7; 0%Qc; 0%Qc]; [qz 2; qz 3; qz 4]] in
  let kept := kept_corrections (norm ex_numerics) (qfrac 1 1000000) krylov temp in
  tall 3 krylov /\ tall 3 temp /\ map (map this) kept = [[0; 3 # 5; 4 # 5]]%Q /\ orthonormal (krylov ++ kept).
Proof.
  split; [repeat constructor|]. split; [repeat constructor|]. split; [vm_compute; reflexivity|]. apply orthonormalb_ok. vm_compute. reflexivity.
Qed.

Theorem C50_refuted :
  exists N krylov temp droptol eta nu, tall 2 krylov /\ orthonormal krylov /\ tall 2 temp /\ (0 < droptol)%Qc /\ 
  nu = Z.of_nat (length temp) /\ norm_above N /\
  (forall x, In x temp -> norm N x = 0%Qc) /\
  exists r, get_meaningful_corrections N krylov temp droptol eta nu = Ok r /\ r = krylov /\ r <> [].
Proof. exact C50_refuted_pf. Qed.
Print Assumptions C50_refuted.

(** C51 *)
Theorem C51_true_value :
  forall N A nb guess stp tol dim_max vals vects es,
  qr_shape N -> qr_orthonormal N -> eigh_unit N -> norm_above N ->
  square A -> symmetric A -> spectrum A es -> tall (length A) guess -> 0 <= nb -> 0 <= dim_max ->
  (2 <= Z.min nb (if dim_max =? 0 then Z.of_nat (length A) else dim_max) \/ orthonormal guess) ->
  modified_davidson_algorithm N A nb guess stp tol dim_max = Ok (true, vals, vects) ->
  forall k l, nth_error vals k = Some l ->
    (exists x, nth_error vects k = Some x /\ inner x x = 1%Qc) /\
    exists m e, In (m, e) es /\ ((l - m) * (l - m) <= tol * tol)%Qc.
Proof. exact C51_true_value_pf. Qed.
Print Assumptions C51_true_value.

(** a diagonal matrix, its spectrum, and a run *)
Example C51_example :
  let A := [[qz 5; 0%Qc]; [0%Qc; qz 2]] in
  let es := [(qz 5, [1%Qc; 0%Qc]); (qz 2, [0%Qc; 1%Qc])] in
  square A /\ symmetric A /\ spectrum A es /\ tall (length A) [[0%Qc; 1%Qc]] /\ orthonormal [[0%Qc; 1%Qc]] /\
  exists vals vects, modified_davidson_algorithm ex_numerics A 1 [[0%Qc; 1%Qc]] 10 (qfrac 1 1000) 0 = Ok (true, vals, vects) /\ map this vals = [2 # 1]%Q.
Proof.
  split; [repeat constructor|]. split.
  { intros i j Hi Hj. cbn [length] in Hi, Hj. destruct i as [|[|i]]; [| |exfalso; Lia.lia]; (destruct j as [|[|j]]; [| |exfalso; Lia.lia]); reflexivity. }
  split.
  { split.
    - intros l e [I|[I|[]]]; injection I as <- <-; (split; [reflexivity|]); apply PQc.sameql_eq; vm_compute; reflexivity.
    - intros [|a [|b [|c x]]] L; try discriminate L. rewrite !qsum_cons, qsum_nil. unfold inner. cbn [length seq nth snd].
      rewrite !qsum_cons, !qsum_nil. cbn [nth]. ring. }
  split; [repeat constructor|]. split; [apply orthonormalb_ok; vm_compute; reflexivity|].
  eexists. eexists. split; vm_compute; reflexivity.
Qed.

Theorem C51_refuted :
  exists N A guess tol vals vects es, qr_shape N /\ qr_orthonormal N /\ eigh_unit N /\ norm_above N /\
  square A /\ symmetric A /\ spectrum A es /\ tall (length A) guess /\ 
  modified_davidson_algorithm N A 1 guess 1 tol 0 = Ok (true, vals, vects) /\
  (exists l, vals = [l]) /\ (exists x, vects = [x]) /\
  forall l m e, In l vals -> In (m, e) es -> (tol * tol < (l - m) * (l - m))%Qc.
Proof. exact C51_refuted_pf. Qed.
Print Assumptions C51_refuted.

(** C66 *)
Theorem C66_orthonormal :
  forall N V dim, (forall w, norm N w = 0%Qc -> inner w w = 0%Qc) -> tall dim V -> (1 <= dim <= length V)%nat ->
  independent dim (firstn dim V) ->
  exists B, gramSchmidt N dim V = Ok (B ++ repeat (repeat 0%Qc dim) (length V - dim)) /\ length B = dim /\ tall dim B /\
    (forall i j, (i < dim)%nat -> (j < dim)%nat -> i <> j -> inner (nth i B []) (nth j B []) = 0%Qc) /\
    forall k, (k < dim)%nat -> exists w, length w = dim /\ norm N w <> 0%Qc /\ nth k B [] = map (fun e => e / norm N w)%Qc w /\
      combination dim (firstn k B) (map (fun i => nth i (nth k V []) 0 - nth i w 0)%Qc (seq 0 dim)) /\
      (norm N w * norm N w = inner w w -> inner (nth k B []) (nth k B []) = 1)%Qc.
Proof. exact C66_orthonormal_pf. Qed.
Print Assumptions C66_orthonormal.

Theorem C66_narrow :
  forall N V dim, (forall w, norm N w = 0%Qc -> inner w w = 0%Qc) -> tall dim V -> (length V < dim)%nat ->
  independent dim V -> gramSchmidt N dim V = Err IndexError.
Proof. exact C66_narrow_pf. Qed.
Print Assumptions C66_narrow.

Example C66_example : exists B, gramSchmidt ex_numerics 2 [[qz 3; qz 4]; [qz 5; 0%Qc]; [qz 1; qz 1]] = Ok B /\
  map (map this) B = [[3 # 5; 4 # 5]; [4 # 5; -3 # 5]; [0; 0]]%Q.
Proof. eexists. split; vm_compute; reflexivity. Qed.

Example C66_independent : independent 2 [[qz 3; qz 4]; [qz 5; 0%Qc]].
Proof. exact ex_independent. Qed.

(** C67 *)
Theorem C67_returned :
  forall N A stp tol prec v0 fuel l u, qr_shape N -> square A -> length v0 = length A ->
  davidson_algorithm N A stp tol prec v0 fuel = Ok (l, u) ->
  exists l0, (l = l0 \/ l = round_to l0 prec) /\ length u = length A /\ (norm N (opposite (residual A l0 u)) <= tol)%Qc.
Proof. exact C67_returned_pf. Qed.
Print Assumptions C67_returned.

Theorem C67_rounded :
  forall N A stp tol prec v0 fuel l u l1 y, qr_shape N -> square A -> length v0 = length A ->
  eigh N [[inner v0 (image A v0)]] = ([l1], [[y]]) ->
  davidson_algorithm N A stp tol prec v0 fuel = Ok (l, u) ->
  let u1 := map (Qcmult y) v0 in
  ((norm N (opposite (residual A l1 u1)) < tol)%Qc -> l = l1 /\ u = u1) /\
  ((tol <= norm N (opposite (residual A l1 u1)))%Qc ->
   exists l0, l = round_to l0 prec /\ (norm N (opposite (residual A l0 u)) <= tol)%Qc).
Proof. exact C67_rounded_pf. Qed.
Print Assumptions C67_rounded.

(** the value 3.32 of the first vector is returned as it is, or rounded when the norm of its residue is the tolerance *)
Example C67_rounded_example :
  let A := [[qz 3; 1%Qc]; [1%Qc; qz 2]] in
  let v0 := [qfrac 3 5; qfrac 4 5] in
  let found tol := match davidson_algorithm ex_numerics A 10 tol 1 v0 10 with Ok (l, u) => Some (this l, map this u) | Err _ => None end in
  snd (eigh ex_numerics [[inner v0 (image A v0)]]) = [[1%Qc]] /\ map this (fst (eigh ex_numerics [[inner v0 (image A v0)]])) = [83 # 25]%Q /\
  found (qfrac 20 25) = Some (83 # 25, [3 # 5; 4 # 5])%Q /\ found (qfrac 19 25) = Some (33 # 10, [3 # 5; 4 # 5])%Q.
Proof. vm_compute. repeat (split; [reflexivity|]). reflexivity. Qed.

Theorem C67_rounding :
  forall x prec, 0 <= prec -> (qabs (round_to x prec - x) <= 1 / (qz 2 * qz (10 ^ prec)))%Qc.
Proof. exact C67_rounding_pf. Qed.
Print Assumptions C67_rounding.

Theorem C67_decimals :
  forall x prec unit, unit = (if prec <? 0 then qz (10 ^ (- prec)) else 1 / qz (10 ^ prec))%Qc ->
  exists k, round_to x prec = (qz k * unit)%Qc /\ (qabs (x / unit - qz k) <= half)%Qc /\ ((qabs (x / unit - qz k))%Qc = half -> Z.even k = true).
Proof. exact C67_decimals_pf. Qed.
Print Assumptions C67_decimals.

Example C67_decimals_example : map this [round_to (qz 15) (-1); round_to (qz 25) (-1); round_to (qz 26) (-1); round_to (qfrac 1 8) 2; round_to (qfrac 3 8) 2] =
  [20 # 1; 20 # 1; 30 # 1; 3 # 25; 19 # 50]%Q.
Proof. vm_compute. reflexivity. Qed.

Theorem C67_endless :
  forall N A stp tol prec v0 l y, square A -> length v0 = length A -> stp <= 0 ->
  eigh N [[inner v0 (map (fun row => inner row v0) A)]] = ([l], [[y]]) ->
  (forall i, (i < length A)%nat -> nth i (nth i A []) 0%Qc <> l) ->
  (tol < norm N (opposite (residual A l (map (Qcmult y) v0))))%Qc ->
  forall fuel, davidson_algorithm N A stp tol prec v0 fuel = Err OutOfFuel.
Proof. exact C67_endless_pf. Qed.
Print Assumptions C67_endless.

Example C67_example : exists l u, davidson_algorithm ex_numerics [[qz 3; 0%Qc]; [0%Qc; qz 2]] 10 (qfrac 1 1000) 3 [0%Qc; 1%Qc] 10 = Ok (l, u) /\
  this l = (2 # 1)%Q /\ map this u = [0; 1]%Q.
Proof. eexists. eexists. split; [vm_compute; reflexivity | split; vm_compute; reflexivity]. Qed.

Example C67_endless_example :
  let A := [[qz 3; 0%Qc]; [0%Qc; qz 28]] in
  let v0 := [qfrac 3 5; qfrac 4 5] in
  square A /\ length v0 = length A /\ eigh ex_numerics [[inner v0 (map (fun row => inner row v0) A)]] = ([qz 19], [[1%Qc]]) /\
  (forall i, (i < length A)%nat -> nth i (nth i A []) 0%Qc <> qz 19) /\
  (qfrac 1 1000 < norm ex_numerics (opposite (residual A (qz 19) (map (Qcmult 1) v0))))%Qc.
Proof.
  split; [repeat constructor|]. split; [reflexivity|].
  split; [cbn [eigh ex_numerics]; apply f_equal2; [apply sameql_eq; vm_compute; reflexivity | reflexivity]|]. split; [|vm_compute; reflexivity].
  intros i Hi. cbn [length] in Hi. destruct i as [|[|i]]; [vm_compute; discriminate | vm_compute; discriminate | exfalso; Lia.lia].
Qed.
