(** Arithmetic on dims: C55 sums, differences and products, C56 divisions, C57 computed sizes. *)
From Coq Require Import String Ascii.
From Verif Require Import Base ListLemmas DimModel DimSpec DimProofs DimDivProofs DimNameProofs.
Local Open Scope list_scope.
Local Open Scope Z_scope.
Local Notation length := List.length.
Local Open Scope string_scope.

(** ** C55 *)

(** Whatever is computed with +, - and * from dims, in any order and with any state of the caches of earlier results,
    has the size that the same computation on the sizes has. *)
Theorem C55_arithmetic : forall env eqd pick n prog ds ds' st',
  eq_means_size env eqd -> answers_earlier eqd pick -> Forall (proper env) ds -> no_division prog ->
  run eqd pick n prog ds [] = (Ok ds', st') ->
  run_values prog (map (val env) ds) = Some (map (val env) ds').
Proof.
  intros env eqd pick n prog ds ds' st' Heq Hpick Hd Hp H.
  apply (arithmetic_on env eqd pick (fun _ => True) (fun _ => True) n prog ds ds' st'); try assumption; try (intros; exact I).
  - intros o a b. tauto.
  - intros a b _ _. apply Heq.
  - eapply Forall_impl; [|exact Hd]. intros d Pd. split; [exact Pd|exact I].
Qed.
Print Assumptions C55_arithmetic.

(** The hypotheses hold for dims that are compared by identity. *)
Theorem C55_remembered : forall env eqd, (forall a b, same_dim a b = true -> eqd a b = true) ->
  answers_earlier eqd (remember eqd) /\ eq_means_size env same_dim /\ eq_means_same same_dim.
Proof.
  intros env eqd Hr. split; [|split].
  - intros st op a o r H. unfold remember in H.
    match type of H with option_map _ (find ?f st) = _ => destruct (find f st) as [e|] eqn:E end; [|discriminate H].
    cbn [option_map] in H. injection H as <-. apply find_some in E. destruct E as (Hin & E). apply andb_true_iff in E. destruct E as (E & E3).
    apply andb_true_iff in E. destruct E as (E1 & E2). exists e. destruct (mop_eq_dec (e_op e) op) as [Eo|]; [|discriminate E1].
    split; [exact Hin|]. split; [exact Eo|]. split; [apply Hr; exact E2|]. split; [|reflexivity].
    destruct (e_other e) as [x|x], o as [y|y]; try exact E3. cbn in *. apply andb_true_iff in E3. apply E3.
  - intros a b H. unfold same_dim in H. destruct (dim_eq_dec a b) as [-> |]; [reflexivity|discriminate H].
  - intros a b H. unfold same_dim in H. destruct (dim_eq_dec a b) as [-> |]; [reflexivity|discriminate H].
Qed.
Print Assumptions C55_remembered.

(** The equality of dims: apart from batch dims and auto generated dims, only the same dim is equal. *)
Theorem C55_equality : forall a b, dim_eq a b = true ->
  a = b \/ (is_batch a = true /\ is_batch b = true) \/ (auto a = true /\ auto b = true /\ desc a = desc b).
Proof.
  intros a b H. unfold dim_eq, eq_simple in H. apply orb_true_iff in H. destruct H as [H|H].
  - apply orb_true_iff in H. destruct H as [H|H].
    + left. unfold same_dim in H. destruct (dim_eq_dec a b); [assumption|discriminate H].
    + right. left. apply andb_true_iff in H. exact H.
  - right. right. apply andb_true_iff in H. destruct H as (H & H3). apply andb_true_iff in H. destruct H as (H1 & H2).
    split; [exact H1|split; [exact H2|apply String.eqb_eq; exact H3]].
Qed.
Print Assumptions C55_equality.

(** With distinguishable names, dims that compare equal have the same size, and the arithmetic is right with the
    equality of the library, whichever of the earlier results are remembered. *)
Theorem C55_equal_size : forall env vars a b, well_named vars -> over vars a -> over vars b -> dim_eq a b = true -> val env a = val env b.
Proof. intros env vars a b Hv Ha Hb H. pose proof (dim_eq_determines vars Hv env a b Ha Hb H) as E. injection E as E _. exact E. Qed.
Print Assumptions C55_equal_size.

Theorem C55_distinct_names : forall env pick n prog vars ds ds' st',
  well_named vars -> answers_earlier dim_eq pick -> Forall (over vars) ds -> Forall (proper env) ds -> no_division prog ->
  run dim_eq pick n prog ds [] = (Ok ds', st') ->
  run_values prog (map (val env) ds) = Some (map (val env) ds').
Proof.
  intros env pick n prog vars ds ds' st' Hv Hpick Ho Hd Hp H.
  apply (arithmetic_on env dim_eq pick (over vars) (fun k => k <> Some KBatch) n prog ds ds' st'); try assumption.
  - intros k z Hk. exact Hk.
  - discriminate.
  - intros d. apply over_kind. exact Hv.
  - intros o a b. cbn [over]. tauto.
  - intros a b Ha Hb. apply (C55_equal_size env vars); assumption.
  - apply Forall_forall. intros d Hin. rewrite Forall_forall in Hd, Ho. split; auto.
Qed.
Print Assumptions C55_distinct_names.

(** Dims of the examples, and expressions. *)
Definition ex_a := Var 0 "a" (Some KSpatial) None.
Definition ex_b := Var 1 "b" (Some KSpatial) None.
Definition ex_batch := Var 9 "batch" (Some KBatch) None.
Definition ex_in1 := Var 2 "in" (Some KFeature) (Some 10).
Definition ex_in2 := Var 3 "in" (Some KFeature) (Some 22).
Definition ex_op op a b : M dim := dim_op dim_eq (remember dim_eq) 20 op a b.
Definition ex_dd op x y : M dim := do p <- x; do q <- y; ex_op op p (ODim q).
Definition ex_di op x z : M dim := do p <- x; ex_op op p (OInt z).
Definition ex_eq (x y : M dim) : option bool := match (do p <- x; do q <- y; ret (dim_eq p q)) [] with (Ok b, _) => Some b | _ => None end.
Definition ex_add := ex_dd (CAdd false).
Definition ex_sub := ex_dd (CSub false).
Definition ex_mul := ex_dd (CMul false).
Definition ex_fdiv := ex_dd (CDiv Floor false).
Definition ex_ldiv := ex_dd (CDiv Exact true).
Definition ex_addi := ex_di (CAdd false).
Definition ex_iadd z x := ex_di (CAdd true) x z.
Definition ex_subi := ex_di (CSub false).
Definition ex_muli := ex_di (CMul false).
Definition ex_imul z x := ex_di (CMul true) x z.
Definition ex_fdivi := ex_di (CDiv Floor false).
Definition ex_cdivi := ex_di (CDiv Ceil false).

(** tests/test_TFUtil.py, test_dim_math_basics, test_dim_math_double_neg, test_dim_math_mul_div, test_dim_math_div,
    test_dim_math_div_mul, test_dim_math_div_div, test_dim_math_static_self_att_example, test_dim_math_feat_last,
    test_dim_math_static_add_mul, test_dim_math_pad_conv_valid *)
Example dim_math_basics : let a := ret ex_a in let b := ret ex_b in
  [ex_eq (ex_subi (ex_addi a 2) 2) a; ex_eq (ex_add a b) (ex_add a b); ex_eq (ex_add a b) (ex_add b a);
   ex_eq (ex_mul a b) (ex_mul a b); ex_eq (ex_mul a b) (ex_mul b a); ex_eq (ex_imul 2 a) (ex_add a a);
   ex_eq (ex_muli a 2) (ex_imul 2 a); ex_eq (ex_add (ex_imul 2 a) b) (ex_add (ex_add a a) b);
   ex_eq (ex_sub (ex_add a b) b) a; ex_eq (ex_add (ex_sub (ex_add a (ex_imul 2 b)) b) (ex_imul (-1) b)) a;
   ex_eq (ex_add (ex_mul a b) b) (ex_mul (ex_addi a 1) b); ex_eq (ex_muli (ex_add a b) 2) (ex_add (ex_muli a 2) (ex_muli b 2));
   ex_eq (ex_addi (ex_iadd 0 a) 0) a; ex_eq (ex_imul (-1) (ex_imul (-1) a)) a]
  = map Some [true; true; false; true; false; true; false; true; true; true; true; true; true; true].
Proof. vm_compute. reflexivity. Qed.
Example dim_math_div : let a := ret ex_a in let b := ret ex_b in
  let c := ret (Var 2 "c" (Some KSpatial) (Some 14)) in let d := ret (Var 3 "d" (Some KSpatial) (Some 10)) in
  let a' := ret (Var 4 "a" (Some KFeature) (Some 10)) in let b' := ret (Var 5 "b" (Some KFeature) (Some 2)) in
  let c' := ret (Var 6 "c" (Some KSpatial) None) in
  [ex_eq (ex_fdiv (ex_mul a b) b) a; ex_eq (ex_fdiv (ex_mul b a) b) a; ex_eq (ex_ldiv (ex_mul b a) b) a;
   ex_eq (ex_add (ex_fdivi a 2) (ex_fdivi b 2)) (ex_fdivi (ex_add a b) 2); ex_eq (ex_add (ex_fdivi c 2) (ex_fdivi d 2)) (ex_fdivi (ex_add c d) 2);
   ex_eq (ex_mul (ex_fdiv a' b') b') a'; ex_eq (ex_mul b' (ex_ldiv a' b')) a'; ex_eq (ex_mul (ex_fdiv c' b') b') c';
   ex_eq (ex_cdivi (ex_cdivi a 2) 3) (ex_cdivi a 6)]
  = map Some [true; false; true; false; true; true; true; false; true].
Proof. vm_compute. reflexivity. Qed.
Example dim_math_self_att :
  let heads := ret (Var 0 "num_heads" (Some KSpatial) (Some 2)) in let key := ret (Var 1 "key_dim_total" (Some KFeature) (Some 6)) in
  let value := ret (Var 2 "value_dim_total" (Some KFeature) (Some 10)) in
  let qkv := ex_add (ex_imul 2 key) value in
  let qkv_per := ex_add (ex_imul 2 (ex_fdiv key heads)) (ex_fdiv value heads) in
  let qkv_per' := ex_add (ex_imul 2 (ex_ldiv key heads)) (ex_ldiv value heads) in
  [ex_eq (ex_add (ex_add key key) value) qkv; ex_eq (ex_mul (ex_fdiv key heads) heads) key; ex_eq (ex_mul qkv_per heads) qkv;
   ex_eq (ex_mul heads (ex_ldiv key heads)) key; ex_eq (ex_mul heads qkv_per') qkv;
   ex_eq (ex_di (CSub true) (ex_subi (ex_addi (ex_iadd 2 (ret ex_a)) 2) 2) 2) (ret ex_a)]
  = map Some [true; true; true; true; true; true].
Proof. vm_compute. reflexivity. Qed.

(** A program with cancellation: ((a + b) * 2 - b) * a, and its sizes. *)
Example C55_program : exists ds' st',
  let prog := [{| s_op := CAdd false; s_self := 0; s_arg := ARef 1 |}; {| s_op := CMul false; s_self := 2; s_arg := AInt 2 |};
               {| s_op := CSub false; s_self := 3; s_arg := ARef 1 |}; {| s_op := CMul false; s_self := 4; s_arg := ARef 0 |}]%nat in
  no_division prog /\
  run same_dim (remember same_dim) 20 prog [ex_a; ex_b] [] = (Ok ds', st') /\
  map desc ds' = ["a"; "b"; "a+b"; "(a+b)*2"; "((a+b)*2)+(-1*b)"; "(((a+b)*2)+(-1*b))*a"]
  /\ map (val (fun i => Z.of_nat i + 3)) ds' = [3; 4; 7; 14; 10; 30].
Proof.
  eexists _, _. cbv zeta. split; [repeat constructor|]. split; [vm_compute; reflexivity|]. vm_compute. split; reflexivity.
Qed.

(** The same with the equality of the library, and with constants and static dims: the third result is an auto
    generated dim that is found again as the fourth, (x + 2 + a) * 3 follows. *)
Example C55_named_program : exists ds' st',
  let x := Var 2 "x-1" (Some KFeature) (Some 10) in
  let prog := [{| s_op := CAdd true; s_self := 2; s_arg := AInt 2 |}; {| s_op := CAdd true; s_self := 2; s_arg := AInt 2 |};
               {| s_op := CSub false; s_self := 3; s_arg := ARef 4 |}; {| s_op := CAdd false; s_self := 3; s_arg := ARef 0 |};
               {| s_op := CMul false; s_self := 6; s_arg := AInt 3 |}]%nat in
  well_named [ex_a; ex_b; x] /\ Forall (over [ex_a; ex_b; x]) [ex_a; ex_b; x] /\ no_division prog /\
  run dim_eq (remember dim_eq) 20 prog [ex_a; ex_b; x] [] = (Ok ds', st') /\
  map desc ds' = ["a"; "b"; "x-1"; "2+(x-1)"; "2+(x-1)"; "((2+(x-1))+-2)+(-1*(x-1))"; "(2+(x-1))+a"; "((2+(x-1))+a)*3"]
  /\ map auto ds' = [false; false; false; true; true; true; false; false]
  /\ map (val (fun i => Z.of_nat i + 3)) ds' = [3; 4; 10; 12; 12; 0; 15; 45].
Proof.
  eexists _, _. cbv zeta. split; [|split; [|split; [repeat constructor|]]].
  - split; [repeat constructor|]. intros a b Ha Hb. cbn in Ha, Hb. destruct Ha as [<- |[<- |[<- |[]]]], Hb as [<- |[<- |[<- |[]]]]; intros E; try reflexivity; discriminate E.
  - repeat apply Forall_cons; try apply Forall_nil; cbn; tauto.
  - split; [vm_compute; reflexivity|]. vm_compute. repeat split.
Qed.

(** Refuted for batch dims: two dims of the batch kind are equal, and a number next to a batch dim becomes one, so
    [batch + 2] is the constant 0 and [batch // 2] is 1. *)
Theorem C55_batch_refuted : exists d d', fst (ex_op (CAdd false) ex_batch (OInt 2) []) = Ok d /\ fst (ex_op (CDiv Floor false) ex_batch (OInt 2) []) = Ok d'
  /\ forall env, 0 <= env 9%nat -> val env d <> val env ex_batch + 2 /\ (4 <= env 9%nat -> val env d' <> val env ex_batch / 2).
Proof.
  eexists _, _. split; [vm_compute; reflexivity|]. split; [vm_compute; reflexivity|]. intros env H. cbn [val ex_batch]. split; [lia|].
  intros H4 E. pose proof (Z.div_le_lower_bound (env 9%nat) 2 2). lia.
Qed.
Print Assumptions C55_batch_refuted.

(** Refuted for different dims with the same name: with [in1] of size 10 and [in2] of size 22, both named "in", the
    dims [(2 + in1) // 3] and [(2 + in2) // 3] compare equal, and their difference is 0. *)
Theorem C55_same_name_refuted : exists x y d, (do p <- ex_fdivi (ex_iadd 2 (ret ex_in1)) 3; do q <- ex_fdivi (ex_iadd 2 (ret ex_in2)) 3;
    do r <- ex_op (CSub false) q (ODim p); ret (p, q, r)) [] = (Ok (x, y, d), snd ((do p <- ex_fdivi (ex_iadd 2 (ret ex_in1)) 3; do q <- ex_fdivi (ex_iadd 2 (ret ex_in2)) 3;
    do r <- ex_op (CSub false) q (ODim p); ret (p, q, r)) [])) /\ dim_eq x y = true /\ same_hash x y = false
  /\ size x = Some 4 /\ size y = Some 8 /\ size d = Some 0.
Proof. eexists _, _, _. split; [vm_compute; reflexivity|]. vm_compute. repeat split. Qed.
Print Assumptions C55_same_name_refuted.

(** ** C56 *)

(** With divisions as well: provided that in each division the dividend is a sum of terms that are divisions or free
    of divisions, with no division twice, and the factors of the divisor are positive. *)
Theorem C56_division : forall env eqd pick n prog ds ds' st',
  eq_means_same eqd -> answers_earlier eqd pick -> Forall (proper env) ds ->
  run eqd pick n prog ds [] = (Ok ds', st') -> divisions_ok eqd env prog ds' ->
  run_values prog (map (val env) ds) = Some (map (val env) ds').
Proof.
  intros env eqd pick n prog ds ds' st' Heq Hpick Hd H Hok.
  apply (division_on env eqd pick (fun _ => True) (fun _ => True) n prog ds ds' st'); try assumption; try (intros; exact I).
  - intros o a b. tauto.
  - intros a b _ _ E. rewrite (Heq a b E). reflexivity.
  - eapply Forall_impl; [|exact Hd]. intros d Pd. split; [exact Pd|exact I].
  - intros a b _ _ E. rewrite (Heq a b E). reflexivity.
Qed.
Print Assumptions C56_division.

Theorem C56_distinct_names : forall env pick n prog vars ds ds' st',
  well_named vars -> answers_earlier dim_eq pick -> Forall (over vars) ds -> Forall (proper env) ds ->
  run dim_eq pick n prog ds [] = (Ok ds', st') -> divisions_ok dim_eq env prog ds' ->
  run_values prog (map (val env) ds) = Some (map (val env) ds').
Proof.
  intros env pick n prog vars ds ds' st' Hv Hpick Ho Hd H Hok.
  apply (division_on env dim_eq pick (over vars) (fun k => k <> Some KBatch) n prog ds ds' st'); try assumption.
  - intros k z Hk. exact Hk.
  - discriminate.
  - intros d. apply over_kind. exact Hv.
  - intros o a b. cbn [over]. tauto.
  - intros a b Ha Hb. apply (C55_equal_size env vars); assumption.
  - apply Forall_forall. intros d Hin. rewrite Forall_forall in Hd, Ho. split; auto.
  - intros a b Ha Hb E. pose proof (dim_eq_determines vars Hv env a b Ha Hb E) as F. injection F as _ F.
    rewrite !(has_div_no_div env), F. reflexivity.
Qed.
Print Assumptions C56_distinct_names.

(** Convolution sizes: ceildiv(a + 4 - 2, 2), then // 3, then (x - 1) // 2, then the sum with b. *)
Example C56_program : exists ds' st',
  let prog := [{| s_op := CAdd true; s_self := 0; s_arg := AInt 2 |}; {| s_op := CAdd false; s_self := 2; s_arg := AInt 2 |};
               {| s_op := CSub false; s_self := 3; s_arg := AInt 3 |}; {| s_op := CDiv Ceil false; s_self := 4; s_arg := AInt 2 |};
               {| s_op := CDiv Ceil false; s_self := 5; s_arg := AInt 3 |}; {| s_op := CSub false; s_self := 6; s_arg := AInt 1 |};
               {| s_op := CDiv Floor false; s_self := 7; s_arg := AInt 2 |}; {| s_op := CAdd false; s_self := 8; s_arg := ARef 1 |}]%nat in
  run same_dim (remember same_dim) 20 prog [ex_a; ex_b] [] = (Ok ds', st') /\
  divisions_ok same_dim (fun i => Z.of_nat i + 30) prog ds'
  /\ map (val (fun i => Z.of_nat i + 30)) ds' = [30; 31; 32; 34; 31; 16; 6; 5; 2; 33].
Proof.
  eexists _, _. cbv zeta. split; [vm_compute; reflexivity|]. split; [|vm_compute; reflexivity].
  unfold divisions_ok. repeat apply Forall_cons; [..|apply Forall_nil]; try exact I;
    cbn [s_op s_self s_arg nth_error operand_at]; (split; [split; cbn [summands app filter is_quot]; [repeat (split || constructor)|repeat apply Forall_cons; try apply Forall_nil; cbn; (left; tauto) || (right; reflexivity)]|split; [cbn; lia|intros E; discriminate E]]).
Qed.

(** Refuted in general: [(2 * (a // 2)) // 2] becomes [2 * (a // 4)], and rounding up goes wrong in the same way. *)
Theorem C56_product_refuted : exists d d', fst (ex_fdivi (ex_imul 2 (ex_fdivi (ret ex_a) 2)) 2 []) = Ok d
  /\ fst (ex_cdivi (ex_imul 2 (ex_cdivi (ret ex_a) 2)) 2 []) = Ok d'
  /\ (exists env, val env ex_a = 7 /\ val env d = 2 /\ (2 * (7 / 2)) / 2 = 3)
  /\ (exists env, val env ex_a = 5 /\ val env d' = 4 /\ divide Ceil (2 * divide Ceil 5 2) 2 = 3).
Proof.
  eexists _, _. split; [vm_compute; reflexivity|]. split; [vm_compute; reflexivity|].
  split; [exists (fun _ => 7)|exists (fun _ => 5)]; vm_compute; repeat split.
Qed.
Print Assumptions C56_product_refuted.

(** ** C57 *)

(** The size that is computed for a sequence is the size that the dim stands for, if no sum in it is negative. *)
Theorem C57_dyn_size : forall env d, sums_nonneg env d -> dyn_size env d = val env d.
Proof. exact dyn_size_val. Qed.
Print Assumptions C57_dyn_size.

(** The size of a tensor axis is the largest of the sizes of the sequences, for dims that are derived from one dynamic
    dim with numbers. *)
Theorem C57_dim_value : forall envs d, envs <> [] -> Forall (fun env => forall i, 0 <= env i) envs -> one_source d ->
  dim_value envs d = max_list (map (fun env => dyn_size env d) envs).
Proof. exact dim_value_max. Qed.
Print Assumptions C57_dim_value.
Example C57_conv : let d := Der OAdd (Der (ODiv Ceil true) (Der OAdd ex_a (Const None 3)) (Const None 2)) (Const None (-1)) in
  one_source d /\ sums_nonneg (fun _ => 10) d /\ dim_value [fun _ => 10; fun _ => 4] d = 6
  /\ map (fun env => dyn_size env d) [fun _ => 10; fun _ => 4] = [6; 3].
Proof.
  split; [cbn; left; split; [split; [left; split; [reflexivity|discriminate]|exists 2; split; [reflexivity|lia]]|discriminate]|].
  split; [vm_compute; intuition congruence|]. split; reflexivity.
Qed.

(** Refuted: with a negative intermediate sum that the user does not see the sizes come out wrong. For b = 10 and a = 4
    the dim made by [b.sub_left(a).sub_left(3)] stands for 3, all sizes of the steps are positive, 10 is computed. *)
Theorem C57_clipped_refuted : exists d, fst (ex_di (CSub true) (ex_dd (CSub true) (ret ex_b) (ret ex_a)) 3 []) = Ok d
  /\ exists env, env 1%nat = 10 /\ env 0%nat = 4 /\ val env d = 3 /\ dyn_size env d = 10.
Proof. eexists. split; [vm_compute; reflexivity|]. exists (fun i => match i with O => 4 | _ => 10 end). vm_compute. repeat split. Qed.
Print Assumptions C57_clipped_refuted.

(** Refuted: the size of the axis of [10 - a] for sequences of length 3 and 7 is 3, the sizes are 7 and 3. The size of
    the axis of [a + b] is too large if the longest sequences are different ones. *)
Theorem C57_axis_refuted : exists d d', fst (ex_addi (ex_imul (-1) (ret ex_a)) 10 []) = Ok d /\ fst (ex_add (ret ex_a) (ret ex_b) []) = Ok d' /\
  exists envs, Forall (fun env => 0 <= env 0%nat <= 10 /\ 0 <= env 1%nat) envs /\
    map (fun env => dyn_size env d) envs = [7; 3] /\ dim_value envs d = 3 /\
    map (fun env => dyn_size env d') envs = [8; 9] /\ dim_value envs d' = 12.
Proof.
  eexists _, _. split; [vm_compute; reflexivity|]. split; [vm_compute; reflexivity|].
  exists [fun i => match i with O => 3 | _ => 5 end; fun i => match i with O => 7 | _ => 2 end].
  split; [repeat constructor; lia|]. vm_compute. repeat split.
Qed.
Print Assumptions C57_axis_refuted.
