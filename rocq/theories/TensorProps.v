(** C84-C85: elementwise operations on tensors with named dims, and on a tensor and a number. *)
From Coq Require Import Permutation Sorted Lia.
From Verif Require Import Base ListLemmas TensorModel TensorSpec TensorProofs.
Local Open Scope nat_scope.

(** The python variant: by the names of the dims, in whatever order the axes of both are. *)
Theorem C84_combine : forall size op a b allow order, well size a -> well size b -> one_has_all a b \/ allow = Some true ->
  exists r, combine_tensors op a b allow order = Ok r /\ elementwise size op a b r.
Proof. intros size op a b allow order Ha Hb H. destruct (combine_ok size op a b allow order Ha Hb H) as (r & E & Hr & _). eauto. Qed.
Print Assumptions C84_combine.

Theorem C84_rejected : forall size op a b allow order, well size a -> well size b -> ~ one_has_all a b -> allow <> Some true ->
  combine_tensors op a b allow order = Err ValueError.
Proof. exact combine_rejected. Qed.
Print Assumptions C84_rejected.

(** The dims are in the given order. *)
Theorem C84_order : forall size op a b allow order r, well size a -> well size b -> combine_tensors op a b allow (Some order) = Ok r ->
  ordered order (dims r).
Proof.
  intros size op a b allow order r Ha Hb H.
  assert (Hd : dims r = sorted_dims order (all_dims (dims a) (dims b))); [|rewrite Hd; apply sorted_dims_ordered].
  unfold combine_tensors in H. destruct (negb _ && _ && _); [discriminate|]. apply bind_Ok in H as (ra & _ & H). apply bind_Ok in H as (rb & _ & H). apply bind_Ok in H as (x & _ & H). injection H as <-. reflexivity.
Qed.
Print Assumptions C84_order.

(** Without an order: the dims of the first one, then the other dims of the second one. *)
Theorem C84_default_order : forall size op a b allow r, well size a -> well size b -> combine_tensors op a b allow None = Ok r ->
  exists more, dims r = dims a ++ more /\ incl more (dims b).
Proof.
  intros size op a b allow r Ha Hb H. assert (Hd : dims r = sorted_dims [] (all_dims (dims a) (dims b))).
  { unfold combine_tensors in H. destruct (negb _ && _ && _); [discriminate|]. apply bind_Ok in H as (ra & _ & H). apply bind_Ok in H as (rb & _ & H). apply bind_Ok in H as (x & _ & H). injection H as <-. reflexivity. }
  rewrite sorted_dims_none in Hd. rewrite Hd. apply all_dims_more; [apply Ha|apply Hb].
Qed.
Print Assumptions C84_default_order.

(** The native variant. *)
Theorem C84_native : forall size op a b allow order, well size a -> well size b ->
  exists r, native_combine op a b allow order = Ok r /\ elementwise size op a b r.
Proof. intros size op a b allow order Ha Hb. destruct (native_ok size op a b allow order Ha Hb) as (r & E & Hr & _). eauto. Qed.
Print Assumptions C84_native.

Theorem C84_native_order : forall size op a b allow order r, well size a -> well size b -> native_combine op a b allow (Some order) = Ok r ->
  ordered order (dims r).
Proof.
  intros size op a b allow order r Ha Hb H. destruct (native_ok size op a b allow (Some order) Ha Hb) as (r' & E & Hr & Ho). assert (r' = r) by congruence. subst r'.
  exact (native_ordered size op a b order r Ha Hb Hr Ho).
Qed.
Print Assumptions C84_native_order.

(** Both give the same entries at the same indices. *)
Theorem C84_native_agrees : forall size op a b allow order allow' order' r n, well size a -> well size b ->
  combine_tensors op a b allow order = Ok r -> native_combine op a b allow' order' = Ok n ->
  Permutation (bases (dims r)) (bases (dims n)) /\ forall env, inside size env (dims r) -> value r env = value n env.
Proof.
  intros size op a b allow order allow' order' r n Ha Hb Er En. destruct (native_ok size op a b allow' order' Ha Hb) as (n' & E & (Hwn & Hin & Hvn) & _). assert (n' = n) by congruence. subst n'.
  assert (Hc : one_has_all a b \/ allow = Some true) by (apply (combine_accepts size op a b allow order r); assumption).
  destruct (combine_ok size op a b allow order Ha Hb Hc) as (r' & E' & (Hwr & Hir & Hvr) & _). assert (r' = r) by congruence. subst r'.
  assert (HP : Permutation (bases (dims r)) (bases (dims n))). { apply NoDup_Permutation; [apply Hwr|apply Hwn|]. intros c. rewrite Hin, Hir. reflexivity. }
  split; [exact HP|]. intros env He. rewrite Hvr by exact He. symmetry. apply Hvn. unfold inside in *. eapply Permutation_Forall; eassumption.
Qed.
Print Assumptions C84_native_agrees.

(** The permutation to given dims is as documented, also if a dim occurs several times; and it finds the identical dims. *)
Theorem C84_permutation : forall own ds p, out_permutation own ds = Ok p -> a_permutation own ds p.
Proof. exact out_permutation_spec. Qed.
Print Assumptions C84_permutation.

Theorem C84_permutation_found : forall own ds, NoDup (bases own) -> NoDup (bases ds) -> incl (bases own) (bases ds) ->
  exists p, out_permutation own ds = Ok p.
Proof. exact out_permutation_complete. Qed.
Print Assumptions C84_permutation_found.

Theorem C84_permutation_identical : forall own ds, NoDup own -> Permutation ds own ->
  exists p, out_permutation own ds = Ok p /\ Forall2 (fun o d => exists j, o = Some j /\ nth_error own j = Some d) p ds.
Proof. exact permutation_exact. Qed.
Print Assumptions C84_permutation_identical.

Theorem C84_native_permutation : forall own ds p, native_permutation own ds = Ok p -> a_permutation own ds p.
Proof. intros own ds p. exact (native_permutation_spec (fun _ => 0) own ds p). Qed.
Print Assumptions C84_native_permutation.

(** Examples, and what does not hold. *)
Definition dimB : dim := {| d_base := 0; d_copy := 0; d_prio := 0 |}.
Definition dimT : dim := {| d_base := 1; d_copy := 0; d_prio := 0 |}.
Definition dimF : dim := {| d_base := 2; d_copy := 0; d_prio := 0 |}.
Definition ex_size (d : nat) : nat := match d with 0 => 2 | 1 => 3 | _ => 2 end.
Definition ex_bt : tensor := {| dims := [dimB; dimT]; traw := {| shape := [2; 3]; data := [1; 2; 3; 4; 5; 6]%Z |} |}.
Definition ex_tb : tensor := {| dims := [dimT; dimB]; traw := {| shape := [3; 2]; data := [10; 40; 20; 50; 30; 60]%Z |} |}.
Definition ex_t : tensor := {| dims := [dimT]; traw := {| shape := [3]; data := [100; 200; 300]%Z |} |}.
Definition ex_f : tensor := {| dims := [dimF]; traw := {| shape := [2]; data := [7; 8]%Z |} |}.
Example C84_ex_well : well ex_size ex_bt /\ well ex_size ex_tb /\ well ex_size ex_t /\ well ex_size ex_f /\ one_has_all ex_bt ex_tb /\ one_has_all ex_t ex_bt /\ ~ one_has_all ex_t ex_f.
Proof.
  repeat split; try (repeat constructor; cbn; lia).
  - left. intros c H. cbn in *. tauto.
  - left. intros c H. cbn in *. tauto.
  - intros [H|H]; [specialize (H 1 (or_introl eq_refl)); cbn in H; lia|specialize (H 2 (or_introl eq_refl)); cbn in H; lia].
Qed.
Example C84_ex_transposed : combine_tensors Z.add ex_bt ex_tb None None = Ok {| dims := [dimB; dimT]; traw := {| shape := [2; 3]; data := [11; 22; 33; 44; 55; 66]%Z |} |}.
Proof. reflexivity. Qed.
Example C84_ex_broadcast : combine_tensors Z.add ex_bt ex_t None (Some [dimT]) = Ok {| dims := [dimT; dimB]; traw := {| shape := [3; 2]; data := [101; 104; 202; 205; 303; 306]%Z |} |}.
Proof. reflexivity. Qed.
Example C84_ex_outer : combine_tensors Z.mul ex_t ex_f (Some true) None = Ok {| dims := [dimT; dimF]; traw := {| shape := [3; 2]; data := [700; 800; 1400; 1600; 2100; 2400]%Z |} |} /\
  combine_tensors Z.mul ex_t ex_f None None = Err ValueError.
Proof. split; reflexivity. Qed.

(** [allow_broadcast_all_sources=False] is ignored by the native variant: the outer product is computed. *)
Theorem C84_native_rejected_refuted : exists size a b, well size a /\ well size b /\ ~ one_has_all a b /\
  combine_tensors Z.mul a b (Some false) None = Err ValueError /\ exists r, native_combine Z.mul a b false None = Ok r.
Proof.
  exists ex_size, ex_t, ex_f. pose proof C84_ex_well. split; [tauto|]. split; [tauto|]. split; [tauto|]. split; [reflexivity|]. eexists. reflexivity.
Qed.
Print Assumptions C84_native_rejected_refuted.

(** The order of the dims depends on the variant. *)
Theorem C84_native_same_order_refuted : exists size a b r n, well size a /\ well size b /\
  combine_tensors Z.add a b None None = Ok r /\ native_combine Z.add a b false None = Ok n /\ bases (dims r) = [1; 0] /\ bases (dims n) = [0; 1].
Proof.
  exists ex_size, ex_t, ex_bt. pose proof C84_ex_well. do 2 eexists. split; [tauto|]. split; [tauto|]. split; [reflexivity|]. split; [reflexivity|]. split; reflexivity.
Qed.
Print Assumptions C84_native_same_order_refuted.

(** With a dim twice (a square matrix), both variants take another axis: [copy] has a higher priority, as the input dim of a weight. *)
Definition dimD : dim := {| d_base := 3; d_copy := 0; d_prio := 0 |}.
Definition dimD' : dim := {| d_base := 3; d_copy := 1; d_prio := 1 |}.
Definition ex_sq : tensor := {| dims := [dimD'; dimD]; traw := {| shape := [2; 2]; data := [1; 2; 3; 4]%Z |} |}.
Definition ex_d : tensor := {| dims := [dimD]; traw := {| shape := [2]; data := [10; 20]%Z |} |}.
Theorem C84_native_square_refuted : exists a b r n,
  combine_tensors Z.add a b None None = Ok r /\ native_combine Z.add a b false None = Ok n /\ dims r = dims n /\
  data (traw r) = [11; 12; 23; 24]%Z /\ data (traw n) = [11; 22; 13; 24]%Z.
Proof. exists ex_sq, ex_d. do 2 eexists. split; [reflexivity|]. split; [reflexivity|]. split; [reflexivity|]. split; reflexivity. Qed.
Print Assumptions C84_native_square_refuted.

(** With a dim twice in the second one after other dims, the native variant has an error. *)
Theorem C84_native_twice_refuted : exists a b r, combine_tensors Z.add a b (Some true) None = Ok r /\ native_combine Z.add a b true None = Err OtherException.
Proof.
  exists ex_t, {| dims := [dimB; dimD; dimD']; traw := {| shape := [2; 2; 2]; data := [1; 2; 3; 4; 5; 6; 7; 8]%Z |} |}. eexists. split; reflexivity.
Qed.
Print Assumptions C84_native_twice_refuted.

(** tests/test_torch_frontend.py 892-923 *)
Example C84_ex_priority :
  let x := {| dims := [dimD'; dimD]; traw := {| shape := [2; 2]; data := [0; 1; 2; 3]%Z |} |} in
  let y := {| dims := [dimD; dimD']; traw := {| shape := [2; 2]; data := [0; 2; 1; 3]%Z |} |} in
  compatible_raw x [dimD'; dimD] = Ok (traw x) /\ compatible_raw x [dimD; dimD'] = Ok (traw y) /\
  compatible_raw y [dimD; dimD'] = Ok (traw y) /\ compatible_raw y [dimD'; dimD] = Ok (traw x).
Proof. repeat split. Qed.

Local Open Scope Z_scope.
(** A tensor and a number: the operation on each element, also where the code takes a shortcut. *)
Theorem C85_right : forall k a n, ~ (In k [KTrueDiv; KAnd; KOr] \/ k = KPow /\ n = -1) -> each_right k a n (combine_right k a n).
Proof. intros k a n H l. rewrite (right_same k a n H). apply each_of. Qed.
Print Assumptions C85_right.

Theorem C85_left : forall k n b, ~ (In k [KTrueDiv; KAnd; KOr] \/ k = KPow /\ n = 1 \/ k = KSub /\ n = 0) -> each_left k n b (combine_left k n b).
Proof. intros k n b H l. rewrite (left_same k n b H). apply each_of. Qed.
Print Assumptions C85_left.

Theorem C85_native : forall k a n, k <> KTrueDiv -> each_right k a n (native_right k a n) /\ each_left k n a (native_left k n a).
Proof. intros k a n H. split; intros l; [rewrite (native_right_same k a n H)|rewrite (native_left_same k n a H)]; apply each_of. Qed.
Print Assumptions C85_native.

(** Logical operations, for tensors of booleans. *)
Theorem C85_logical_and : forall a n, Forall (fun x => x = 0 \/ x = 1) a -> each_right KAnd a n (combine_right KAnd a n) /\ each_left KAnd n a (combine_left KAnd n a).
Proof. intros a n H. rewrite (and_right a n H), (and_left n a H). split; apply C85_native; discriminate. Qed.
Print Assumptions C85_logical_and.

Theorem C85_logical_or : forall a, each_right KOr a 0 (combine_right KOr a 0) /\ each_left KOr 0 a (combine_left KOr 0 a).
Proof. intros a. rewrite or_right_0, or_left_0. split; apply C85_native; discriminate. Qed.
Print Assumptions C85_logical_or.

(** Dividing integers is refused, but for the numbers where the quotient is an integer again. *)
Theorem C85_division : forall a n l, combine_right KTrueDiv a n = Ok (Elements l) -> Forall2 (fun x q => q * n = x) a l.
Proof. exact truediv_right. Qed.
Print Assumptions C85_division.

Example C85_ex : combine_right KFloorDiv [7; -7] (-1) = Ok (Elements [-7; 7]) /\ combine_right KFloorDiv [7; -7] 2 = Ok (Elements [3; -4]) /\
  combine_left KSub 1 [5; 7] = Ok (Elements [-4; -6]) /\ combine_right KTrueDiv [5; 7] (-1) = Ok (Elements [-5; -7]) /\ combine_right KTrueDiv [5; 7] 2 = Err ValueError.
Proof. repeat split. Qed.

(** [0 - x] is [x]. *)
Theorem C85_zero_minus_refuted : exists b, combine_left KSub 0 b = Ok (Elements [3; 5]) /\ native_left KSub 0 b = Ok (Elements [-3; -5]).
Proof. exists [3; 5]. split; reflexivity. Qed.
Print Assumptions C85_zero_minus_refuted.

(** [x ** -1] is [-x]. *)
Theorem C85_power_refuted : exists a, combine_right KPow a (-1) = Ok (Elements [-2]) /\ native_right KPow a (-1) = Err OtherException.
Proof. exists [2]. split; reflexivity. Qed.
Print Assumptions C85_power_refuted.

(** [1 ** x] is a number, not a tensor. *)
Theorem C85_one_power_refuted : exists b, combine_left KPow 1 b = Ok (Number 1) /\ native_left KPow 1 b = Ok (Elements [1; 1]).
Proof. exists [3; 5]. split; reflexivity. Qed.
Print Assumptions C85_one_power_refuted.

(** [x or True] is [x]. *)
Theorem C85_logical_or_refuted : exists a, combine_right KOr a 1 = Ok (Elements [0; 1]) /\ combine_left KOr 1 a = Ok (Elements [0; 1]) /\
  native_right KOr a 1 = Ok (Elements [1; 1]) /\ native_left KOr 1 a = Ok (Elements [1; 1]).
Proof. exists [0; 1]. repeat split. Qed.
Print Assumptions C85_logical_or_refuted.

(** A division of integers: an error in python, floats with the native variant. *)
Theorem C85_native_division_refuted : exists a n, combine_right KTrueDiv a n = Err ValueError /\ native_right KTrueDiv a n = Ok (Quotients [(6, 2)]).
Proof. exists [6], 2. split; reflexivity. Qed.
Print Assumptions C85_native_division_refuted.
