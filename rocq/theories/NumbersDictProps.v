(** Property C15: arithmetic on per-key numbers. *)
From Coq Require Import String.
From Verif Require Import Base PyDict NumbersDictModel NumbersDictSpec NumbersDictProofs.
Local Open Scope string_scope.
Local Open Scope Z_scope.

Definition ex_a : ndict Z := ND [("classes", 11); ("data", 11)] None.
Definition ex_b : ndict Z := ND [("data", 3); ("classes", 2)] (Some 1).

(** C15: [a + b], [a - b], [b - a] and [a * b] act at every key like on plain numbers. A missing number counts as
    the neutral element, and a plain number on one side is that number wherever the other side has one. *)
Theorem C15_arithmetic_is_pointwise : forall a b : num_operand Z,
  is_pointwise Z.add 0 a b (nd_add a b) /\
  is_pointwise Z.sub 0 a b (nd_sub a b) /\
  is_pointwise (fun x y => y - x) 0 a b (nd_rsub a b) /\
  is_pointwise Z.mul 1 a b (nd_mul a b).
Proof. exact (fun a b => conj (bin_op_pointwise _ _ a b) (conj (bin_op_pointwise _ _ a b)
  (conj (bin_op_pointwise _ _ a b) (bin_op_pointwise _ _ a b)))). Qed.
Print Assumptions C15_arithmetic_is_pointwise.
(** tests/test_Util.py:173-178, 203-208 *)
Example C15_ex_arith :
  nd_sub (NumND ex_a) (NumND (ND [] (Some 10))) = ND [("classes", 1); ("data", 1)] (Some (-10)) /\
  nd_mul (NumND ex_b) (Num 2) = ND [("data", 6); ("classes", 4)] (Some 2).
Proof. vm_compute. split; reflexivity. Qed.

(** C15: floor division is pointwise too, and fails exactly if some divisor is zero. *)
Theorem C15_floordiv : forall a b : num_operand Z,
  match nd_floordiv a b with
  | Ok n => is_pointwise Z.div 1 a b n /\ forall k, operand_at b a k <> Some 0
  | Err e => e = ZeroDivisionError /\ exists k, operand_at b a k = Some 0
  end.
Proof.
  intros a b. destruct (nd_floordiv a b) as [n|e] eqn:H.
  - destruct (floordiv_ok _ _ _ H) as [H1 H2]. split; [exact H1|]. intros k Hk. apply (H2 k). rewrite Hk.
    destruct (operand_at a b k); reflexivity.
  - destruct (floordiv_err _ _ _ H) as [He (k&Hk)]. split; [exact He|]. exists k.
    destruct (operand_at a b k), (operand_at b a k); cbn in Hk; congruence.
Qed.
Print Assumptions C15_floordiv.
(** tests/test_Util.py:221-228 *)
Example C15_ex_floordiv :
  nd_floordiv (NumND ex_b) (Num 2) = Ok (ND [("data", 1); ("classes", 1)] (Some 0)) /\
  nd_floordiv (NumND ex_b) (NumND (ND [("x", 0)] None)) = Err ZeroDivisionError.
Proof. vm_compute. split; reflexivity. Qed.

(** C15: the in-place operations [a += b], [a -= b], [a *= b] give the same number at every key. *)
Theorem C15_inplace : forall (f : Z -> Z -> Z) zero a b k,
  at_key (nd_iop f zero a b) k = pointwise f zero (at_key a k) (operand_at b (NumND a) k).
Proof. exact iop_spec. Qed.
Print Assumptions C15_inplace.
Example C15_ex_inplace :
  nd_iop Z.add 0 ex_b (NumND (ND [("z", 5); ("data", 4)] None)) = ND [("data", 7); ("classes", 2); ("z", 6)] (Some 1).
Proof. reflexivity. Qed.

(** C15: negation *)
Theorem C15_neg : forall n k, at_key (nd_neg n) k = option_map Z.opp (at_key n k).
Proof. exact nd_neg_spec. Qed.
Print Assumptions C15_neg.

(** C15: the maximum (minimum) over a list of dicts is at every key the largest (smallest) number that
    one of the dicts has there; it is defined for every non-empty list. *)
Theorem C15_max_min : forall ns : list (ndict Z), ns <> [] ->
  (exists n, nd_max (map NumND ns) = Ok n /\ forall k, is_greatest Z.le (map (fun m => at_key m k) ns) (at_key n k)) /\
  (exists n, nd_min (map NumND ns) = Ok n /\ forall k, is_greatest Z.ge (map (fun m => at_key m k) ns) (at_key n k)).
Proof.
  intros ns H. assert (H' : map NumND ns <> []) by (destruct ns; [congruence|discriminate]). split.
  - destruct (nd_fold_total opt_max _ H') as (n&Hn). exists n. split; [exact Hn|]. exact (nd_max_spec ns n Hn).
  - destruct (nd_fold_total opt_min _ H') as (n&Hn). exists n. split; [exact Hn|]. exact (nd_min_spec ns n Hn).
Qed.
Print Assumptions C15_max_min.
Example C15_ex_max :
  nd_max [NumND ex_a; NumND ex_b; NumND (ND [("data", 20)] None)] = Ok (ND [("classes", 11); ("data", 20)] (Some 1)).
Proof. reflexivity. Qed.

(** C15, finding: with a plain number among the items the result depends on its position: the number is only taken for the
    keys of the item that it is combined with first. *)
Theorem C15_max_with_number_refuted :
  ~ (forall c n m r r', nd_max [Num c; NumND n; NumND m] = Ok r -> nd_max [NumND n; NumND m; Num c] = Ok r' -> forall k, at_key r k = at_key r' k).
Proof.
  intros H. specialize (H 5 (ND [("a", 1)] None) (ND [("b", 2)] None) _ _ eq_refl eq_refl "a"). discriminate.
Qed.
Print Assumptions C15_max_with_number_refuted.

(** C15: [any_compare] is true exactly if the comparison holds at some key that the first dict has explicitly,
    or between the two broadcast values. *)
Theorem C15_any_compare : forall cmp self other,
  dict_ok (nd_dict self) ->
  any_compare cmp self other = true <->
  (exists k v w, has_key self k /\ at_key self k = Some v /\ at_key other k = Some w /\ cmp v w = true) \/
  (exists v w, nd_value self = Some v /\ nd_value other = Some w /\ cmp v w = true).
Proof. exact any_compare_spec. Qed.
Print Assumptions C15_any_compare.

(** C15: hence if the second dict has no keys that the first has only by its broadcast value, [any_compare] is true
    exactly when the comparison holds at some key. *)
Theorem C15_any_compare_some_key : forall cmp self other,
  dict_ok (nd_dict self) -> (nd_value self = None \/ forall k, has_key other k -> has_key self k) ->
  any_compare cmp self other = true <->
  exists k v w, at_key self k = Some v /\ at_key other k = Some w /\ cmp v w = true.
Proof.
  intros cmp self other Hok Hsub. rewrite any_compare_spec by exact Hok.
  assert (Hnk : forall n k, ~ @has_key Z n k -> at_key n k = nd_value n).
  { intros n k Hk. rewrite at_key_get. apply nd_get_not_key. now rewrite <- has_key_In. }
  split.
  - intros [(k&v&w&_&H)|(v&w&Hv&Hw&H)]; [now exists k, v, w|].
    destruct (fresh_key (dkeys (nd_dict self) ++ dkeys (nd_dict other))) as (k&Hk). rewrite in_app_iff, <- !has_key_In in Hk.
    exists k, v, w. rewrite !Hnk by tauto. tauto.
  - intros (k&v&w&Hv&Hw&H).
    destruct (in_dec string_dec k (dkeys (nd_dict self))) as [Hin|Hin]; rewrite <- has_key_In in Hin.
    + left. now exists k, v, w.
    + right. rewrite (Hnk self) in Hv by exact Hin. exists v, w. repeat split; auto.
      rewrite <- (Hnk other k); auto. destruct Hsub as [Hs|Hs]; [congruence|]. intros Hc. apply Hin, Hs, Hc.
Qed.
Print Assumptions C15_any_compare_some_key.
Example C15_ex_any_compare :
  any_compare Z.gtb ex_a (ND [("data", 10)] (Some 100)) = true /\ any_compare Z.gtb ex_a (ND [("x", 10)] None) = false.
Proof. vm_compute. split; reflexivity. Qed.

(** C15, finding: without that condition it is not: a limit given for a key that the first dict only has
    by its broadcast value is not looked at. *)
Theorem C15_any_compare_refuted :
  ~ (forall cmp self other, dict_ok (nd_dict self) -> dict_ok (nd_dict other) ->
       any_compare cmp self other = true <->
       exists k v w, at_key self k = Some v /\ at_key other k = Some w /\ cmp v w = true).
Proof.
  intros H. destruct (H Z.gtb (ND [] (Some 5)) (ND [("data", 3)] None)) as [_ H2].
  - constructor.
  - repeat constructor. cbn. tauto.
  - discriminate H2. exists "data", 5, 3. repeat split.
Qed.
Print Assumptions C15_any_compare_refuted.

(** C15: [==] means: at every key that one side has explicitly both have the same number, and the broadcast values
    agree if both exist. *)
Theorem C15_equality : forall a b,
  nd_eq a (NumND b) = true <->
  (forall k, has_key a k \/ has_key b k -> exists v, at_key a k = Some v /\ at_key b k = Some v) /\
  (forall v w, nd_value a = Some v -> nd_value b = Some w -> v = w).
Proof. exact nd_eq_spec. Qed.
Print Assumptions C15_equality.
Example C15_ex_equality :
  nd_eq ex_a (NumND (ND [] (Some 11))) = true /\ nd_eq ex_a (NumND (ND [] (Some 10))) = false /\
  nd_eq (ND [] (Some 10)) (Num 10) = true /\ nd_eq (ND [] (Some 10)) (Num 5) = false.
Proof. vm_compute. repeat split. Qed.

(** C15, finding: this is not an equivalence relation. *)
Theorem C15_equality_transitive_refuted :
  ~ (forall a b c, nd_eq a (NumND b) = true -> nd_eq b (NumND c) = true -> nd_eq a (NumND c) = true).
Proof.
  intros H. specialize (H (ND [] (Some 5)) (ND [] None) (ND [] (Some 7)) eq_refl eq_refl). discriminate.
Qed.
Print Assumptions C15_equality_transitive_refuted.

(** C15: [copy_like] restricts to the keys of the other dict as far as there are numbers for them. *)
Theorem C15_copy_like : forall (a l : ndict Z),
  exists n, copy_like a l = Ok n /\
  (forall k, has_key n k <-> has_key l k /\ at_key a k <> None) /\
  (forall k, has_key n k -> at_key n k = at_key a k) /\
  nd_value n = match nd_value l with Some _ => nd_value a | None => None end.
Proof. exact (@copy_like_spec Z Z). Qed.
Print Assumptions C15_copy_like.

(** C15: [max_value] / [min_value] are the largest / smallest of all entries and the broadcast value, and fail
    exactly if there is none. *)
Theorem C15_max_value : forall n : ndict Z,
  (forall m, max_value n = Ok m -> In m (nd_values n) /\ forall x, In x (nd_values n) -> x <= m) /\
  (forall m, min_value n = Ok m -> In m (nd_values n) /\ forall x, In x (nd_values n) -> m <= x) /\
  (forall x, In x (nd_values n) <-> (exists k, In (k, x) (nd_dict n)) \/ nd_value n = Some x) /\
  (max_value n = Err ValueError <-> nd_values n = []).
Proof.
  intros n. unfold max_value, min_value. split; [|split; [|split]].
  - destruct (nd_values n) as [|v vs]; intros m [= <-]. destruct (fold_left_max vs v). auto.
  - destruct (nd_values n) as [|v vs]; intros m [= <-]. destruct (fold_left_min vs v). auto.
  - apply values_In.
  - destruct (nd_values n); split; congruence.
Qed.
Print Assumptions C15_max_value.
