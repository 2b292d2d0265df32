(** C33, C34: binary search and schedules. Model: SearchModel. *)
From Coq Require Import QArith Lqa.
From Verif Require Import Base ListLemmas LrModel SearchModel SearchSpec SearchProofs.
Local Open Scope nat_scope. Local Open Scope list_scope.
Local Open Scope Z_scope.

(** For every comparison whatsoever: it ends after at most 1 + log2(high - low) comparisons, all inside of the range, with a position where the comparison is zero, or with a border between negative and positive. *)
Theorem C33_terminates : forall cmp low high, low < high -> exists r probes, binary_search_any cmp low high = Ok (r, probes) /\
  low <= r <= high /\ (forall p, In p probes -> low <= p < high) /\ 2 ^ Z.of_nat (length probes) <= 2 * (high - low) /\
  ((r < high /\ cmp r = 0) \/ ((r < high -> 0 < cmp r) /\ (low < r -> cmp (r - 1) < 0))).
Proof.
  intros cmp low high H. destruct (binary_search_spec (S (Z.to_nat (high - low))) cmp low high ltac:(lia) ltac:(lia)) as (r&ps&E&A&_&C&D&F).
  exists r, ps. split; [exact E|]. split; [lia|]. split; [exact C|]. apply Z.ltb_lt in H. rewrite H in F. split; [exact F|]. destruct D as [D|D]; [left; split; tauto|now right].
Qed.
Print Assumptions C33_terminates.

(** For a monotone comparison: a zero is found if there is one, and otherwise the result is the place to insert. *)
Theorem C33_finds : forall cmp low high r probes, low <= high -> monotone_cmp cmp low high -> binary_search_any cmp low high = Ok (r, probes) ->
  ((exists i, low <= i < high /\ cmp i = 0) -> low <= r < high /\ cmp r = 0) /\
  ((forall i, low <= i < high -> cmp i <> 0) -> low <= r <= high /\ (forall i, low <= i < r -> cmp i < 0) /\ (forall i, r <= i < high -> 0 < cmp i)).
Proof.
  intros cmp low high r probes Hle Hm H. destruct (binary_search_spec (S (Z.to_nat (high - low))) cmp low high ltac:(lia) ltac:(lia)) as (r'&ps&E&A&_&_&D&_). unfold binary_search_any in H. rewrite E in H. apply Ok_inj in H. injection H as <- <-. specialize (A Hle).
  assert (Hneg : (low < r' -> cmp (r' - 1) < 0) -> forall i, low <= i < r' -> cmp i < 0). { intros Hr i Hi. specialize (Hm i (r' - 1) ltac:(lia) ltac:(lia) ltac:(lia)). specialize (Hr ltac:(lia)). lia. }
  assert (Hpos : (r' < high -> 0 < cmp r') -> forall i, r' <= i < high -> 0 < cmp i). { intros Hr i Hi. specialize (Hm r' i ltac:(lia) ltac:(lia) ltac:(lia)). specialize (Hr ltac:(lia)). lia. }
  split.
  - intros (i&Hi&Hz). destruct D as [D|[D1 D2]]; [exact D|exfalso]. destruct (Z.lt_ge_cases i r'); [specialize (Hneg D2 i); lia|specialize (Hpos D1 i); lia].
  - intros Hn. destruct D as [[D1 D2]|[D1 D2]]; [exfalso; now apply (Hn r')|]. split; [exact A|]. split; [exact (Hneg D2)|exact (Hpos D1)].
Qed.
Print Assumptions C33_finds.

Example C33_ex : binary_search_any (fun i => i * i - 50) 0 20 = Ok (8, [10; 5; 8; 7]) /\ binary_search_any (fun i => i * i - 49) 0 20 = Ok (7, [10; 5; 8; 7]) /\ monotone_cmp (fun i => i * i - 49) 0 20.
Proof. split; [reflexivity|]. split; [reflexivity|]. intros i j H1 H2 H3. assert (i * i <= j * j) by nia. lia. Qed.

(** A step function gives the value at the nearest point, the lower one if two are equally near. *)
Theorem C34_step_nearest : forall (V : Type) (points : list (Q * V)) x, distinct_keys points -> points <> [] ->
  exists k v, step_call points x = Ok v /\ In (k, v) points /\ nearest points x k.
Proof. exact @step_call_spec. Qed.
Print Assumptions C34_step_nearest.

(** A piecewise linear function is the line between neighbouring points, and constant outside. *)
Theorem C34_linear_between : forall points x k1 v1 k2 v2, distinct_keys points -> In (k1, v1) points -> In (k2, v2) points -> neighbours points k1 k2 -> (k1 <= x <= k2)%Q ->
  exists y, linear_call points x = Ok y /\ (y == v1 + (v2 - v1) / (k2 - k1) * (x - k1))%Q.
Proof. intros points x k1 v1 k2 v2 H1 H2 H3 H4 [H5 H6]. now apply linear_between. Qed.
Print Assumptions C34_linear_between.
Theorem C34_linear_outside : forall points x k v, distinct_keys points -> In (k, v) points ->
  ((x <= k)%Q /\ (forall k' v', In (k', v') points -> (k <= k')%Q)) \/ ((k <= x)%Q /\ (forall k' v', In (k', v') points -> (k' <= k)%Q)) ->
  exists y, linear_call points x = Ok y /\ (y == v)%Q.
Proof. intros points x k v H1 H2 [[H3 H4]|[H3 H4]]; [eapply linear_left; eauto|eapply linear_right; eauto]. Qed.
Print Assumptions C34_linear_outside.
(** So it stays between the two values, and hits both points. *)
Theorem C34_linear_range : forall points x k1 v1 k2 v2 y, distinct_keys points -> In (k1, v1) points -> In (k2, v2) points -> neighbours points k1 k2 -> (k1 <= x <= k2)%Q ->
  linear_call points x = Ok y -> ((v1 <= y <= v2)%Q \/ (v2 <= y <= v1)%Q) /\ ((x == k1)%Q -> (y == v1)%Q) /\ ((x == k2)%Q -> (y == v2)%Q).
Proof.
  intros points x k1 v1 k2 v2 y H1 H2 H3 H4 [H5 H6] H7. destruct (linear_between points x k1 v1 k2 v2 H1 H2 H3 H4 H5 H6) as (y'&E&Hy). rewrite E in H7. apply Ok_inj in H7. subst y'. destruct H4 as [Hlt _].
  set (t := ((x - k1) / (k2 - k1))%Q). assert (Hy2 : (y == v1 + (v2 - v1) * t)%Q) by (rewrite Hy; unfold t; field; lra).
  assert (Ht : (0 <= t <= 1)%Q). { unfold t. split; [apply Qle_shift_div_l; lra|apply Qle_shift_div_r; lra]. }
  split; [|split].
  - destruct (Qlt_le_dec v1 v2) as [Hv|Hv]; [left|right]; rewrite Hy2; split; nra.
  - intros Hx. assert (Ht0 : (t == 0)%Q) by (unfold t; rewrite Hx; field; lra). rewrite Hy2, Ht0. ring.
  - intros Hx. assert (Ht0 : (t == 1)%Q) by (unfold t; rewrite Hx; field; lra). rewrite Hy2, Ht0. ring.
Qed.
Print Assumptions C34_linear_range.

Definition ex_points : list (Q * Q) := [(10, 3 # 1); (0, 1); (4, 2)]%Q.
Example C34_ex : distinct_keys ex_points /\ step_call ex_points (2 # 1) = Ok 1%Q /\ step_call ex_points (3 # 1) = Ok 2%Q /\ step_call ex_points (99 # 1) = Ok (3 # 1)%Q /\
  (exists y, linear_call ex_points (7 # 1) = Ok y /\ (y == 5 # 2)%Q) /\ neighbours ex_points 4 10.
Proof.
  split; [cbn; repeat split; intros k v H; repeat (destruct H as [H|H]; [injection H as <- <-; intros E; discriminate E|]); destruct H|]. split; [reflexivity|]. split; [reflexivity|]. split; [reflexivity|]. split; [eexists; split; [reflexivity|reflexivity]|].
  split; [reflexivity|]. intros k v [H|[H|[H|[]]]]; injection H as <- <-; [right|left|left]; discriminate.
Qed.
