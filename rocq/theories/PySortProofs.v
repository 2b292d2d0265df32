From Verif Require Import Base ListLemmas PySort.
From Coq Require Import Sorted.

Lemma insert_by_perm {A} (key : A -> Z) x l : Permutation (insert_by key x l) (x :: l).
Proof.
  induction l as [|y l IH]; cbn; [reflexivity|].
  destruct (key x <=? key y)%Z; [reflexivity|].
  rewrite IH. apply perm_swap.
Qed.

Lemma stable_sort_perm {A} (key : A -> Z) l : Permutation (stable_sort_by key l) l.
Proof.
  unfold stable_sort_by. induction l as [|x l IH]; cbn; [reflexivity|].
  rewrite insert_by_perm. now constructor.
Qed.

Lemma insert_by_sorted {A} (key : A -> Z) x l :
  StronglySorted (fun x y => (key x <= key y)%Z) l ->
  StronglySorted (fun x y => (key x <= key y)%Z) (insert_by key x l).
Proof.
  induction l as [|y l IH]; cbn; intros H; [repeat constructor|].
  apply StronglySorted_inv in H as [Hl Hy].
  destruct (key x <=? key y)%Z eqn:E.
  - constructor; [now constructor|]. constructor; [lia|].
    eapply Forall_impl; [|exact Hy]. cbn. intros. lia.
  - constructor; [auto|].
    rewrite insert_by_perm. constructor; [lia|auto].
Qed.

Lemma stable_sort_sorted {A} (key : A -> Z) l :
  StronglySorted (fun x y => (key x <= key y)%Z) (stable_sort_by key l).
Proof.
  unfold stable_sort_by. induction l as [|x l IH]; cbn; [constructor|]. now apply insert_by_sorted.
Qed.

Lemma insert_by_filter {A} (key : A -> Z) x l k :
  StronglySorted (fun x y => (key x <= key y)%Z) l ->
  filter (fun y => (key y =? k)%Z) (insert_by key x l) = filter (fun y => (key y =? k)%Z) (x :: l).
Proof.
  induction l as [|y l IH]; cbn [insert_by]; intros H; [reflexivity|].
  apply StronglySorted_inv in H as [Hl Hy].
  destruct (key x <=? key y)%Z eqn:E; [reflexivity|].
  cbn [filter] in *. rewrite IH by auto.
  destruct (key y =? k)%Z eqn:E1, (key x =? k)%Z eqn:E2; auto. lia.
Qed.

Lemma stable_sort_filter {A} (key : A -> Z) l k :
  filter (fun y => (key y =? k)%Z) (stable_sort_by key l) = filter (fun y => (key y =? k)%Z) l.
Proof.
  induction l as [|x l IH]; [reflexivity|].
  unfold stable_sort_by in *. cbn [fold_right].
  rewrite insert_by_filter by apply stable_sort_sorted. cbn [filter]. now rewrite IH.
Qed.

Lemma stable_sort_spec {A} (key : A -> Z) l : stably_sorted key l (stable_sort_by key l).
Proof. split; [apply stable_sort_perm|split; [apply stable_sort_sorted|intros; apply stable_sort_filter]]. Qed.

(** A stable sort is unique, so it does not matter that we model the library function by insertion sort. *)
Lemma stably_sorted_unique {A} (key : A -> Z) inp : forall o1 o2,
  stably_sorted key inp o1 -> stably_sorted key inp o2 -> o1 = o2.
Proof.
  intros o1 o2 (P1&S1&F1) (P2&S2&F2).
  assert (HF : forall k, filter (fun x => (key x =? k)%Z) o1 = filter (fun x => (key x =? k)%Z) o2)
    by (intros; now rewrite F1, F2).
  assert (HP : Permutation o1 o2) by (rewrite P1; now symmetry).
  clear F1 F2 P1 P2 inp. revert o2 S2 HF HP.
  induction o1 as [|x o1 IH]; intros o2 S2 HF HP; [apply Permutation_nil in HP; now subst|].
  destruct o2 as [|y o2]; [symmetry in HP; now apply Permutation_nil_cons in HP|].
  apply StronglySorted_inv in S1 as [S1 H1]. apply StronglySorted_inv in S2 as [S2 H2].
  assert (Hk : key x = key y).
  { assert (In x (y :: o2)) by (rewrite <- HP; now left).
    assert (In y (x :: o1)) by (rewrite HP; now left).
    rewrite Forall_forall in H1, H2.
    assert (key y <= key x)%Z by (destruct H as [->|H]; [lia|auto]).
    assert (key x <= key y)%Z by (destruct H0 as [->|H0]; [lia|auto]). lia. }
  assert (Hxy : x = y).
  { specialize (HF (key x)). cbn in HF. rewrite Z.eqb_refl in HF.
    rewrite <- Hk, Z.eqb_refl in HF. congruence. }
  subst y. f_equal. apply IH; auto.
  - intros k. specialize (HF k). cbn in HF. destruct (key x =? k)%Z; congruence.
  - now apply Permutation_cons_inv in HP.
Qed.

Lemma insert_by_map {A B} (key : B -> Z) (f : A -> B) x l :
  insert_by key (f x) (map f l) = map f (insert_by (fun a => key (f a)) x l).
Proof. induction l as [|y l IH]; cbn; [reflexivity|]. destruct (_ <=? _)%Z; cbn; [reflexivity|]. now rewrite IH. Qed.

Lemma stable_sort_map {A B} (key : B -> Z) (f : A -> B) l :
  stable_sort_by key (map f l) = map f (stable_sort_by (fun a => key (f a)) l).
Proof. unfold stable_sort_by. induction l as [|x l IH]; cbn; [reflexivity|]. now rewrite IH, insert_by_map. Qed.

Lemma insert_by_ext {A} (k1 k2 : A -> Z) x l :
  k1 x = k2 x -> (forall y, In y l -> k1 y = k2 y) -> insert_by k1 x l = insert_by k2 x l.
Proof.
  intros Hx. induction l as [|y l IH]; cbn; intros H; [reflexivity|].
  rewrite Hx, H by (now left). rewrite IH by (intros; apply H; now right). reflexivity.
Qed.
Lemma stable_sort_ext {A} (k1 k2 : A -> Z) l :
  (forall y, In y l -> k1 y = k2 y) -> stable_sort_by k1 l = stable_sort_by k2 l.
Proof.
  unfold stable_sort_by. induction l as [|x l IH]; cbn; intros H; [reflexivity|].
  rewrite IH by (intros; apply H; now right).
  apply insert_by_ext; [apply H; now left|]. intros y Hy.
  apply H. right. eapply Permutation_in; [apply stable_sort_perm|exact Hy].
Qed.

Lemma map_nth_seq {A} (d : A) l : map (fun i => nth i l d) (seq 0 (length l)) = l.
Proof.
  induction l as [|x l IH]; cbn; [reflexivity|]. f_equal.
  rewrite <- seq_shift, map_map. exact IH.
Qed.

(** [part[argsort(key(part))]] is the stable sort of [part] by [key] *)
Lemma take_argsort {A} (d : A) (key : A -> Z) l :
  take d l (argsort (map key l)) = stable_sort_by key l.
Proof.
  unfold take, argsort. rewrite map_length.
  rewrite (stable_sort_ext _ (fun i => key (nth i l d))).
  - rewrite <- stable_sort_map, map_nth_seq. reflexivity.
  - intros i Hi. apply in_seq in Hi.
    rewrite (nth_indep _ _ (key d)) by (rewrite map_length; lia). apply map_nth.
Qed.

Lemma argsort_perm keys : Permutation (argsort keys) (seq 0 (length keys)).
Proof. apply stable_sort_perm. Qed.
