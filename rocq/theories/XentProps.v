(** C90: the cross entropy of logits. *)
From Verif Require Import Base ListLemmas TensorModel TensorSpec TensorProofs MatmulModel MatmulSpec MatmulProofs ReshapeModel ReshapeSpec ReshapeProofs XentModel XentSpec XentProofs.
Local Open Scope nat_scope.

(** It is the cross entropy at each position, if the orders of the dims are such that the permutation is its own inverse. *)
Theorem C90_cross_entropy : forall size ce logits targets sparse axis dense, well size logits -> well size targets -> In (d_base axis) (bases (dims logits)) ->
  sparse_ok sparse axis dense -> targets_ok logits targets axis dense -> mirrored (dims logits) (target_order targets axis dense) ->
  exists r, cross_entropy ce logits targets sparse axis = Ok r /\ is_cross_entropy size ce logits targets dense axis r.
Proof. exact xent_ok. Qed.
Print Assumptions C90_cross_entropy.

(** This is so for logits [batch, time, classes] or [batch, classes] with targets [batch, time] or [batch], or with the same dims. *)
Theorem C90_batch_time : forall size ce logits targets b t v, well size logits -> well size targets -> dims logits = [b; t; v] -> dims targets = [b; t] ->
  exists r, cross_entropy ce logits targets (Some v) v = Ok r /\ is_cross_entropy size ce logits targets false v r.
Proof.
  intros size ce logits targets b t v Hw Hwt EL ET. pose proof Hw as (_ & _ & Hn). rewrite EL in Hn. cbn in Hn. inversion Hn as [|? ? H1 Hn1]; subst. inversion Hn1 as [|? ? H2 _]; subst. cbn in H1, H2.
  assert (D : d_base b <> d_base t /\ d_base b <> d_base v /\ d_base t <> d_base v) by (repeat split; intros E; [apply H1|apply H1|apply H2]; rewrite E; cbn; tauto). destruct D as (D1 & D2 & D3).
  apply xent_ok; [exact Hw|exact Hwt|rewrite EL; cbn; auto|exists v; auto| |].
  - cbn. unfold other_names. rewrite EL, ET. cbn. rewrite Nat.eqb_refl, (proj2 (Nat.eqb_neq _ _) D2), (proj2 (Nat.eqb_neq _ _) D3). reflexivity.
  - unfold target_order. rewrite EL, ET. intros i j x y G1 G2 G3. destruct i as [|[|[|[|i]]]], j as [|[|[|[|j]]]]; cbn in *; congruence.
Qed.
Print Assumptions C90_batch_time.
Theorem C90_batch : forall size ce logits targets b v, well size logits -> well size targets -> dims logits = [b; v] -> dims targets = [b] ->
  exists r, cross_entropy ce logits targets (Some v) v = Ok r /\ is_cross_entropy size ce logits targets false v r.
Proof.
  intros size ce logits targets b v Hw Hwt EL ET. pose proof Hw as (_ & _ & Hn). rewrite EL in Hn. cbn in Hn. inversion Hn as [|? ? H1 Hn1]; subst. cbn in H1.
  assert (D2 : d_base b <> d_base v) by (intros E; apply H1; rewrite E; cbn; tauto).
  apply xent_ok; [exact Hw|exact Hwt|rewrite EL; cbn; auto|exists v; auto| |].
  - cbn. unfold other_names. rewrite EL, ET. cbn. rewrite Nat.eqb_refl, (proj2 (Nat.eqb_neq _ _) D2). reflexivity.
  - unfold target_order. rewrite EL, ET. intros i j x y G1 G2 G3. destruct i as [|[|[|i]]], j as [|[|[|j]]]; cbn in *; congruence.
Qed.
Print Assumptions C90_batch.
Theorem C90_dense : forall size ce logits targets b t v, well size logits -> well size targets -> dims logits = [b; t; v] -> dims targets = [b; t; v] ->
  exists r, cross_entropy ce logits targets None v = Ok r /\ is_cross_entropy size ce logits targets true v r.
Proof.
  intros size ce logits targets b t v Hw Hwt EL ET. pose proof Hw as (_ & _ & Hn). rewrite EL in Hn. cbn in Hn. inversion Hn as [|? ? H1 Hn1]; subst. inversion Hn1 as [|? ? H2 _]; subst. cbn in H1, H2.
  assert (D : d_base b <> d_base t /\ d_base b <> d_base v /\ d_base t <> d_base v) by (repeat split; intros E; [apply H1|apply H1|apply H2]; rewrite E; cbn; tauto). destruct D as (D1 & D2 & D3).
  apply xent_ok; [exact Hw|exact Hwt|rewrite EL; cbn; auto|reflexivity| |].
  - cbn. rewrite EL, ET. reflexivity.
  - unfold target_order. rewrite EL, ET. cbn [filter]. unfold deq. rewrite Nat.eqb_refl, (proj2 (Nat.eqb_neq _ _) D2), (proj2 (Nat.eqb_neq _ _) D3). cbn [negb]. intros i j x y G1 G2 G3. destruct i as [|[|[|[|i]]]], j as [|[|[|[|j]]]]; cbn in *; congruence.
Qed.
Print Assumptions C90_dense.

(** If all sizes are different, then there is an error in all other cases. *)
Theorem C90_otherwise_error : forall size ce logits targets sparse axis dense r, well size logits -> well size targets -> In (d_base axis) (bases (dims logits)) ->
  sparse_ok sparse axis dense -> targets_ok logits targets axis dense ->
  (forall c c', In c (bases (dims logits)) -> In c' (bases (dims logits)) -> size c = size c' -> c = c') ->
  cross_entropy ce logits targets sparse axis = Ok r -> mirrored (dims logits) (target_order targets axis dense).
Proof. exact xent_only. Qed.
Print Assumptions C90_otherwise_error.

(** Only targets of these two kinds are accepted: classes over all the other dims, or probabilities with the same dims. *)
Theorem C90_accepts : forall ce logits targets sparse axis r, cross_entropy ce logits targets sparse axis = Ok r ->
  In (d_base axis) (bases (dims logits)) /\
  ((exists d, sparse = Some d /\ d_base d = d_base axis /\ forall b, In b (bases (dims targets)) <-> In b (bases (dims logits)) /\ b <> d_base axis) \/
   (sparse = None /\ forall b, In b (bases (dims targets)) <-> In b (bases (dims logits)))).
Proof. exact xent_accepts. Qed.
Print Assumptions C90_accepts.

(** * Examples, and what does not hold *)
Definition xB : dim := {| d_base := 0; d_copy := 0; d_prio := 0 |}.
Definition xT : dim := {| d_base := 1; d_copy := 0; d_prio := 0 |}.
Definition xV : dim := {| d_base := 2; d_copy := 0; d_prio := 0 |}.
Definition xS : dim := {| d_base := 3; d_copy := 0; d_prio := 0 |}.
(** the logit of the target class, in place of the cross entropy *)
Definition ce_pick (l t : list Z) : Z := match t with [c] => nth (Z.to_nat c) l 0%Z | _ => fold_right Z.add 0%Z (map (fun '(x, y) => (x * y)%Z) (combine l t)) end.
Definition x_size (d : nat) : nat := match d with 0 => 2 | 1 => 3 | 2 => 4 | _ => 2 end.
Definition x_btv : tensor := {| dims := [xB; xT; xV]; traw := {| shape := [2; 3; 4]; data := map Z.of_nat (seq 0 24) |} |}.
Definition x_bt : tensor := {| dims := [xB; xT]; traw := {| shape := [2; 3]; data := [0; 1; 2; 3; 0; 1]%Z |} |}.
Example C90_ex_well : well x_size x_btv /\ well x_size x_bt.
Proof. repeat split; repeat constructor; cbn; lia. Qed.
Example C90_ex_sparse : cross_entropy ce_pick x_btv x_bt (Some xV) xV = Ok {| dims := [xB; xT]; traw := {| shape := [2; 3]; data := [0; 5; 10; 15; 16; 21]%Z |} |}.
Proof. reflexivity. Qed.

(** The documented result for any order of the dims: it fails for logits [time, batch, classes] and targets [batch, time], and for three
    dims before the classes even if the order is the same. *)
Theorem C90_order_refuted : exists size logits targets axis, well size logits /\ well size targets /\ In (d_base axis) (bases (dims logits)) /\ targets_ok logits targets axis false /\
  forall ce, cross_entropy ce logits targets (Some axis) axis = Err OtherException.
Proof.
  exists x_size, {| dims := [xT; xB; xV]; traw := {| shape := [3; 2; 4]; data := map Z.of_nat (seq 0 24) |} |}, x_bt, xV. pose proof C90_ex_well as [_ H2]. split; [repeat split; repeat constructor; cbn; lia|]. split; [exact H2|]. split; [cbn; auto|]. split; [apply perm_swap|]. intros ce. reflexivity.
Qed.
Print Assumptions C90_order_refuted.
Definition q_size (d : nat) : nat := match d with 0 => 1 | 1 => 2 | 2 => 4 | _ => 3 end.
Theorem C90_same_order_refuted : exists size logits targets axis, well size logits /\ well size targets /\ dims logits = dims targets ++ [axis] /\
  forall ce, cross_entropy ce logits targets (Some axis) axis = Err OtherException.
Proof.
  exists q_size, {| dims := [xB; xT; xS; xV]; traw := {| shape := [1; 2; 3; 4]; data := map Z.of_nat (seq 0 24) |} |}, {| dims := [xB; xT; xS]; traw := {| shape := [1; 2; 3]; data := [0; 1; 2; 3; 0; 1]%Z |} |}, xV.
  split; [repeat split; repeat constructor; cbn; lia|]. split; [repeat split; repeat constructor; cbn; lia|]. split; [reflexivity|]. intros ce. reflexivity.
Qed.
Print Assumptions C90_same_order_refuted.
(** If sizes are equal, then the result is wrong without an error: here two classes, two sequences and two frames. *)
Theorem C90_silent_refuted : exists size ce logits targets axis r, well size logits /\ well size targets /\ In (d_base axis) (bases (dims logits)) /\ targets_ok logits targets axis false /\
  cross_entropy ce logits targets (Some axis) axis = Ok r /\ ~ is_cross_entropy size ce logits targets false axis r.
Proof.
  exists (fun _ => 2), ce_pick, {| dims := [xT; xB; xV]; traw := {| shape := [2; 2; 2]; data := [1; 2; 3; 4; 5; 6; 7; 8]%Z |} |}, {| dims := [xB; xT]; traw := {| shape := [2; 2]; data := [0; 1; 0; 1]%Z |} |}, xV,
    {| dims := [xT; xB]; traw := {| shape := [2; 2]; data := [1; 7; 2; 8]%Z |} |}.
  split; [repeat split; repeat constructor; cbn; lia|]. split; [repeat split; repeat constructor; cbn; lia|]. split; [cbn; auto|]. split; [apply perm_swap|]. split; [reflexivity|].
  intros (_ & _ & H). specialize (H (fun c => if c =? 0 then 1 else 0)). cbn in H. assert (G : 7%Z = 3%Z) by (apply H; repeat constructor). discriminate.
Qed.
Print Assumptions C90_silent_refuted.
