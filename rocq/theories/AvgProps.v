(** C131: averaging checkpoints. *)
From Coq Require Import String QArith Qcanon Lia Permutation.
From Verif Require Import Base AvgModel AvgSpec AvgProofs.
Local Open Scope nat_scope.

(** The result has each parameter which is in some checkpoint once, with its average over the checkpoints which have it, if no tensors are shared. *)
Theorem C131_average cs k : Forall names_ok cs -> Forall not_shared cs ->
  find k (r_params (merge cs)) = average k cs /\ NoDup (map fst (r_params (merge cs))).
Proof. apply merge_params. Qed.
Print Assumptions C131_average.

(** So the order of the checkpoints does not matter. *)
Theorem C131_order cs cs' k : Permutation cs cs' -> Forall names_ok cs -> Forall not_shared cs ->
  find k (r_params (merge cs)) = find k (r_params (merge cs')).
Proof.
  intros P Hn Hs. assert (Hn' : Forall names_ok cs') by (rewrite Forall_forall in *; intros c Hc; apply Hn; now apply (Permutation_in _ (Permutation_sym P))).
  assert (Hs' : Forall not_shared cs') by (rewrite Forall_forall in *; intros c Hc; apply Hs; now apply (Permutation_in _ (Permutation_sym P))).
  rewrite (proj1 (merge_params cs k Hn Hs)), (proj1 (merge_params cs' k Hn' Hs')).
  assert (Q : Permutation (somes (map (param k) cs)) (somes (map (param k) cs'))).
  { clear -P. assert (P2 := Permutation_map (param k) P). induction P2 as [|[x|] l l' _ IH|[x|] [y|] l|]; cbn; auto. - constructor. - eapply perm_trans; eauto. }
  assert (S : forall l l', Permutation l l' -> sum l = sum l').
  { clear. assert (G : forall l a, fold_left Qcplus l a = (a + sum l)%Qc). { unfold sum. induction l as [|x l IH]; intro a; cbn; [ring|]. rewrite IH, (IH (Q2Qc 0 + x)%Qc). ring. }
    assert (C : forall x l, sum (x :: l) = (x + sum l)%Qc). { intros x l. change (sum (x :: l)) with (fold_left Qcplus l (Q2Qc 0 + x)%Qc). rewrite G. ring. }
    induction 1 as [|x l l' _ IH|x y l|l l' l'' _ IH1 _ IH2]; rewrite ?C; [reflexivity|now rewrite IH|ring|congruence]. }
  unfold average. destruct (somes (map (param k) cs)) as [|x l] eqn:E.
  - apply Permutation_nil in Q. now rewrite Q.
  - destruct (somes (map (param k) cs')) as [|y l']; [apply Permutation_sym, Permutation_nil in Q; discriminate|]. rewrite (S _ _ Q), (Permutation_length Q). reflexivity.
Qed.
Print Assumptions C131_order.

(** The epoch and the step are the largest ones, the lists name all of them in order, all else is from the first checkpoint which has it. *)
Theorem C131_rest cs :
  r_epoch (merge cs) = largest (map epoch cs) /\ r_step (merge cs) = largest (map step cs) /\
  r_epochs (merge cs) = flat_map (fun c => merged_epochs c ++ [epoch c]) cs /\ r_steps (merge cs) = flat_map (fun c => merged_steps c ++ [step c]) cs /\
  forall k, find k (r_others (merge cs)) = find k (flat_map others cs).
Proof. destruct (merge_rest cs) as (H1 & H2 & H3 & H4 & H5). repeat split; auto. intro k. rewrite H5. apply others_first. Qed.
Print Assumptions C131_rest.

Definition qc (n : Z) : Qc := Q2Qc (inject_Z n).
(** If two parameters share a tensor (for example the embedding and the output), the result is wrong: each addition in place counts for both. *)
Definition tied (v : Z) : ckpt := Ckpt [("emb", 0); ("out", 0)]%string (fun _ => qc v) (Some 1) (Some 10) [] [] [].
Theorem C131_shared_refuted : ~ forall cs k, Forall names_ok cs -> find k (r_params (merge cs)) = average k cs.
Proof.
  intro H. specialize (H [tied 2; tied 4] "emb"%string). assert (N : forall v, names_ok (tied v)).
  { intro v. unfold names_ok, tied. cbn. repeat constructor; cbn; intuition discriminate. }
  specialize (H (Forall_cons _ (N 2%Z) (Forall_cons _ (N 4%Z) (Forall_nil _)))). assert (E := f_equal (fun o => match o with Some q => this q | None => 0%Q end) H). vm_compute in E. discriminate.
Qed.
Print Assumptions C131_shared_refuted.

Definition plain (a b : Z) (e : nat) : ckpt := Ckpt [("a", 0); ("b", 1)]%string (fun i => match i with 0 => qc a | _ => qc b end) (Some e) (Some (10 * e)) [] [] [("version"%string, e)].
Definition more (a c : Z) : ckpt := Ckpt [("c", 1); ("a", 0)]%string (fun i => match i with 0 => qc a | _ => qc c end) None (Some 7) [Some 3; Some 4] [] [("config"%string, 5); ("version"%string, 9)].
Definition shown (r : result) := (map (fun kq => (fst kq, this (snd kq))) (r_params r), r_epoch r, r_step r, r_epochs r, r_steps r, r_others r).
Example C131_example : shown (merge [plain 1 4 2; more 5 6; plain 6 9 1]) =
  ([("a"%string, 4 # 1); ("b"%string, 13 # 2); ("c"%string, 6 # 1)]%Q, Some 2, Some 20, [Some 2; Some 3; Some 4; None; Some 1], [Some 20; Some 7; Some 10], [("version"%string, 2); ("config"%string, 5)]).
Proof. vm_compute. reflexivity. Qed.
Example C131_example_ok : Forall names_ok [plain 1 4 2; more 5 6; plain 6 9 1] /\ Forall not_shared [plain 1 4 2; more 5 6; plain 6 9 1].
Proof. split; repeat constructor; cbn; intuition discriminate. Qed.
(** The shared case above: 5 instead of 3 *)
Example C131_example_shared : shown (merge [tied 2; tied 4]) = ([("emb"%string, 5 # 1); ("out"%string, 5 # 1)]%Q, Some 1, Some 10, [Some 1; Some 1], [Some 10; Some 10], []).
Proof. vm_compute. reflexivity. Qed.
