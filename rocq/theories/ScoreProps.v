(* C102: the scores of an epoch. C103: the gradients used for the updates. *)
From Coq Require Import List ZArith QArith String Bool Lia Permutation.
From Verif Require Import Base ListLemmas ScoreModel ScoreSpec ScoreProofs.
Import ListNotations.
Open Scope Q_scope.

(* C102: the score of a loss on an evaluation dataset is its average over all entries of all batches; every loss which is
   marked in some batch has one. *)
Theorem C102_eval {W B} (marked : W -> B -> list (string * loss)) w bs scores :
  eval_model marked w bs = Ok scores ->
  NoDup (map fst scores) /\ (forall k, In k (map fst scores) <-> marked_in k (map (marked w) bs)) /\
  forall k q, In (k, q) scores -> is_average k (map (marked w) bs) q.
Proof. intros H. apply eval_scores in H. tauto. Qed.
Print Assumptions C102_eval.

(* C102: it does not depend on how the sequences are put into batches, nor on their order, and it is there whenever no
   batch has norm factor zero. *)
Theorem C102_batching {W S} (q : seq_losses W S) w (bs1 bs2 : list (list S)) :
  NoDup (q_names q) -> Permutation (concat bs1) (concat bs2) -> bs1 <> [] -> bs2 <> [] ->
  (forall b k, In b (bs1 ++ bs2) -> In k (q_names q) -> 0 < seqs_norm q w k b) ->
  exists s1 s2, eval_model (of_batch q) w bs1 = Ok s1 /\ eval_model (of_batch q) w bs2 = Ok s2 /\
    map fst s1 = map fst s2 /\ forall k x y, In (k, x) s1 -> In (k, y) s2 -> x == y.
Proof.
  intros Hn Hp H1 H2 Hk.
  assert (P : forall bs, incl bs (bs1 ++ bs2) ->
    Forall (fun b => NoDup (map fst (of_batch q w b)) /\ Forall (fun p => 0 < inv_norm (snd p)) (of_batch q w b)) bs).
  { intros bs Hb. apply Forall_forall. intros b Hi. split; [rewrite of_batch_keys; exact Hn|].
    apply of_batch_norm. intros k Hkk. apply Hk; auto. }
  destruct (eval_ok (of_batch q) w bs1 H1) as [s1 E1]; [apply P; intros x Hx; apply in_or_app; auto|].
  destruct (eval_ok (of_batch q) w bs2 H2) as [s2 E2]; [apply P; intros x Hx; apply in_or_app; auto|].
  exists s1, s2. split; [exact E1|]. split; [exact E2|].
  assert (K : forall bs s, bs <> [] -> eval_model (of_batch q) w bs = Ok s -> map fst s = q_names q).
  { clear -Hn. intros bs s Hb H. unfold eval_model in H. apply bind_Ok in H as ([l n] & Hs & H).
    apply bind_Ok in H as (u0 & _ & Hd). apply div_ok in Hd as [-> _]. cbn [fst].
    assert (G : forall bs l n l' n', eval_steps (of_batch q) w bs l n = Ok (l', n') ->
       (map fst l = [] \/ map fst l = q_names q) -> map fst l' = q_names q \/ (bs = [] /\ map fst l' = [])).
    { clear -Hn. induction bs as [|b bs IH]; intros l n l' n' H Hl; cbn [eval_steps] in H.
      - apply Ok_inj in H. injection H as <- <-. tauto.
      - apply bind_Ok in H as (ls & Hls & H). apply bind_Ok in H as (u0 & _ & H).
        apply mark_all_ok in Hls as [E _]; [|constructor]. cbn [app] in E. subst ls.
        assert (A : map fst (iadd Qplus 0 l (values (of_batch q w b))) = q_names q).
        { assert (Ev : map fst (values (of_batch q w b)) = q_names q) by (rewrite values_keys; apply of_batch_keys).
          rewrite <- Ev in Hl |- *. rewrite <- Ev in Hn. clear -Hl Hn. destruct Hl as [Hl|Hl].
          - destruct l; [|discriminate]. unfold iadd.
            assert (F : forall (v d : list (string * Q)), NoDup (map fst d ++ map fst v) ->
              map fst (fold_left (fun d p => PyDict.dset d (fst p) (match PyDict.dget d (fst p) with Some x => x | None => 0 end + snd p)) v d)
              = map fst d ++ map fst v).
            { induction v as [|[k x] v IHv]; intros d H; cbn [fold_left map fst snd]; [rewrite app_nil_r; reflexivity|].
              assert (D : forall (e : list (string * Q)) z, ~ In k (map fst e) -> map fst (PyDict.dset e k z) = map fst e ++ [k]).
              { induction e as [|[a y] e IHe]; intros z Hz; cbn [PyDict.dset map fst app]; [reflexivity|].
                destruct (PyDict.keqb a k) eqn:Ea; [apply PyDict.keqb_eq in Ea; subst; destruct Hz; left; reflexivity|].
                cbn [map fst]. rewrite IHe; [reflexivity|]. intros Hx. apply Hz. right. exact Hx. }
              assert (Hk : ~ In k (map fst d)).
              { intros Hx. eapply NoDup_disj; [exact H|exact Hx|left; reflexivity]. }
              rewrite IHv; rewrite D by exact Hk; rewrite <- app_assoc; [reflexivity|exact H]. }
            rewrite F; [reflexivity|exact Hn].
          - unfold iadd.
            assert (F : forall (v d : list (string * Q)), incl (map fst v) (map fst d) ->
              map fst (fold_left (fun d p => PyDict.dset d (fst p) (match PyDict.dget d (fst p) with Some x => x | None => 0 end + snd p)) v d)
              = map fst d).
            { induction v as [|[k x] v IHv]; intros d H; cbn [fold_left map fst snd]; [reflexivity|].
              assert (D : forall (e : list (string * Q)) z, In k (map fst e) -> map fst (PyDict.dset e k z) = map fst e).
              { induction e as [|[a y] e IHe]; intros z Hz; [destruct Hz|]. cbn [PyDict.dset map fst].
                destruct (PyDict.keqb a k) eqn:Ea; [reflexivity|]. cbn [map fst]. rewrite IHe; [reflexivity|].
                destruct Hz as [Hz|Hz]; [|exact Hz]. cbn in Hz. subst. rewrite PyDict.keqb_refl in Ea. discriminate. }
              assert (Hk : In k (map fst d)) by (apply H; left; reflexivity).
              rewrite IHv; rewrite D by exact Hk; [reflexivity|]. intros y Hy. apply H. right. exact Hy. }
            rewrite F; [exact Hl|]. rewrite Hl. apply incl_refl. }
        destruct (IH _ _ _ _ H (or_intror A)) as [X|[Hb X]]; [left; exact X|].
        subst bs. cbn [eval_steps] in H. apply Ok_inj in H. injection H as <- <-. left. exact A. }
    destruct (G _ _ _ _ _ Hs (or_introl eq_refl)) as [X|[X _]]; [exact X|congruence]. }
  pose proof (K _ _ H1 E1) as K1. pose proof (K _ _ H2 E2) as K2. split; [congruence|].
  intros k x y Hx Hy. apply eval_scores in E1 as (_ & _ & _ & A1). apply eval_scores in E2 as (_ & _ & _ & A2).
  apply (average_perm q w k bs1 bs2); auto. rewrite <- K1. apply (in_map fst) in Hx. exact Hx.
Qed.
Print Assumptions C102_batching.

(* an example: the cross entropy of each frame and the error of each sequence *)
Definition ex_seq := list Q.
Definition ex_q : seq_losses Q ex_seq := {|
  q_names := ["ce"; "fer"]%string;
  q_entries := fun w k s => if String.eqb k "ce" then map (fun x => Dual (w * x) (fun i => if Nat.eqb i 0 then x else 0)) s
                            else [Dual (inject_Z (Z.of_nat (List.length s))) gzero];
  q_custom := fun k => if String.eqb k "ce" then None else Some (fun s => [2; inject_Z (Z.of_nat (List.length s))]);
  q_scale := fun _ => 1; q_error := fun k => String.eqb k "fer"; q_normalized := fun _ => false |}.

Example C102_ex_eval :
  match eval_model (of_batch ex_q) 2 [[[1; 2; 3]; [4]]; [[5; 6]]], eval_model (of_batch ex_q) 2 [[[5; 6]]; [[4]]; [[1; 2; 3]]] with
  | Ok s1, Ok s2 => (map (fun p => (fst p, Qred (snd p))) s1, map (fun p => (fst p, Qred (snd p))) s2)
  | _, _ => ([], [])
  end = ([("ce", 7); ("fer", 1 # 2)]%string, [("ce", 7); ("fer", 1 # 2)]%string).
Proof. vm_compute. reflexivity. Qed.

Example C102_ex_norms : forall b k, In b ([[[1; 2; 3]; [4]]; [[5; 6]]] ++ [[[5; 6]]; [[4]]; [[1; 2; 3]]]) ->
  In k (q_names ex_q) -> 0 < seqs_norm ex_q 2 k b.
Proof.
  intros b k Hb Hk. cbn in Hb, Hk.
  repeat (destruct Hk as [<-|Hk]; [repeat (destruct Hb as [<-|Hb]; [vm_compute; reflexivity|]); destruct Hb|]). destruct Hk.
Qed.

(* One batch whose sequences have nothing to count (no targets, or masked out) makes the evaluation fail with a division
   by zero, although the average over the dataset is well-defined. *)
Theorem C102_empty_batch_refuted :
  ~ (forall W S (q : seq_losses W S) w (bs : list (list S)), NoDup (q_names q) -> bs <> [] -> ~ In [] bs ->
       (forall k, In k (q_names q) -> 0 < seqs_norm q w k (concat bs)) -> is_ok (eval_model (of_batch q) w bs) = true).
Proof.
  intros H. specialize (H Q ex_seq {| q_names := ["ce"%string]; q_entries := q_entries ex_q; q_custom := q_custom ex_q;
      q_scale := q_scale ex_q; q_error := q_error ex_q; q_normalized := q_normalized ex_q |} 1 [[[1; 2]]; [[]]]).
  assert (X : false = true); [|discriminate X]. apply H.
  - repeat constructor. intros [].
  - discriminate.
  - intros [E|[E|[]]]; discriminate.
  - intros k [<-|[]]. vm_compute. reflexivity.
Qed.
Print Assumptions C102_empty_batch_refuted.

(* C102: the score of a training epoch is the average over all its batches, each with the weights of its time; the norm of
   the gradients is logged under a name of its own. *)
Theorem C102_train {W B} (marked : W -> B -> list (string * loss)) update accum grad_norm step w bs w' scores :
  (forall s w g g', (forall i, g i == g' i) -> update s w g = update s w g') ->
  train_epoch marked update accum grad_norm step w bs = Ok (w', scores) ->
  let steps := steps_of marked (fst (learn marked update accum step w [] bs)) bs in
  NoDup (map fst scores) /\
  forall k, (forall n f, grad_norm = Some (n, f) -> k <> n) ->
    (In k (map fst scores) <-> marked_in k steps) /\ forall q, In (k, q) scores -> is_average k steps q.
Proof.
  intros Hu H. apply train_epoch_ok in H as (_ & Hn & Hk); [|exact Hu]. split; [exact Hn|]. intros k Hl. apply Hk.
  unfold log_key. destruct grad_norm as [[n f]|]; [|tauto]. intros E. apply (Hl n f eq_refl E).
Qed.
Print Assumptions C102_train.

(* An epoch without any batch, or where no data has sequence lengths, fails at its end (the minimum of nothing). *)
Theorem C102_no_lengths_refuted :
  ~ (forall (bs : list (batch Q)),
       is_ok (train_epoch (fun w b => [("ce"%string, {| l_entries := [Dual (w * b) gzero]; l_scale := 1; l_error := false;
                                                       l_normalized := false; l_custom := None |})])
                (fun _ w g => w - g 0%nat) (fun _ => 1%Z) None 0 0 bs) = true).
Proof. intros H. specialize (H [{| b_data := 1; b_lens := [] |}]). vm_compute in H. discriminate. Qed.
Print Assumptions C102_no_lengths_refuted.

(* ---- C103 ---- *)

(* C103: with accum_grad_multiple_step n, each update uses the sum of the gradients of n batches, all with the same
   weights; batches left over at the end of the epoch have no effect. *)
Theorem C103_updates {W B} (marked : W -> B -> list (string * loss)) update n grad_norm step w gs rest w' scores :
  (forall s w g g', (forall i, g i == g' i) -> update s w g = update s w g') -> (0 < n)%Z ->
  Forall (fun g => Z.of_nat (List.length g) = n) gs -> (Z.of_nat (List.length rest) < n)%Z ->
  train_epoch marked update (fun _ => n) grad_norm step w (concat gs ++ rest) = Ok (w', scores) ->
  w' = learn_groups marked update step w gs.
Proof.
  intros Hu Hn Hg Hr H. apply train_epoch_ok in H as (-> & _); [|exact Hu]. apply learn_groups_ok; assumption.
Qed.
Print Assumptions C103_updates.

(* C103: with a number of batches which depends on the step: each update uses all batches since the last one *)
Theorem C103_dynamic {W B} (marked : W -> B -> list (string * loss)) update accum grad_norm step w bs w' scores :
  (forall s w g g', (forall i, g i == g' i) -> update s w g = update s w g') ->
  train_epoch marked update accum grad_norm step w bs = Ok (w', scores) ->
  w' = snd (learn marked update accum step w [] bs).
Proof. intros Hu H. apply train_epoch_ok in H as (-> & _); [reflexivity|exact Hu]. Qed.
Print Assumptions C103_dynamic.

(* C103: for losses which are not normalized, the gradient of several batches is that of one batch with all their
   sequences. *)
Theorem C103_joined {W S} (q : seq_losses W S) w (bs : list (batch (list S))) i :
  (forall k, In k (q_names q) -> q_normalized q k = false) ->
  group_grad (of_batch q) w bs i == step_grad (of_batch q w (concat (map b_data bs))) i.
Proof. apply group_grad_join. Qed.
Print Assumptions C103_joined.

Definition ex_batch (l : list ex_seq) : batch (list ex_seq) :=
  {| b_data := l; b_lens := [("data"%string, map (@List.length Q) l)] |}.

Definition ex_train (n : Z) (bs : list (batch (list ex_seq))) : res (Q * list (string * Q)) :=
  let* r := train_epoch (of_batch ex_q) (fun _ w g => Qred (w - g 0%nat)) (fun _ => n)
              (Some ("grad_norm:p1"%string, fun g => g 0%nat)) 0 1 bs in
  Ok (fst r, map (fun p => (fst p, Qred (snd p))) (snd r)).

Example C103_ex_train :
  ex_train 2 [ex_batch [[1; 2]; [3]]; ex_batch [[4]]; ex_batch [[1]]; ex_batch [[1]; [1]]; ex_batch [[7]]] =
  Ok (-12, [("ce", -101 # 8); ("fer", 4 # 11); ("grad_norm:p1", 13 # 2)])%string.
Proof. vm_compute. reflexivity. Qed.

(* With use_normalized_loss it is not: the means of the batches are added, so that the gradient grows with the number of
   batches, and short batches count more. *)
Theorem C103_normalized_refuted :
  ~ (forall W S (q : seq_losses W S) w (bs : list (batch (list S))) i,
       (forall b k, In b bs -> In k (q_names q) -> 0 < seqs_norm q w k (b_data b)) ->
       group_grad (of_batch q) w bs i == step_grad (of_batch q w (concat (map b_data bs))) i).
Proof.
  intros H.
  specialize (H Q ex_seq {| q_names := ["ce"%string]; q_entries := q_entries ex_q; q_custom := q_custom ex_q;
      q_scale := q_scale ex_q; q_error := q_error ex_q; q_normalized := fun _ => true |} 1 [ex_batch [[1; 1]]; ex_batch [[1]]] 0%nat).
  assert (X : ~ 2 == 1) by discriminate. apply X.
  refine (Qeq_trans _ _ _ _ (Qeq_trans _ _ _ (H _) _)); try (vm_compute; reflexivity).
  intros b k [<-|[<-|[]]] [<-|[]]; vm_compute; reflexivity.
Qed.
Print Assumptions C103_normalized_refuted.

(* And in an epoch of three batches with accum_grad_multiple_step 2, the third has no effect on the weights, also not in
   the next epoch: with gradients which do not depend on the weights, and plain gradient descent, not all gradients are
   subtracted. *)
Theorem C103_rest_refuted :
  ~ (forall n (bs : list (batch Q)) w w' scores, (0 < n)%Z ->
       train_epoch (fun (w : Q) b => [("ce"%string, {| l_entries := [Dual 0 (fun _ => b)]; l_scale := 1; l_error := false;
                                                       l_normalized := false; l_custom := None |})])
         (fun _ w g => Qred (w - g 0%nat)) (fun _ => n) None 0 w bs = Ok (w', scores) ->
       w' == w - qsum (map b_data bs)).
Proof.
  intros H. set (b := fun x : Q => {| b_data := x; b_lens := [("data"%string, [3%nat])] |}).
  specialize (H 2%Z [b 1; b 2; b 5] 0).
  assert (X : ~ -3 == 0 - (1 + (2 + (5 + 0)))) by (vm_compute; discriminate). apply X.
  eapply (H (-3)); [reflexivity|]. vm_compute. reflexivity.
Qed.
Print Assumptions C103_rest_refuted.
