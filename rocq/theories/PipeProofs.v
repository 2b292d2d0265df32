From Coq Require Import String.
From Verif Require Import Base ListLemmas PyDict PipeModel PipeSpec.
Local Open Scope nat_scope.

Section Proofs.
  Context {V : Type}.
  Implicit Type d : dataset V.
  Lemma dget_dset_str {A} (s : @dict string A) k v k' : dget (dset s k v) k' = if string_dec k k' then Some v else dget s k'.
  Proof. rewrite dget_dset. destruct (string_dec k k') as [->|H]; [rewrite keqb_refl; reflexivity|]. apply keqb_neq in H. rewrite H. reflexivity. Qed.
  Lemma keys_fold (f : string -> entry V) k : forall l s, dget (fold_left (fun (a : sample V) k => dset a k (f k)) l s) k = if in_dec string_dec k l then Some (f k) else dget s k.
  Proof.
    induction l as [|x l IH]; intros s; [reflexivity|]. cbn [fold_left]. rewrite IH. rewrite dget_dset_str. destruct (in_dec string_dec k l) as [H|H], (in_dec string_dec k (x :: l)) as [G|G]; try reflexivity; try (exfalso; apply G; right; exact H).
    - destruct G as [->|G]; [|contradiction]. destruct (string_dec k k); [reflexivity|contradiction].
    - destruct (string_dec x k) as [->|]; [exfalso; apply G; left; reflexivity|reflexivity].
  Qed.
  Lemma make_sample_ok d epoch i seq f : f = match ds_frac d epoch i with Some f => f | None => (-1)%Z end ->
    sample_of d epoch i seq (make_sample (ds_keys d) epoch (if ds_num_known d then Z.of_nat (List.length (ds_seqs d epoch)) else -1)%Z i seq f).
  Proof.
    intros ->. unfold sample_of, make_sample. split; [|split; [|split; [|split; [|split; [|split]]]]]; try (rewrite !dget_dset_str; reflexivity).
    - intros k Hk Hr. cbn in Hr. rewrite !dget_dset_str. repeat match goal with |- context [string_dec ?a k] => destruct (string_dec a k) as [X|_]; [exfalso; apply Hr; rewrite X; tauto|] end.
      rewrite (keys_fold (fun k => Data (snd seq k))). destruct (in_dec string_dec k (ds_keys d)); [reflexivity|contradiction].
    - intros k Hk. rewrite !dget_dset_str in Hk. repeat match type of Hk with context [string_dec ?a k] => destruct (string_dec a k) as [X|_]; [right; rewrite <- X; cbn; tauto|] end.
      rewrite (keys_fold (fun k => Data (snd seq k))) in Hk. destruct (in_dec string_dec k (ds_keys d)); [left; assumption|contradiction].
  Qed.
  Definition last_of d epoch (i : nat) : Z := match i with O => (-1)%Z | S j => match ds_frac d epoch j with Some f => f | None => (-1)%Z end end.
  Lemma check_ok d epoch i : match check_frac (ds_one d) (last_of d epoch i) (ds_frac d epoch i) with
    | Ok f => good_frac d epoch i /\ f = last_of d epoch (S i)
    | Err e => e = AssertionError /\ ~ good_frac d epoch i end.
  Proof.
    unfold check_frac, good_frac. cbn [last_of]. destruct (ds_frac d epoch i) as [f|]; [|split; [discriminate|reflexivity]].
    destruct ((0 <=? f) && (f <=? ds_one d))%Z eqn:E1; cbn [assert_ bind].
    - apply andb_true_iff in E1 as [A B]. apply Z.leb_le in A, B. destruct (last_of d epoch i <=? f)%Z eqn:E2; cbn [assert_ bind].
      + split; [|reflexivity]. intros g [= <-]. split; [lia|]. intros j f' -> Ej. apply Z.leb_le in E2. cbn [last_of] in E2. rewrite Ej in E2. exact E2.
      + split; [reflexivity|]. intros H. destruct (H f eq_refl) as [_ G]. apply Z.leb_gt in E2. destruct i as [|j]; cbn [last_of] in E2; [lia|]. destruct (ds_frac d epoch j) as [f'|] eqn:Ej; [|lia]. specialize (G j f' eq_refl Ej). lia.
    - split; [reflexivity|]. intros H. destruct (H f eq_refl) as [G _]. apply andb_false_iff in E1 as [E1|E1]; apply Z.leb_gt in E1; lia.
  Qed.
  Lemma loop_ok d epoch : forall seqs i, seqs = skipn i (ds_seqs d epoch) ->
    let '(l, e) := loop d epoch (if ds_num_known d then Z.of_nat (List.length (ds_seqs d epoch)) else -1)%Z i (last_of d epoch i) seqs in
    (forall j s, nth_error l j = Some s -> exists seq, nth_error (ds_seqs d epoch) (i + j) = Some seq /\ sample_of d epoch (i + j) seq s) /\
    (forall j, j < List.length l -> good_frac d epoch (i + j)) /\
    match e with
    | None => List.length l = List.length seqs
    | Some e => e = AssertionError /\ List.length l < List.length seqs /\ ~ good_frac d epoch (i + List.length l)
    end.
  Proof.
    induction seqs as [|seq seqs IH]; intros i Hs; cbn [loop].
    - split; [intros [|j] s; discriminate|]. split; [cbn; lia|reflexivity].
    - assert (H0 : nth_error (ds_seqs d epoch) i = Some seq) by (rewrite <- (Nat.add_0_r i), <- nth_error_skipn', <- Hs; reflexivity).
      assert (H1 : seqs = skipn (S i) (ds_seqs d epoch)) by (change (S i) with (1 + i); rewrite <- skipn_skipn', <- Hs; reflexivity).
      pose proof (check_ok d epoch i) as HC. destruct (check_frac _ _ _) as [f|e].
      + destruct HC as [Hg ->]. specialize (IH (S i) H1). destruct (loop d epoch _ (S i) _ seqs) as [l e]. destruct IH as (A & B & C). split; [|split].
        * intros [|j] s Hj; [injection Hj as <-; rewrite Nat.add_0_r; exists seq; split; [exact H0|apply make_sample_ok; reflexivity]|]. replace (i + S j) with (S i + j) by lia. apply A, Hj.
        * intros [|j] Hj; [rewrite Nat.add_0_r; exact Hg|]. replace (i + S j) with (S i + j) by lia. apply B. cbn in Hj. lia.
        * destruct e as [e|]; cbn [List.length]; [|congruence]. replace (i + S (List.length l)) with (S i + List.length l) by lia. destruct C as (C1 & C2 & C3). split; [exact C1|]. split; [lia|exact C3].
      + destruct HC as [-> Hg]. split; [intros [|j] s; discriminate|]. split; [cbn; lia|]. split; [reflexivity|]. cbn [List.length]. split; [lia|]. rewrite Nat.add_0_r. exact Hg.
  Qed.
  Lemma iterate_ok d epoch : let '(l, e) := iterate d (Some epoch) in
    samples_of d epoch l /\ (forall j, j < List.length l -> good_frac d epoch j) /\
    match e with
    | None => List.length l = List.length (ds_seqs d epoch)
    | Some e => e = AssertionError /\ List.length l < List.length (ds_seqs d epoch) /\ ~ good_frac d epoch (List.length l)
    end.
  Proof. exact (loop_ok d epoch (ds_seqs d epoch) 0 eq_refl). Qed.
  Lemma counter_passes d : forall values e k r p, p_call p = Counter e -> nth_error (passes false d p values) k = Some r -> r = iterate d (Some (e + 1 + Z.of_nat k)%Z).
  Proof.
    induction values as [|v values IH]; intros e k r p Hp H; [destruct k; discriminate|]. cbn [passes pass] in H. unfold reset in H. rewrite Hp in H. cbn [p_epoch] in H. destruct k as [|k].
    - injection H as <-. replace (e + 1 + Z.of_nat 0)%Z with (e + 1)%Z by lia. reflexivity.
    - cbn [nth_error] in H. eapply IH in H; [|reflexivity]. rewrite H. replace (e + 1 + Z.of_nat (S k))%Z with (e + 1 + 1 + Z.of_nat k)%Z by lia. reflexivity.
  Qed.
  Lemma shared_passes w d : forall values p, p_call p = Shared -> passes w d p values = map (fun v => iterate d (if (v =? 0)%Z then None else Some v)) values.
  Proof.
    induction values as [|v values IH]; intros p Hp; [reflexivity|]. cbn [passes pass map]. unfold reset. rewrite Hp. cbn [p_epoch]. f_equal. apply IH. destruct w; [exact Hp|reflexivity].
  Qed.
  Lemma worker_passes d e : forall values p, p_call p = Counter e -> passes true d p values = map (fun _ => iterate d (Some (e + 1)%Z)) values.
  Proof. induction values as [|v values IH]; intros p Hp; [reflexivity|]. cbn [passes pass map]. rewrite IH by exact Hp. unfold reset. rewrite Hp. reflexivity. Qed.
  Lemma passes_len w d : forall values p, List.length (passes w d p values) = List.length values.
  Proof. induction values as [|v values IH]; intros p; [reflexivity|]. cbn [passes pass List.length]. rewrite IH. reflexivity. Qed.
End Proofs.
