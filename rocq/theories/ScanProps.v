(* C107: scan over a given dim; C108: scan with a condition; C109: TensorArray. *)
From Coq Require Import List Arith Bool Lia.
From Verif Require Import Base ScanModel ScanSpec ScanProofs.
Import ListNotations.

(* Every sequence of the batch gets the outputs and the final state which it gets alone, whatever the padding is. *)
Theorem C107_scan : forall X H S Y fh fs body lens h0 (init : list S) (xs : list (list X)) fuel,
  entrywise_x (H:=H) (Y:=Y) fh fs body -> length init = length lens ->
  (forall f, In f xs -> length f = length lens) -> is_max (length xs) lens -> length xs < fuel ->
  exists ys h ss, scan_known fuel body lens (h0, init) xs = Ok (ys, (h, ss)) /\
    length ys = length xs /\ length ss = length lens /\ h = Nat.iter (length xs) fh h0 /\
    forall b n s0 l, nth_error lens b = Some n -> nth_error init b = Some s0 -> own xs b n l ->
      nth_error ss b = Some (snd (alone fh fs h0 s0 l)) /\
      forall t y, nth_error (fst (alone fh fs h0 s0 l)) t = Some y -> exists f, nth_error ys t = Some f /\ nth_error f b = Some y.
Proof.
  intros X H S Y fh fs body lens h0 init xs fuel Hb Hi Hf Hm Hfu.
  assert (length xs = list_max_ lens) as E by (eapply is_max_unique; [exact Hm|apply max_is]).
  destruct (scan_known_ok fh fs fuel body lens h0 init xs Hb Hi Hf E ltac:(lia)) as (ys & ss & H1 & H2 & H3 & H4).
  exists ys, (Nat.iter (length xs) fh h0), ss. rewrite E. auto 6.
Qed.
Print Assumptions C107_scan.

Definition ex_body (x : list nat) (s : nat * list nat) : list nat * (nat * list nat) :=
  (map (fun p => fst p + snd p) (combine x (snd s)), (fst s + 1, map (fun p => fst p + snd p) (combine x (snd s)))).
Example C107_ex_body : entrywise_x (fun h => h + 1) (fun x (_ : nat) s => (x + s, x + s)) ex_body.
Proof. intros xs h ss _. reflexivity. Qed.
Example C107_ex : scan_known 5 ex_body [3; 1] (0, [0; 0]) [[1; 10]; [2; 77]; [3; 77]] =
  Ok ([[1; 10]; [3; 87]; [6; 87]], (3, [6; 10])).
Proof. vm_compute. reflexivity. Qed.

(* With a condition: the new dim has the number of iterations of the loop for this sequence alone (while cond: body,
   or the other way around, and not more than max_seq_len) as size, and its outputs. *)
Theorem C108_outputs : forall H S Y (fh : H -> H) (fs : H -> S -> Y * S) gc body cond before limit h0 init runs fuel,
  entrywise fh fs body -> entrywise_cond gc cond ->
  Forall2 (fun s0 r => loop_alone before fh fs gc h0 s0 (fst r) (snd r)) init runs ->
  (forall r, In r runs -> length (fst r) < fuel) -> 0 < fuel ->
  exists ys st lens, scan_cond fuel body cond (length init) before limit (h0, init) = Ok (ys, st, lens) /\
    is_max (length ys) lens /\
    Forall2 (fun r n => n = match limit with Some m => min m (length (fst r)) | None => length (fst r) end) runs lens /\
    forall b r n t y, nth_error runs b = Some r -> nth_error lens b = Some n -> t < n -> nth_error (fst r) t = Some y ->
      exists f, nth_error ys t = Some f /\ nth_error f b = Some y.
Proof.
  intros H S Y fh fs gc body cond before limit h0 init runs fuel Hb Hc HR Hfu Hf0.
  pose proof (ListLemmas.Forall2_len _ _ _ HR) as Hlen.
  set (N := list_max_ (map (fun r => length (fst r)) runs)). set (K := match limit with Some m => min N m | None => N end).
  assert (N < fuel) as HN.
  { unfold N. destruct (max_is (map (fun r => length (fst r)) runs)) as [_ [X|[X _]]]; [|lia]. apply in_map_iff in X as (r & <- & Hr). now apply Hfu. }
  destruct (scan_cond_ok fh fs gc fuel body cond before limit h0 init runs Hb Hc Hlen) as (ys & ss & lens & H1 & H2 & H3 & H4 & H5).
  { intros b r s0 Hr Hs. clear -HR Hr Hs. revert b Hr Hs. induction HR as [|x y l l' Hxy HR IH]; intros [|b]; cbn; try discriminate; [congruence|apply IH]. }
  { fold N K. unfold K. destruct limit; lia. }
  fold N K in H1, H2, H5. exists ys, (Nat.iter K fh h0, ss), lens. split; [exact H1|].
  assert (lens = map (Nat.min K) (map (fun r => length (fst r)) runs)) as El.
  { apply ListLemmas.nth_error_ext. intros b. rewrite !nth_error_map. destruct (nth_error runs b) as [r|] eqn:Er; cbn [option_map].
    - destruct (nth_error init b) as [s0|] eqn:Es; [|apply nth_error_None in Es; assert (b < length runs) by (apply nth_error_Some; congruence); lia].
      apply (H5 b r s0 Er Es).
    - apply nth_error_None in Er. apply nth_error_None. lia. }
  assert (forall r, In r runs -> length (fst r) <= N) as Hle.
  { intros r Hr. unfold N. apply max_le. apply in_map_iff. now exists r. }
  split; [rewrite H2, El; apply max_of_mins; fold N; unfold K; destruct limit; lia|]. split.
  - rewrite El, map_map. unfold K. clear -Hle. clearbody N. induction runs as [|r runs IH]; cbn [map]; constructor; auto.
    + specialize (Hle r (or_introl eq_refl)). destruct limit; lia.
    + apply IH. intros x Hx. apply Hle. now right.
  - intros b r n t y Hr Hn Ht Hy.
    destruct (nth_error init b) as [s0|] eqn:Es; [|apply nth_error_None in Es; assert (b < length runs) by (apply nth_error_Some; congruence); lia].
    destruct (H5 b r s0 Hr Es) as (X & _ & Z). apply (Z t y); [|exact Hy]. rewrite Hn in X. injection X as ->. lia.
Qed.
Print Assumptions C108_outputs.

(* The final state is the one which the last iteration started with (unless max_seq_len stopped the loop). *)
Theorem C108_state : forall H S Y (fh : H -> H) (fs : H -> S -> Y * S) gc body cond before h0 init runs fuel,
  entrywise fh fs body -> entrywise_cond gc cond ->
  Forall2 (fun s0 r => loop_alone before fh fs gc h0 s0 (fst r) (snd r)) init runs ->
  (forall r, In r runs -> length (fst r) < fuel) -> 0 < fuel ->
  exists ys h ss lens, scan_cond fuel body cond (length init) before None (h0, init) = Ok (ys, (h, ss), lens) /\
    forall b r s0, nth_error runs b = Some r -> nth_error init b = Some s0 ->
      nth_error ss b = Some (after fh fs h0 s0 (length (fst r) - 1)).
Proof.
  intros H S Y fh fs gc body cond before h0 init runs fuel Hb Hc HR Hfu Hf0.
  pose proof (ListLemmas.Forall2_len _ _ _ HR) as Hlen.
  assert (list_max_ (map (fun r => length (fst r)) runs) < fuel) as HN.
  { destruct (max_is (map (fun r => length (fst r)) runs)) as [_ [X|[X _]]]; [|lia]. apply in_map_iff in X as (r & <- & Hr). now apply Hfu. }
  destruct (scan_cond_ok fh fs gc fuel body cond before None h0 init runs Hb Hc Hlen) as (ys & ss & lens & H1 & H2 & H3 & H4 & H5).
  { intros b r s0 Hr Hs. clear -HR Hr Hs. revert b Hr Hs. induction HR as [|x y l l' Hxy HR IH]; intros [|b]; cbn; try discriminate; [congruence|apply IH]. }
  { exact HN. }
  do 4 eexists. split; [exact H1|]. intros b r s0 Hr Hs0. destruct (H5 b r s0 Hr Hs0) as (_ & X & _). rewrite X. unfold steps.
  assert (length (fst r) <= list_max_ (map (fun r => length (fst r)) runs)) as Hle.
  { apply max_le. apply in_map_iff. exists r. split; [reflexivity|eapply nth_error_In; eauto]. }
  apply Nat.leb_le in Hle. now rewrite Hle.
Qed.
Print Assumptions C108_state.

(* counting: while s < 3: yield s; s += 1 *)
Definition count_body (s : nat * list nat) : list nat * (nat * list nat) := (snd s, (fst s, map S (snd s))).
Definition count_cond (s : nat * list nat) : list bool := map (fun k => k <? 3) (snd s).
Example C108_ex : scan_cond 9 count_body count_cond 2 true None (0, [0; 2]) = Ok ([[0; 2]; [1; 2]; [2; 2]], (0, [2; 2]), [3; 1]).
Proof. vm_compute. reflexivity. Qed.
Example C108_ex_limit : scan_cond 9 count_body count_cond 2 true (Some 2) (0, [0; 2]) = Ok ([[0; 2]; [1; 2]], (0, [2; 2]), [2; 1]).
Proof. vm_compute. reflexivity. Qed.
Example C108_ex_hyps : entrywise (fun h => h) (fun _ s => (s, S s)) count_body /\ entrywise_cond (fun _ k => k <? 3) count_cond /\
  Forall2 (fun s0 r => loop_alone true (fun h : nat => h) (fun _ s => (s, S s)) (fun _ k => k <? 3) 0 s0 (fst r) (snd r)) [0; 2] [([0; 1; 2], 3); ([2], 3)].
Proof.
  split; [intros h ss; unfold count_body; cbn [fst snd]; now rewrite map_id|]. split; [intros h ss; reflexivity|].
  repeat constructor; cbn [fst snd loop_alone]; repeat (first [apply while_end; reflexivity | eapply while_step; [reflexivity|reflexivity|]]).
Qed.

(* Finding: this is not the final state of the documented loop, "while cond(...): body(...)". *)
Theorem C108_final_refuted : ~ (forall (fs : nat -> nat -> nat * nat) gc body cond init runs fuel,
  entrywise (fun h => h) fs body -> entrywise_cond gc cond ->
  Forall2 (fun s0 r => loop_alone true (fun h => h) fs gc 0 s0 (fst r) (snd r)) init runs ->
  (forall r, In r runs -> length (fst r) < fuel) -> 0 < fuel ->
  exists ys h lens, scan_cond fuel body cond (length init) true None (0, init) = Ok (ys, (h, map snd runs), lens)).
Proof.
  intros H.
  destruct (H (fun _ s => (s, S s)) (fun _ k => k <? 3) count_body count_cond [0] [([0; 1; 2], 3)] 9) as (ys & h & lens & E).
  - intros h ss. unfold count_body. cbn [fst snd]. now rewrite map_id.
  - intros h ss. reflexivity.
  - repeat constructor; cbn [fst snd loop_alone]; repeat (first [apply while_end; reflexivity | eapply while_step; [reflexivity|reflexivity|]]).
  - intros r [<-|[]]. cbn. lia.
  - lia.
  - vm_compute in E. discriminate.
Qed.
Print Assumptions C108_final_refuted.

(* push_back gives an array with the new entry at the end, and leaves arrays of other origin alone. *)
Theorem C109_push_back : forall A (st : store A) a x, a < length st ->
  let '(st', a') := ta_push_back st a x in
  contents st' a' = contents st a ++ [x] /\ forall b, b <> a -> contents st' b = contents st b.
Proof. intros A st a x Ha. destruct (push_spec st a x Ha) as (H1 & H2 & _). destruct (ta_push_back st a x). auto. Qed.
Print Assumptions C109_push_back.

(* Finding: the API is documented as functional, but the array itself changes, too. *)
Theorem C109_functional_refuted : ~ (forall (st : store nat) a x, a < length st ->
  let '(st', _) := ta_push_back st a x in contents st' a = contents st a).
Proof. intros H. specialize (H [[1]] 0 2). cbn in H. discriminate H. lia. Qed.
Print Assumptions C109_functional_refuted.
