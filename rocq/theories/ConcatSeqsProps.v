(** C30: a concatenated sequence is its sub-sequences, joined in order. *)
From Coq Require Import String.
From Verif Require Import Base ListLemmas PyDict ConcatSeqsModel ConcatSeqsSpec ConcatSeqsProofs.
Local Open Scope string_scope. Local Open Scope nat_scope. Local Open Scope list_scope.
Local Notation length := List.length.
Local Notation concat := List.concat.

(** The sub-sequence indices tile the inner order: together they are 0, 1, 2, … without gap or repetition, and those of a sequence are the places of its sub-sequences' tags in the inner sequence list. *)
Theorem C30_tiling seq_list : Forall (fun tags => tags <> []) seq_list -> exists idxs, cur_sub_seq_idxs seq_list = Ok idxs /\ length idxs = length seq_list /\ concat idxs = seq 0 (length (sub_seq_list seq_list)) /\
  forall k tags, nth_error seq_list k = Some tags -> exists l, nth_error idxs k = Some l /\ map (fun i => nth_error (sub_seq_list seq_list) i) l = map Some tags.
Proof.
  intros H. destruct (cur_sub_ok seq_list H) as (l&E&H1&H2&H3). exists l. split; [exact E|]. split; [exact H1|]. split; [exact H2|]. intros k tags Ht. eexists. split; [apply H3, Ht|]. unfold sub_seq_list.
  assert (Hs : exists after, concat seq_list = concat (firstn k seq_list) ++ tags ++ after) by (exists (concat (skipn (S k) seq_list)); clear - Ht; revert seq_list Ht; induction k as [|k IH]; intros [|x l] E; try discriminate; [injection E as ->; reflexivity|]; cbn [firstn concat skipn]; rewrite <- app_assoc; f_equal; now apply IH).
  destruct Hs as (after&->). generalize (concat (firstn k seq_list)). clear. induction tags as [|t tags IH]; intros l; [reflexivity|]. cbn [length seq map]. f_equal; [rewrite nth_error_app2, Nat.sub_diag by lia; reflexivity|]. specialize (IH (l ++ [t])). rewrite app_length in IH. cbn [length] in IH. replace (length l + 1) with (S (length l)) in IH by lia. rewrite <- app_assoc in IH. exact IH.
Qed.
Print Assumptions C30_tiling.

(** Whatever the dataset gives for a sequence is, at every data key, the in-order concatenation of exactly the sub-sequences with the tags of that sequence, each but the last with the options applied, the last one unchanged. *)
Theorem C30_joined c keys inner seq_list idxs k tags r :
  Forall (fun tags => tags <> []) seq_list -> map fst inner = sub_seq_list seq_list -> cur_sub_seq_idxs seq_list = Ok idxs -> nth_error seq_list k = Some tags ->
  collect_single_seq c keys inner seq_list idxs k = Ok r ->
  exists before subs after fs, inner = before ++ subs ++ after /\ length before = length (sub_seq_list (firstn k seq_list)) /\ map fst subs = tags /\
    r = Some fs /\ map fst fs = keys /\ forall key out, In (key, out) fs -> joined c key (map snd subs) out.
Proof. apply collect_sound. Qed.
Print Assumptions C30_joined.
(** It does give one, if all keys are there and the options are applicable. *)
Theorem C30_no_failure c keys inner seq_list idxs k tags subs front lst before after :
  Forall (fun tags => tags <> []) seq_list -> map fst inner = sub_seq_list seq_list -> cur_sub_seq_idxs seq_list = Ok idxs -> nth_error seq_list k = Some tags ->
  inner = before ++ subs ++ after -> length before = length (sub_seq_list (firstn k seq_list)) -> length subs = length tags -> map snd subs = front ++ [lst] ->
  (forall key, In key keys -> dhas lst key = true /\ Forall (fun sub => applicable c sub key) front) ->
  exists fs, collect_single_seq c keys inner seq_list idxs k = Ok (Some fs).
Proof. apply collect_complete. Qed.
Print Assumptions C30_no_failure.
(** Behind the last sequence there is nothing, and only there. *)
Theorem C30_end c keys inner seq_list idxs k : cur_sub_seq_idxs seq_list = Ok idxs -> (collect_single_seq c keys inner seq_list idxs k = Ok None <-> length seq_list <= k).
Proof.
  intros _. unfold collect_single_seq. rewrite <- nth_error_None. destruct (nth_error seq_list k) as [tags|]; [|tauto]. split; [|discriminate]. destruct (nth_error idxs k); [|discriminate]. intros H. apply bind_Ok in H. destruct H as (?&_&H). apply bind_Ok in H. destruct H as (?&_&H). apply bind_Ok in H. destruct H as (?&_&H). discriminate.
Qed.
Print Assumptions C30_end.
(** Without options the result is the plain concatenation. *)
Theorem C30_plain key subs out : joined (Config [] [] []) key subs out -> exists ds, Forall2 (fun sub d => dget sub key = Some d) subs ds /\ out = concat ds.
Proof.
  intros (pieces&front&lst&->&->&fp&lp&->&Hl&HF). exists (fp ++ [lp]). split; [|reflexivity]. apply Forall2_app; [|constructor; [exact Hl|constructor]]. eapply Forall2_impl'; [|exact HF]. cbn beta. intros a b (data&Hd&d1&d2&H1&H2&H3). cbn in *. now subst.
Qed.
Print Assumptions C30_plain.

(** The purpose of repeating the last frame up to a multiple of [m]: the number of blocks of [m] frames of the whole is the sum of those of the parts. *)
Theorem C30_repeat_keeps_block_count c key subs out m : joined c key subs out -> dget (remove_postfix c) key = None -> dget (pad_narrow c) key = None -> dget (repeat_multiple c) key = Some m -> 0 < m ->
  ceildiv (length out) m = list_sum (map (fun sub => match dget sub key with Some d => ceildiv (length d) m | None => 0 end) subs).
Proof. intros H Hp Hn Hr Hm. eapply repeat_total; eauto. destruct H as (?&f&l&->&_). intros E. apply app_eq_nil in E. now destruct E. Qed.
Print Assumptions C30_repeat_keeps_block_count.
(** The purpose of padding to a multiple of the target's length: if target length = ceil((data length − P) / F) holds for every part (any integer P), it holds for the whole. Here -((P - l) / F) is the ceiling of (l - P) / F. *)
Theorem C30_pad_keeps_alignment c key tk subs dout tout F P : joined c key subs dout -> joined c tk subs tout ->
  dget (remove_postfix c) key = None -> dget (repeat_multiple c) key = None -> dget (pad_narrow c) key = Some (tk, F) -> 0 < F ->
  dget (remove_postfix c) tk = None -> dget (repeat_multiple c) tk = None -> dget (pad_narrow c) tk = None ->
  (forall sub, In sub subs -> exists d t, dget sub key = Some d /\ dget sub tk = Some t /\ Z.of_nat (length t) = (- ((P - Z.of_nat (length d)) / Z.of_nat F))%Z) ->
  Z.of_nat (length tout) = (- ((P - Z.of_nat (length dout)) / Z.of_nat F))%Z.
Proof.
  intros H1 H2 Hp Hr Hn HF Hp' Hr' Hn' Hs. rewrite <- (pad_total c key subs dout tk F P) by assumption. f_equal. destruct H2 as (pieces&front&lst&->&->&fp&lp&->&Hl&HF2). rewrite concat_app, app_length, map_app, list_sum_app. cbn [concat map list_sum fold_right]. rewrite app_nil_r, Hl, Nat.add_0_r. f_equal. clear - HF2 Hp' Hr' Hn'. induction HF2 as [|sub p front fp (data&Hd&d1&d2&E1&E2&E3) HF IH]; [reflexivity|]. cbn [concat map list_sum fold_right]. rewrite app_length, IH, Hd. rewrite Hp' in E1. rewrite Hr' in E2. rewrite Hn' in E3. now subst.
Qed.
Print Assumptions C30_pad_keeps_alignment.

(** Findings. The padding uses the target's length before the postfix label is removed from the target. So with both options together the documented relation does not carry over to the whole. *)
Definition both := Config [("classes", 0%Z)] [] [("data", ("classes", 2))].
Definition sub1 : features := [("data", [1; 2; 3; 4]%Z); ("classes", [5; 0]%Z)].
Theorem C30_pad_with_postfix_refuted : exists c F inner seq_list idxs dout tout,
  dget (pad_narrow c) "data" = Some ("classes", F) /\ map fst inner = sub_seq_list seq_list /\
  (forall t sub, In (t, sub) inner -> exists d t', dget sub "data" = Some d /\ dget sub "classes" = Some t' /\ length t' = ceildiv (length d) F) /\
  cur_sub_seq_idxs seq_list = Ok idxs /\ collect_single_seq c ["data"; "classes"] inner seq_list idxs 0 = Ok (Some [("data", dout); ("classes", tout)]) /\ length tout <> ceildiv (length dout) F.
Proof.
  exists both, 2, [("a", sub1); ("b", sub1)], [["a"; "b"]], [[0; 1]], [1; 2; 3; 4; 1; 2; 3; 4]%Z, [5; 5; 0]%Z. split; [reflexivity|]. split; [reflexivity|]. split; [|split; [reflexivity|split; [reflexivity|discriminate]]]. intros t sub [E|[E|[]]]; injection E as <- <-; do 2 eexists; repeat (split; [reflexivity|]); reflexivity.
Qed.
Print Assumptions C30_pad_with_postfix_refuted.
(** An empty sub-sequence in between cannot be padded, and its postfix cannot be removed. *)
Theorem C30_empty_part_refuted : exists c c' inner seq_list idxs, map fst inner = sub_seq_list seq_list /\ cur_sub_seq_idxs seq_list = Ok idxs /\
  collect_single_seq (Config [] [] []) ["data"; "classes"] inner seq_list idxs 0 = Ok (Some [("data", [1]%Z); ("classes", [7; 7]%Z)]) /\
  collect_single_seq c ["data"; "classes"] inner seq_list idxs 0 = Err AssertionError /\ collect_single_seq c' ["data"; "classes"] inner seq_list idxs 0 = Err IndexError.
Proof. exists (Config [] [] [("data", ("classes", 1))]), (Config [("data", 0%Z)] [] []), [("a", [("data", []); ("classes", [7]%Z)]); ("b", [("data", [1]%Z); ("classes", [7]%Z)])], [["a"; "b"]], [[0; 1]]. repeat split. Qed.
Print Assumptions C30_empty_part_refuted.

(** A case with three sub-sequences, two sequences, all options. *)
Definition ex_c := Config [("classes", 0%Z)] [("data", 3)] [].
Definition ex_inner : list (string * features) := [("a", [("data", [1; 2]%Z); ("classes", [5; 0]%Z)]); ("b", [("data", [3]%Z); ("classes", [6; 0]%Z)]); ("c", [("data", [4; 5; 6; 7]%Z); ("classes", [8; 0]%Z)])].
Example ex_tiling : cur_sub_seq_idxs [["a"]; ["b"; "c"]] = Ok [[0]; [1; 2]].
Proof. reflexivity. Qed.
Example ex_collect : collect_single_seq ex_c ["data"; "classes"] ex_inner [["a"]; ["b"; "c"]] [[0]; [1; 2]] 1 = Ok (Some [("data", [3; 3; 3; 4; 5; 6; 7]%Z); ("classes", [6; 8; 0]%Z)]).
Proof. reflexivity. Qed.
Example ex_pad : collect_single_seq (Config [] [] [("data", ("classes", 2))]) ["data"; "classes"] ex_inner [["a"; "b"; "c"]] [[0; 1; 2]] 0 = Ok (Some [("data", [1; 2; 2; 2; 3; 3; 3; 3; 4; 5; 6; 7]%Z); ("classes", [5; 0; 6; 0; 8; 0]%Z)]).
Proof. reflexivity. Qed.
