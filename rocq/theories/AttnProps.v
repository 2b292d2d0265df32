(** C92: self-attention on padded sequences, and step by step. C93: rotary positions. *)
From Verif Require Import Base ListLemmas ConvSpec AttnModel AttnSpec AttnProofs.
From Coq Require Import Ring_theory.
Local Open Scope nat_scope.

(** Each frame attends to all frames of its sequence and to nothing after its end, whatever is there. *)
Theorem C92_self_attention : forall (X Q K : Type) (fq : X -> Q) (fk : X -> K) fv energy softmax a rows xs, softmax_contract softmax -> batch_of a rows xs ->
  results_for xs (attend_all fq fk fv energy softmax) (self_attention fq fk fv energy softmax a rows).
Proof. intros X Q K fq fk fv energy softmax a rows xs Hsm Hb. apply self_attention_ok; assumption. Qed.
Print Assumptions C92_self_attention.

(** Causal self-attention on whole sequences: each frame attends to itself and the ones before. The state has the frames. *)
Theorem C92_sequence : forall (X Q K : Type) (fq : X -> Q) (fk : X -> K) fv energy softmax a rows xs st, softmax_contract softmax -> batch_of a rows xs ->
  match st with Some s => accum_axis s = Static 0 | None => True end ->
  exists out st', causal_sequence fq fk fv energy softmax a rows st = Ok (out, st') /\ results_for xs (attend_past fq fk fv energy softmax []) out /\ holds fk fv st' xs.
Proof. intros X Q K fq fk fv energy softmax a rows xs st Hsm Hb Hs. apply causal_sequence_ok; assumption. Qed.
Print Assumptions C92_sequence.

(** Steps after frames [xs], also of different numbers, give what the whole sequences would give at these places. *)
Theorem C92_steps : forall (X Q K : Type) (fq : X -> Q) (fk : X -> K) fv energy softmax st xs steps ys, softmax_contract softmax -> holds fk fv st xs -> steps_of steps ys -> length ys = length xs ->
  exists os st', causal_steps fq fk fv energy softmax steps st = Ok (os, st') /\ length os = length steps /\
    steps_of os (map (fun xy => skipn (length (fst xy)) (attend_past fq fk fv energy softmax [] (fst xy ++ snd xy))) (combine xs ys)) /\
    holds fk fv st' (map (fun xy => fst xy ++ snd xy) (combine xs ys)).
Proof.
  intros X Q K fq fk fv energy softmax st xs steps ys Hsm Hh Hs Hl. destruct (causal_steps_ok fq fk fv energy softmax Hsm steps st xs ys Hh Hs Hl) as (os & st' & E & Ho & Hso & Hh').
  exists os, st'. split; [exact E|]. split; [exact Ho|]. split; [|exact Hh'].
  rewrite (map_ext _ (fun xy => attend_past fq fk fv energy softmax (fst xy) (snd xy))); [exact Hso|]. intros [x y]. cbn [fst snd].
  rewrite attend_past_app. cbn [app]. rewrite skipn_app. rewrite (past_len fq fk fv energy softmax [] x), Nat.sub_diag, skipn_all2 by (rewrite past_len; lia). reflexivity.
Qed.
Print Assumptions C92_steps.

(** From the start: the frames step by step give what the whole sequences give. *)
Theorem C92_steps_from_start : forall (X Q K : Type) (fq : X -> Q) (fk : X -> K) fv energy softmax n rows steps, softmax_contract softmax ->
  batch_of (Static n) rows rows -> steps_of steps rows ->
  exists os st' out st'', causal_steps fq fk fv energy softmax steps (initial_state (length rows)) = Ok (os, st') /\
    causal_sequence fq fk fv energy softmax (Static n) rows None = Ok (out, st'') /\ length os = length steps /\ steps_of os out /\ holds fk fv st' rows /\ holds fk fv st'' rows.
Proof.
  intros X Q K fq fk fv energy softmax n rows steps Hsm Hb Hs.
  destruct (causal_steps_ok fq fk fv energy softmax Hsm steps (initial_state (length rows)) (repeat [] (length rows)) rows) as (os & st' & E & Ho & Hso & Hh');
    [apply initial_holds; reflexivity|exact Hs|rewrite repeat_length; reflexivity|].
  assert (Ec : forall g : list X * list X -> list Z, map g (combine (repeat [] (length rows)) rows) = map (fun y => g ([], y)) rows) by (intros g; clear; induction rows; cbn; congruence).
  assert (Ec2 : map (fun xy => fst xy ++ snd xy) (combine (repeat [] (length rows)) rows) = rows) by (clear; induction rows; cbn; congruence).
  rewrite Ec in Hso. rewrite Ec2 in Hh'. cbn [fst snd] in Hso.
  destruct (causal_sequence_ok fq fk fv energy softmax Hsm (Static n) rows rows None Hb I) as (out & st'' & Es & Hr & Hh2).
  exists os, st', out, st''. split; [exact E|]. split; [exact Es|]. split; [exact Ho|]. split; [|split; [exact Hh'|exact Hh2]].
  assert (Eo : out = map (attend_past fq fk fv energy softmax []) rows).
  { unfold causal_sequence in Es. injection Es as Es _. rewrite <- Es. apply map_ext. intros row.
    pose proof (past_eq fq fk fv energy softmax Hsm [] [] row) as Hp. cbn [app length] in Hp. rewrite app_nil_r in Hp. exact Hp. }
  rewrite Eo. exact Hso.
Qed.
Print Assumptions C92_steps_from_start.

(** A prompt as padded sequences of different lengths, then steps: as the whole sequences at once. *)
Theorem C92_prompt_then_steps : forall (X Q K : Type) (fq : X -> Q) (fk : X -> K) fv energy softmax a rows xs steps ys, softmax_contract softmax -> batch_of a rows xs ->
  steps_of steps ys -> length ys = length xs ->
  exists out st os st', causal_sequence fq fk fv energy softmax a rows None = Ok (out, st) /\ causal_steps fq fk fv energy softmax steps st = Ok (os, st') /\
    exists res, steps_of os res /\ length res = length xs /\
      (forall b x y o r, nth_error xs b = Some x -> nth_error ys b = Some y -> nth_error out b = Some o -> nth_error res b = Some r ->
         firstn (length x) o ++ r = attend_past fq fk fv energy softmax [] (x ++ y)) /\
      holds fk fv st' (map (fun xy => fst xy ++ snd xy) (combine xs ys)).
Proof.
  intros X Q K fq fk fv energy softmax a rows xs steps ys Hsm Hb Hs Hl.
  destruct (causal_sequence_ok fq fk fv energy softmax Hsm a rows xs None Hb I) as (out & st & Es & Hr & Hh).
  destruct (causal_steps_ok fq fk fv energy softmax Hsm steps st xs ys Hh Hs Hl) as (os & st' & E & Ho & Hso & Hh').
  exists out, st, os, st'. split; [exact Es|]. split; [exact E|]. eexists. split; [exact Hso|]. split; [rewrite map_length, combine_length; lia|]. split; [|exact Hh'].
  intros b x y o r Hx Hy Hout Hres. destruct (Forall2_nth _ _ _ b x o Hr Hx Hout) as [junk ->]. rewrite firstn_app, past_len, Nat.sub_diag, firstn_O, app_nil_r, firstn_all2 by (rewrite past_len; lia).
  rewrite attend_past_app. cbn [app]. f_equal. rewrite nth_error_map in Hres. destruct (nth_error (combine xs ys) b) as [[x' y']|] eqn:Ec; [|discriminate]. cbn in Hres. injection Hres as <-.
  assert (x' = x /\ y' = y) as [-> ->]; [|reflexivity]. clear - Ec Hx Hy. revert ys b Ec Hx Hy. induction xs as [|x0 xs IH]; intros [|y0 ys] [|b] Ec Hx Hy; cbn in *; try discriminate; [split; congruence|eapply IH; eassumption].
Qed.
Print Assumptions C92_prompt_then_steps.

(** Causal: the result of a frame does not depend on later ones. *)
Theorem C92_causal : forall (X Q K : Type) (fq : X -> Q) (fk : X -> K) fv energy softmax x y z,
  firstn (length x) (attend_past fq fk fv energy softmax [] (x ++ y)) = firstn (length x) (attend_past fq fk fv energy softmax [] (x ++ z)).
Proof.
  intros X Q K fq fk fv energy softmax x y z. rewrite !attend_past_app, !firstn_app, !past_len, Nat.sub_diag, !firstn_O. reflexivity.
Qed.
Print Assumptions C92_causal.

(** A whole sequence after a state which has frames already is refused. *)
Theorem C92_sequence_with_history : forall (X Q K : Type) (fq : X -> Q) (fk : X -> K) fv energy softmax a rows st, accum_axis st <> Static 0 ->
  causal_sequence fq fk fv energy softmax a rows (Some st) = Err NotImplementedError.
Proof. intros X Q K fq fk fv energy softmax a rows st H. unfold causal_sequence. destruct (accum_axis st) as [[|n]|lens]; [congruence|reflexivity|reflexivity]. Qed.
Print Assumptions C92_sequence_with_history.

(** A softmax like this: weight 1 for each maximum (the limit for large energies, not normalised). *)
Definition hardmax (l : list (option Z)) : list Z :=
  let m := fold_right (fun o m => match o, m with Some e, Some m => Some (Z.max e m) | None, m => m | o, None => o end) None l in
  map (fun o => match o, m with Some e, Some m => if Z.eqb e m then 1%Z else 0%Z | _, _ => 0%Z end) l.
Example C92_hardmax : softmax_contract hardmax.
Proof.
  split; [intros l; unfold hardmax; rewrite map_length; reflexivity|]. intros l k _. unfold hardmax.
  assert (E : fold_right (fun o m => match o, m with Some e, Some m => Some (Z.max e m) | None, m => m | o, None => o end) None (map Some l ++ repeat None k) =
    fold_right (fun o m => match o, m with Some e, Some m => Some (Z.max e m) | None, m => m | o, None => o end) None (map Some l)).
  { rewrite fold_right_app. f_equal. induction k as [|k IH]; [reflexivity|]. cbn. exact IH. }
  rewrite E, map_app. clear E. f_equal. induction k as [|k IH]; [reflexivity|]. cbn [repeat map]. f_equal. exact IH.
Qed.
(** Frames are numbers, used for query, key and value. Two sequences of 3 and 1 frames, with 99 as padding. *)
Definition demo_energy := relative (fun q k : Z => (q * k)%Z) (fun (q : Z) d => (if d <=? -1 then 4 else 0)%Z).
Example C92_example_batch : batch_of (Dynamic [3; 1]) [[1; 2; 3]; [4; 99; 98]]%Z [[1; 2; 3]; [4]]%Z.
Proof. split; [reflexivity|]. repeat constructor; [exists []; reflexivity|exists [99; 98]%Z; reflexivity]. Qed.
Example C92_example_sequence : causal_sequence (fun x => x) (fun x => x) (fun x => x) demo_energy hardmax (Dynamic [3; 1]) [[1; 2; 3]; [4; 99; 98]]%Z None =
  Ok ([[1; 1; 2]; [4; 99; 99]]%Z, {| k_accum := [[1; 2; 3]; [4; 99; 98]]%Z; v_accum := [[1; 2; 3]; [4; 99; 98]]%Z; accum_axis := Dynamic [3; 1] |}).
Proof. reflexivity. Qed.
(** Two steps after it: the new frames are written over the padding. *)
Example C92_example_steps : (let* (_, st) := causal_sequence (fun x => x) (fun x => x) (fun x => x) demo_energy hardmax (Dynamic [3; 1]) [[1; 2; 3]; [4; 99; 98]]%Z None in
    causal_steps (fun x => x) (fun x => x) (fun x => x) demo_energy hardmax [[5; 6]; [7; -2]]%Z st) =
  Ok ([[5; 6]; [7; -2]]%Z, {| k_accum := [[1; 2; 3; 5; 7]; [4; 6; -2; -2; -2]]%Z; v_accum := [[1; 2; 3; 5; 7]; [4; 6; -2; -2; -2]]%Z; accum_axis := Dynamic [5; 3] |}).
Proof. reflexivity. Qed.
Example C92_example_steps_of : steps_of [[5; 6]; [7; -2]]%Z [[5; 7]; [6; -2]]%Z.
Proof. split; [repeat constructor|]. intros [|[|i]] xs H; [injection H as <-; repeat constructor|injection H as <-; repeat constructor|destruct i; discriminate]. Qed.

(** * C93 *)
(** The score of a rotated query and key depends on the distance of their positions only: it is the product of the query, rotated by
    the angle of the distance, with the key. In any commutative ring with sines and cosines for which the addition theorem holds. *)
Theorem C93_relative : forall (R : Type) (zero one : R) add mul sub opp, ring_theory zero one add mul sub opp eq ->
  forall half sin cos dsin dcos, angles add mul sub half sin cos dsin dcos ->
  forall i j q k, length q = 2 * half -> length k = 2 * half ->
  dot zero add mul (apply_rope add mul sub q (encoding sin cos half i)) (apply_rope add mul sub k (encoding sin cos half j)) =
  relative_energy zero add mul sub (dsin (Z.of_nat i - Z.of_nat j)%Z) (dcos (Z.of_nat i - Z.of_nat j)%Z) 0 q k.
Proof. intros R zero one add mul sub opp Hr half sin cos dsin dcos Ha i j q k Hq Hk. eapply rope_energy; eassumption. Qed.
Print Assumptions C93_relative.

(** So all positions can be moved. *)
Theorem C93_moved : forall (R : Type) (zero one : R) add mul sub opp, ring_theory zero one add mul sub opp eq ->
  forall half sin cos dsin dcos, angles add mul sub half sin cos dsin dcos ->
  forall i j by_ q k, length q = 2 * half -> length k = 2 * half ->
  dot zero add mul (apply_rope add mul sub q (encoding sin cos half (i + by_))) (apply_rope add mul sub k (encoding sin cos half (j + by_))) =
  dot zero add mul (apply_rope add mul sub q (encoding sin cos half i)) (apply_rope add mul sub k (encoding sin cos half j)).
Proof.
  intros R zero one add mul sub opp Hr half sin cos dsin dcos Ha i j by_ q k Hq Hk. rewrite !(C93_relative R zero one add mul sub opp Hr half sin cos dsin dcos Ha) by assumption.
  replace (Z.of_nat (i + by_) - Z.of_nat (j + by_))%Z with (Z.of_nat i - Z.of_nat j)%Z by lia. reflexivity.
Qed.
Print Assumptions C93_moved.

(** At the same position it is the product without rotation, in particular the length of a vector is kept. *)
Theorem C93_same_position : forall (R : Type) (zero one : R) add mul sub opp, ring_theory zero one add mul sub opp eq ->
  forall half sin cos dsin dcos, angles add mul sub half sin cos dsin dcos -> (forall f, f < half -> dsin 0%Z f = zero /\ dcos 0%Z f = one) ->
  forall i q k, length q = 2 * half -> length k = 2 * half ->
  length (apply_rope add mul sub q (encoding sin cos half i)) = length q /\
  dot zero add mul (apply_rope add mul sub q (encoding sin cos half i)) (apply_rope add mul sub k (encoding sin cos half i)) = dot zero add mul q k.
Proof.
  intros R zero one add mul sub opp Hr half sin cos dsin dcos Ha H0 i q k Hq Hk. split; [apply rope_len; assumption|]. rewrite (C93_relative R zero one add mul sub opp Hr half sin cos dsin dcos Ha) by assumption.
  rewrite Z.sub_diag. eapply relative_zero; try eassumption. intros g _ Hg. apply H0. lia.
Qed.
Print Assumptions C93_same_position.

(** Angles of 90 degrees per position for the first pair, 0 for the second. *)
Definition sin4 (d : Z) : Z := match (d mod 4)%Z with 1%Z => 1%Z | 3%Z => (-1)%Z | _ => 0%Z end.
Definition cos4 (d : Z) : Z := match (d mod 4)%Z with 0%Z => 1%Z | 2%Z => (-1)%Z | _ => 0%Z end.
Lemma mod4_cases (d : Z) : (d mod 4 = 0 \/ d mod 4 = 1 \/ d mod 4 = 2 \/ d mod 4 = 3)%Z.
Proof. pose proof (Z.mod_pos_bound d 4). lia. Qed.
Example C93_example_angles : angles Z.add Z.mul Z.sub 2 (fun i f => match f with 0 => sin4 (Z.of_nat i) | _ => 0%Z end) (fun i f => match f with 0 => cos4 (Z.of_nat i) | _ => 1%Z end)
  (fun d f => match f with 0 => sin4 d | _ => 0%Z end) (fun d f => match f with 0 => cos4 d | _ => 1%Z end).
Proof.
  intros i j [|f] _; [|split; reflexivity]. unfold sin4, cos4. rewrite Zminus_mod.
  destruct (mod4_cases (Z.of_nat i)) as [-> | [-> | [-> | ->]]]; destruct (mod4_cases (Z.of_nat j)) as [-> | [-> | [-> | ->]]]; split; reflexivity.
Qed.
Example C93_example : apply_rope Z.add Z.mul Z.sub [5; 7; 2; 3]%Z (encoding (fun i f => match f with 0 => sin4 (Z.of_nat i) | _ => 0%Z end) (fun i f => match f with 0 => cos4 (Z.of_nat i) | _ => 1%Z end) 2 1) = [-7; 5; 2; 3]%Z.
Proof. reflexivity. Qed.

Example C92_example_relative : relative (fun q k : Z => (10 * q * k)%Z) (fun (q : Z) d => (q * 100 + d)%Z) 3 1 2%Z 5%Z = 298%Z.
Proof. reflexivity. Qed.
