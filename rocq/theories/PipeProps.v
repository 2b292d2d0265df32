(** C137: reading a dataset by PyTorch's data pipes. *)
From Coq Require Import String.
From Verif Require Import Base PyDict PipeModel PipeSpec PipeProofs.
Local Open Scope nat_scope.

(** One pass gives each sequence of the epoch once, in order, as it is in the dataset. It stops before the first sequence with a
    fraction that is not in its range or less than the one before, and only there. *)
Theorem C137_pass : forall (V : Type) (d : dataset V) epoch, let '(l, e) := iterate d (Some epoch) in
  samples_of d epoch l /\ (forall j, j < List.length l -> good_frac d epoch j) /\
  match e with
  | None => List.length l = List.length (ds_seqs d epoch)
  | Some e => e = AssertionError /\ List.length l < List.length (ds_seqs d epoch) /\ ~ good_frac d epoch (List.length l)
  end.
Proof. intros V. exact iterate_ok. Qed.
(** With the default callback, the passes are the epochs from 1 on. *)
Theorem C137_epochs : forall (V : Type) (d : dataset V) values, List.length (passes false d (new_pipe None) values) = List.length values /\
  forall k r, nth_error (passes false d (new_pipe None) values) k = Some r -> r = iterate d (Some (1 + Z.of_nat k)%Z).
Proof. intros V d values. split; [apply passes_len|]. intros k r H. exact (counter_passes d values 0%Z k r (new_pipe None) eq_refl H). Qed.
(** With the shared value, each pass is the epoch which is given at this time, in workers or not; before there is one, it is an error. *)
Theorem C137_shared : forall (V : Type) workers (d : dataset V) values, exists l, passes workers d (new_pipe (Some Shared)) values = l /\
  List.length l = List.length values /\
  forall k v, nth_error values k = Some v -> nth_error l k = Some (if (v =? 0)%Z then ([], Some AssertionError) else iterate d (Some v)).
Proof.
  intros V workers d values. eexists. split; [reflexivity|]. split; [apply passes_len|]. intros k v H. rewrite shared_passes by reflexivity. rewrite nth_error_map, H. cbn. destruct (v =? 0)%Z; reflexivity.
Qed.

Definition two : dataset nat := {| ds_keys := ["data"; "classes"]%string;
  ds_seqs := fun e => [("a", fun k => if String.eqb k "data" then 5 else 6); ("b", fun k => Z.to_nat e)]%string; ds_num_known := true; ds_one := 10%Z; ds_frac := fun _ i => Some (Z.of_nat i * 5)%Z |}.
(** "The default callback gives each pass its own epoch" is false in new workers: all are epoch 1. *)
Theorem C137_workers_refuted : exists (d : dataset nat) values k r, nth_error (passes true d (new_pipe None) values) k = Some r /\
  r <> iterate d (Some (1 + Z.of_nat k)%Z) /\ forall k' r', nth_error (passes true d (new_pipe None) values) k' = Some r' -> r' = iterate d (Some 1%Z).
Proof.
  exists two, [0; 0]%Z, 1. eexists. split; [reflexivity|]. split; [vm_compute; discriminate|]. intros [|[|[|k']]] r' H; cbn in H; try discriminate; injection H as <-; reflexivity.
Qed.
(** "The fractions never decrease" is false: one that is not known is in between. *)
Theorem C137_frac_refuted : exists (d : dataset nat) i j f g, i < j /\ ds_frac d 1 i = Some f /\ ds_frac d 1 j = Some g /\ (g < f)%Z /\
  j < List.length (ds_seqs d 1%Z) /\ snd (iterate d (Some 1%Z)) = None.
Proof.
  exists {| ds_keys := []; ds_seqs := fun e => [("a", fun _ => 5); ("b", fun _ => 6); ("c", fun _ => 7)]%string; ds_num_known := true; ds_one := 10%Z;
    ds_frac := fun _ i => nth i [Some 9; None; Some 1]%Z None |}, 0, 2, 9%Z, 1%Z. repeat split; auto; cbn; lia.
Qed.
(** "The data of each key is in the sample" is false for keys which the pipe uses itself: the data is overwritten. *)
Theorem C137_reserved_refuted : exists (d : dataset nat) k s, In k (ds_keys d) /\ nth_error (fst (iterate d (Some 1%Z))) 0 = Some s /\
  snd (iterate d (Some 1%Z)) = None /\ forall v, dget s k <> Some (Data v).
Proof.
  exists {| ds_keys := ["data"; "seq_tag"]%string; ds_seqs := fun e => [("a", fun _ => 5)]%string; ds_num_known := true; ds_one := 10%Z; ds_frac := fun _ _ => None |}, "seq_tag"%string.
  eexists. split; [cbn; auto|]. split; [reflexivity|]. split; [reflexivity|]. intros v. vm_compute. discriminate.
Qed.

Example C137_example : iterate two (Some 3%Z) = ([
  [("data", Data 5); ("classes", Data 6); ("seq_tag", Tag "a"); ("seq_idx", Num 0%Z); ("epoch", Num 3%Z); ("num_seqs", Num 2%Z); ("complete_frac", Num 0%Z)];
  [("data", Data 3); ("classes", Data 3); ("seq_tag", Tag "b"); ("seq_idx", Num 1%Z); ("epoch", Num 3%Z); ("num_seqs", Num 2%Z); ("complete_frac", Num 5%Z)]]%string, None).
Proof. reflexivity. Qed.
Example C137_example_decrease : let '(l, e) := iterate {| ds_keys := ["data"]%string; ds_seqs := fun e => [("a", fun _ => 5); ("b", fun _ => 6)]%string; ds_num_known := false; ds_one := 10%Z;
    ds_frac := fun _ i => nth i [Some 9; Some 1]%Z None |} (Some 1%Z) in List.length l = 1 /\ e = Some AssertionError.
Proof. split; reflexivity. Qed.
Example C137_example_not_initialized : iterate two (p_epoch (reset (new_pipe (Some NoOp)) 4)) = ([], Some AssertionError) /\
  map (fun r => snd r) (passes true two (new_pipe (Some Shared)) [0; 1; 5]%Z) = [Some AssertionError; None; None].
Proof. split; reflexivity. Qed.
Print Assumptions C137_pass.
Print Assumptions C137_epochs.
Print Assumptions C137_shared.
Print Assumptions C137_workers_refuted.
Print Assumptions C137_frac_refuted.
Print Assumptions C137_reserved_refuted.
