(** Model of reading a dataset by PyTorch's data pipes: /repo/returnn/torch/data/returnn_dataset_wrapper.py *)
From Coq Require Import String.
From Verif Require Import Base PyDict.
Local Open Scope nat_scope.

Section Pipe.
  Context {V : Type}.
  (** An entry of a sample: data of the dataset, the tag, or a number *)
  Inductive entry := Data (v : V) | Tag (s : string) | Num (z : Z).
  Definition sample := @dict string entry.
  (** A dataset: its keys, the sequences of an epoch with their tags and data, whether [num_seqs] works, and [get_complete_frac] with
      [allow_only_lr_suitable]. Simplified: [load_seqs] and [get_data] do not fail. Fractions are multiples of 1 / [ds_one]. *)
  Record dataset := { ds_keys : list string; ds_seqs : Z -> list (string * (string -> V)); ds_num_known : bool; ds_one : Z; ds_frac : Z -> nat -> option Z }.

  (** lines 110-117, 128: the keys of the wrapper overwrite the ones of the data *)
  Definition make_sample (keys : list string) (epoch num : Z) (i : nat) (seq : string * (string -> V)) (frac : Z) : sample :=
    let data := fold_left (fun d k => dset d k (Data (snd seq k))) keys [] in
    let data := dset data "seq_tag"%string (Tag (fst seq)) in
    let data := dset data "seq_idx"%string (Num (Z.of_nat i)) in
    let data := dset data "epoch"%string (Num epoch) in
    let data := dset data "num_seqs"%string (Num num) in
    dset data "complete_frac"%string (Num frac).
  (** lines 119-129: the fraction that is given, or an error *)
  Definition check_frac (one last : Z) (frac : option Z) : res Z :=
    match frac with
    | None => Ok (-1)%Z
    | Some f =>
        let* _ := assert_ ((0 <=? f) && (f <=? one))%Z in
        let* _ := assert_ (last <=? f)%Z in
        Ok f
    end.
  (** The loop of [__iter__], lines 104-132: the samples, and the error that ends it *)
  Fixpoint loop (d : dataset) (epoch num : Z) (i : nat) (last : Z) (seqs : list (string * (string -> V))) : list sample * option err :=
    match seqs with
    | [] => ([], None)
    | seq :: seqs =>
        match check_frac (ds_one d) last (ds_frac d epoch i) with
        | Err e => ([], Some e)
        | Ok f => let '(l, e) := loop d epoch num (S i) f seqs in (make_sample (ds_keys d) epoch num i seq f :: l, e)
        end
    end.
  (** [__iter__], lines 90-138; the epoch of the dataset is none before it was initialized *)
  Definition iterate (d : dataset) (epoch : option Z) : list sample * option err :=
    match epoch with
    | None => ([], Some AssertionError)
    | Some e => loop d e (if ds_num_known d then Z.of_nat (List.length (ds_seqs d e)) else -1)%Z 0 (-1)%Z (ds_seqs d e)
    end.

  (** The callbacks, lines 20-58: an own counter, a value shared with the main process, or nothing *)
  Inductive callback := Counter (epoch : Z) | Shared | NoOp.
  (** A pipe: its callback, and the epoch of its dataset *)
  Record pipe := { p_call : callback; p_epoch : option Z }.
  (** the default of the constructor, lines 66-75, for a dataset that was not initialized *)
  Definition new_pipe (call : option callback) : pipe := {| p_call := match call with Some c => c | None => Counter 0 end; p_epoch := None |}.
  (** [reset], lines 77-88. [value] is the current value of the shared one. *)
  Definition reset (p : pipe) (value : Z) : pipe :=
    match p_call p with
    | Counter e => {| p_call := Counter (e + 1); p_epoch := Some (e + 1)%Z |}
    | Shared => {| p_call := Shared; p_epoch := if (value =? 0)%Z then None else Some value |}
    | NoOp => p
    end.
  (** A pass over the data: PyTorch resets the pipe, and then iterates. *)
  Definition pass (d : dataset) (p : pipe) (value : Z) : pipe * (list sample * option err) :=
    let p := reset p value in (p, iterate d (p_epoch p)).
  (** Passes one after the other, each with the shared value at this time; [workers]: each runs on a copy of the pipe in a new
      process, as PyTorch's [DataLoader] with workers that are not persistent does it *)
  Fixpoint passes (workers : bool) (d : dataset) (p : pipe) (values : list Z) : list (list sample * option err) :=
    match values with
    | [] => []
    | v :: values => let '(p', r) := pass d p v in r :: passes workers d (if workers then p else p') values
    end.
End Pipe.
Arguments entry : clear implicits.
Arguments sample : clear implicits.
Arguments dataset : clear implicits.
