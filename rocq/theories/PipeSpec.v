(** What a pipe over a dataset should give. *)
From Coq Require Import String.
From Verif Require Import Base PyDict PipeModel.
Local Open Scope nat_scope.

Definition reserved : list string := ["seq_tag"; "seq_idx"; "epoch"; "num_seqs"; "complete_frac"]%string.
Section Spec.
  Context {V : Type}.
  (** The sample of the sequence at index [i]: its data by key, its tag, where it is, and nothing else. *)
  Definition sample_of (d : dataset V) (epoch : Z) (i : nat) (seq : string * (string -> V)) (s : sample V) : Prop :=
    (forall k, In k (ds_keys d) -> ~ In k reserved -> dget s k = Some (Data (snd seq k))) /\
    dget s "seq_tag"%string = Some (Tag (fst seq)) /\
    dget s "seq_idx"%string = Some (Num (Z.of_nat i)) /\
    dget s "epoch"%string = Some (Num epoch) /\
    dget s "num_seqs"%string = Some (Num (if ds_num_known d then Z.of_nat (List.length (ds_seqs d epoch)) else -1)%Z) /\
    dget s "complete_frac"%string = Some (Num (match ds_frac d epoch i with Some f => f | None => -1 end)%Z) /\
    (forall k, dget s k <> None -> In k (ds_keys d) \/ In k reserved).
  (** The sequences from the first one on, in order. *)
  Definition samples_of (d : dataset V) (epoch : Z) (l : list (sample V)) : Prop :=
    forall i s, nth_error l i = Some s -> exists seq, nth_error (ds_seqs d epoch) i = Some seq /\ sample_of d epoch i seq s.
  (** The fraction at [i] is none, or it is between 0 and 1 and not less than the one directly before. *)
  Definition good_frac (d : dataset V) (epoch : Z) (i : nat) : Prop :=
    forall f, ds_frac d epoch i = Some f -> (0 <= f <= ds_one d)%Z /\
      forall j f', i = S j -> ds_frac d epoch j = Some f' -> (f' <= f)%Z.
End Spec.
