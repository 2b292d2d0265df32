(** What C32 and C41 are about. *)
From Coq Require Import String.
From Verif Require Import Base PyDict BatchPipeModel ChunkModel ForwardModel.
Local Open Scope string_scope. Local Open Scope nat_scope. Local Open Scope list_scope.

(** ** C32: operations on the iterator *)
Inductive qop (A : Type) := Push (items : list A) | Next.
Arguments Push {A}. Arguments Next {A}.
(** What the operations return according to the model of the code: the results of all the [Next]. *)
Fixpoint q_run {A S} (step : S -> option A * S) (q : qiter A S) (ops : list (qop A)) : list (option A) :=
  match ops with
  | [] => []
  | Push items :: ops' => q_run step (q_extend q items) ops'
  | Next :: ops' => let '(r, q') := q_next step q in r :: q_run step q' ops'
  end.
(** What they should return: the pushed items are put before those which were pushed before. *)
Fixpoint ideal_run {A S} (step : S -> option A * S) (pushed : list A) (it : S) (ops : list (qop A)) : list (option A) :=
  match ops with
  | [] => []
  | Push items :: ops' => ideal_run step (items ++ pushed) it ops'
  | Next :: ops' =>
      match pushed with
      | x :: pushed' => Some x :: ideal_run step pushed' it ops'
      | [] => let '(r, it') := step it in r :: ideal_run step [] it' ops'
      end
  end.

(** ** C41: the sequences of a batch *)
Section Batch.
  Context {X : Type}.
  (** The row [i] of the batch at the key [k]: padded data is cut at the stored length. *)
  Definition row_of (b : raw X) (k : string) (i : nat) : option (arr X) :=
    match dget b k with
    | Some (CPadded rows) =>
        match nth_error rows i, dget b (k ++ ":seq_len")%string with
        | Some row, Some (CLens lens) => match nth_error lens i with Some n => Some (Frames (firstn n row)) | None => None end
        | _, _ => None
        end
    | Some (CStack xs) => match nth_error xs i with Some x => Some (Scalar x) | None => None end
    | _ => None
    end.
  Definition row (b : raw X) (keys : list string) (i : nat) : list (string * option (arr X)) := map (fun k => (k, row_of b k i)) keys.
  (** The sequences of a batch of [n] sequences, with the data at the given keys. *)
  Definition seqs_of (keys : list string) (n : nat) (b : raw X) : list (list (string * option (arr X))) := map (row b keys) (seq 0 n).

  (** A batch of [n] sequences in which everything has the batch dimension first. *)
  Definition is_batch (n : nat) (b : raw X) : Prop :=
    b <> [] /\ dict_ok b /\
    (forall k v, In (k, v) b ->
       match v with
       | CSingle _ => False
       | CPadded rows => List.length rows = n /\ exists lens, In ((k ++ ":seq_len")%string, CLens lens) b
       | CLens lens => List.length lens = n /\ ~ In (k ++ ":seq_len")%string (map fst b)
       | CStack xs => List.length xs = n /\ ~ In (k ++ ":seq_len")%string (map fst b)
       end).
End Batch.
(** All sequences of a batch, with its own batch size. *)
Definition all_seqs {X} (keys : list string) (b : raw X) : list (list (string * option (arr X))) :=
  match batch_size b with Ok n => seqs_of keys n b | Err _ => [] end.
