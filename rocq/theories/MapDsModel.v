(** Data sets given by the user as a list of sequences which can be read in any order: [MapDatasetBase], [FromListDataset] and
    [MapDatasetWrapper], returnn/datasets/map.py. *)
From Coq Require Import String Ascii.
From Verif Require Import Base PyDict SeqOrderModel DimModel.
Local Open Scope nat_scope.

(** [MapDatasetBase], map.py 12-72, as the user implements it. [md_seqs] is [__getitem__] and [__len__] (26-41); any index outside is
    an IndexError, as for a list. [md_tag] is [get_seq_tag] (54-60). [md_len] is [get_seq_len] (43-52) and [md_order] is
    [get_seq_order] (62-72): without them OptionalNotImplementedError is raised. *)
Record map_ds (D : Type) := {
  md_seqs : list D;
  md_tag : nat -> string;
  md_len : option (nat -> res Z);
  md_order : option (option nat -> list nat)
}.
Arguments md_seqs {D}. Arguments md_tag {D}. Arguments md_len {D}. Arguments md_order {D}.

(** the default of [get_seq_tag], 60 *)
Definition default_tag (i : nat) : string := ("seq-" ++ int_str (Z.of_nat i))%string.

Section Wrapper.
Context {D : Type}.
(** for [Dataset.get_seq_order_for_epoch], see SeqOrderModel *)
Variable R : rng_api.
Variable py_int : string -> option Z.
Variable cfg : ds_cfg.
Variable ds : map_ds D.

Definition size : nat := List.length (md_seqs ds).
(** 130-133: the dict from tags to indices *)
Definition tag_to_idx : list (string * nat) := fold_left (fun d i => dset d (md_tag ds i) i) (seq 0 size) [].
(** 141-153. Without [get_seq_len], the first call (142-144) raises OptionalNotImplementedError exactly if the order needs lengths, and
    then the assertion (147-150) fails; so the second call (151-153) is never reached. If [get_seq_len] itself fails for some
    sequence, then an order which needs lengths fails the same way. *)
Definition default_order (epoch : option nat) : res (list nat) :=
  match md_len ds with
  | None => get_seq_order_for_epoch R py_int cfg None epoch size
  | Some f =>
      match mapM f (seq 0 size) with
      | Ok lens => get_seq_order_for_epoch R py_int cfg (Some (fun i => nth i lens 0%Z)) epoch size
      | Err e => match get_seq_order_for_epoch R py_int cfg None epoch size with
                 | Err AssertionError => Err e
                 | r => r
                 end
      end
  end.
(** [init_seq_order], 118-155. The result is the new [_seq_order]. *)
Definition init_seq_order (epoch : option nat) (seq_list : option (list string)) (seq_order : option (list nat)) : res (list nat) :=
  let* seq_order := match seq_list with
                    | Some l =>
                        let* _ := assert_ (match seq_order with None => true | Some _ => false end) in
                        let* o := mapM (fun t => match dget tag_to_idx t with Some i => Ok i | None => Err KeyError end) l in
                        Ok (Some o)
                    | None => Ok seq_order
                    end in
  match seq_order with
  | Some o => Ok o
  | None => match md_order ds with
            | Some f => Ok (f epoch)
            | None => default_order epoch
            end
  end.

(** the state is [_seq_order] *)
Definition state := option (list nat).
(** [num_seqs], 102-110 *)
Definition num_seqs (st : state) : res nat := match st with None => Err NotImplementedError | Some o => Ok (List.length o) end.
(** [get_corpus_seq_idx], 196-202 *)
Definition get_corpus_seq_idx (st : state) (i : nat) : res nat := match st with None => Err TypeError | Some o => pyget o i end.
(** [_collect_single_seq], 165-173: the data and the tag *)
Definition collect (st : state) (i : nat) : res (D * string) :=
  let* c := get_corpus_seq_idx st i in
  let* x := pyget (md_seqs ds) c in
  Ok (x, md_tag ds c).
(** [get_tag], 182-188 *)
Definition get_tag (st : state) (i : nat) : res string := let* c := get_corpus_seq_idx st i in Ok (md_tag ds c).
(** [get_all_tags], 190-194 *)
Definition get_all_tags : list string := map (md_tag ds) (seq 0 size).
(** [supports_seq_order_sorting], 157-163: only OptionalNotImplementedError is caught *)
Definition supports_sorting : res bool :=
  match md_len ds with
  | None => Ok false
  | Some f => let* _ := f 0 in Ok true
  end.
End Wrapper.

(** * [FromListDataset], 266-302. The data of a sequence by key; only the lengths matter here. *)
Definition from_list_len {A} (data : list (list (string * list A))) (key : option string) (i : nat) : res Z :=
  match key with
  | None | Some ""%string => Err AssertionError
  | Some k => let* x := pyget data i in
              match dget x k with Some l => Ok (Z.of_nat (List.length l)) | None => Err KeyError end
  end.
Definition from_list {A} (data : list (list (string * list A))) (key : option string) : map_ds (list (string * list A)) :=
  {| md_seqs := data; md_tag := default_tag; md_len := Some (from_list_len data key); md_order := None |}.
