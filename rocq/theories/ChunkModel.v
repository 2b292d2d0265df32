(** Model of chunking and collating sequences, returnn/torch/data/pipeline.py:55-174. *)
From Coq Require Import String.
From Verif Require Import Base PyDict NumbersDictModel BatchPipeModel.

(** returnn/datasets/basic.py:303-332 [_parse_chunking] for chunk size and step given as [None], number, dict or NumbersDict.
    [chunk_step in (None, 0)] compares with [==], and a NumbersDict without keys is equal to [None] (util/basic.py:2160-2165: [all] of no values). (A callable or a string is converted before; sorting the keys is used to compare sets of keys.) *)
Definition same_keys (a b : list string) : bool :=
  (List.length a =? List.length b) && forallb (fun k => existsb (String.eqb k) b) a && forallb (fun k => existsb (String.eqb k) a) b.
Definition parse_chunking (chunk_size chunk_step : option (operand Z)) : res (ndict Z * ndict Z) :=
  let size := match chunk_size with None => nd_make (OpNum 0%Z) | Some x => nd_make x end in
  let* _ := if nd_eq size (Num 0%Z) then Ok tt
            else let* m := min_value size in assert_ (0 <? m)%Z in
  let step := match chunk_step with
              | None => size
              | Some (OpNum n) => if (n =? 0)%Z then size else nd_make (OpNum n)
              | Some (OpND n) => if (match nd_dict n with [] => true | _ => false end) || nd_eq n (Num 0%Z) then size else n
              | Some x => nd_make x
              end in
  if nd_eq size (Num 0%Z) then Ok (size, step) else
  let* _ := assert_ (same_keys (dkeys (nd_dict step)) (dkeys (nd_dict size))) in
  let* m := max_value step in
  let* _ := assert_ (0 <? m)%Z in
  Ok (size, step).

(** pipeline.py:144-148: [data[s : s + size] for s in range(0, len(data), step) if len(...) >= min]. A zero step makes
    [range] raise ValueError, a negative one gives an empty range. *)
Definition chunk_list {X} (size step min : Z) (l : list X) : res (list (list X)) :=
  if (step =? 0)%Z then Err ValueError else
  if (step <? 0)%Z then Ok [] else
  let n := Z.to_nat ((Z.of_nat (List.length l) + step - 1) / step) in
  Ok (filter (fun c => (min <=? Z.of_nat (List.length c))%Z)
        (map (fun i => let s := i * Z.to_nat step in pyslice l s (s + Z.to_nat size)) (seq 0 n))).

(** pipeline.py:129-132: the keys that are never chunked when chunking is not configured per key *)
Definition black_list : list string := ["seq_tag"; "seq_idx"; "num_seqs"; "epoch"; "complete_frac"]%string.
Definition default_keys {X} (s : seqd X) : list string :=
  filter (fun k => negb (existsb (String.eqb k) black_list)) (dkeys s).

Section Chunking.
  Context {X : Type}.
  Variable chunk_size chunk_step min_chunk_size : ndict Z.

  (** pipeline.py:135-157 for the remaining [keys]; [num] is [num_chunks], [acc] is [data_chunks] *)
  Fixpoint chunk_keys (s : seqd X) (keys : list string) (num : option nat) (acc : dict string (list (list X)))
      : res (option nat * dict string (list (list X))) :=
    match keys with
    | [] => Ok (num, acc)
    | k :: keys' =>
        let* size := nd_getitem chunk_size k in
        let* step := nd_getitem chunk_step k in
        let* min := nd_getitem min_chunk_size k in
        match dget s k with
        | None => Err KeyError
        | Some (Scalar _) => Err TypeError
        | Some (Frames l) =>
            let* chunks := chunk_list size step min l in
            let* num' := match num with
                         | None => Ok (List.length chunks)
                         | Some n => let* _ := assert_ (n =? List.length chunks) in Ok n
                         end in
            chunk_keys s keys' (Some num') (dset acc k chunks)
        end
    end.

  (** pipeline.py:162-174: the chunk with index [i] *)
  Definition one_chunk (s : seqd X) (data_chunks : dict string (list (list X))) (i : nat) : res (seqd X) :=
    let* chunk_data := mapM (fun '(k, cs) => let* c := pyget cs i in Ok (k, Frames c)) data_chunks in
    Ok (chunk_data ++ filter (fun '(k, _) => negb (dhas chunk_data k)) s).

  (** pipeline.py:118-174 [ChunkingIterDataPipe.__iter__] *)
  Fixpoint chunking_loop (keys : list string) (data : list (seqd X)) : gen (seqd X) :=
    match data with
    | [] => gen_end
    | s :: data' =>
        let keys := match keys with [] => default_keys s | _ => keys end in
        match keys with
        | [] => gen_raise AssertionError
        | _ =>
            match chunk_keys s keys None [] with
            | Err e => gen_raise e
            | Ok (None, _) => gen_raise AssertionError
            | Ok (Some n, chunks) =>
                match mapM (one_chunk s chunks) (seq 0 n) with
                | Err e => gen_raise e
                | Ok out => let g := chunking_loop keys data' in (out ++ fst g, snd g)
                end
            end
        end
    end.
  Definition chunking (data : list (seqd X)) : gen (seqd X) := chunking_loop (dkeys (nd_dict chunk_size)) data.
End Chunking.

(** ** collate *)
(** One value of a collated batch. *)
Inductive cval (X : Type) :=
| CSingle (x : arr X)           (* taken over from one sequence *)
| CPadded (rows : list (list X)) (* the padded tensor *)
| CLens (lens : list nat)       (* the seq_len tensor *)
| CStack (xs : list X).         (* stacked scalars *)
Arguments CSingle {X}. Arguments CPadded {X}. Arguments CLens {X}. Arguments CStack {X}.

Section Collate.
  Context {X : Type}.
  (** the padding value 0, and [a < b] on the values of [complete_frac] *)
  Variable zero : X.
  Variable ltb : X -> X -> bool.

  Definition getitem (s : seqd X) (k : string) : res (arr X) :=
    match dget s k with Some v => Ok v | None => Err KeyError end.
  Definition as_scalar (a : arr X) : res X := match a with Scalar x => Ok x | Frames _ => Err ValueError end.
  Definition as_frames (a : arr X) : res (list X) := match a with Frames l => Ok l | Scalar _ => Err OtherException end.
  (** stacking arrays of other shape than the first raises a RuntimeError *)
  Definition stackable (a : arr X) : res X := match a with Scalar x => Ok x | Frames _ => Err OtherException end.

  (** [torch.nn.utils.rnn.pad_sequence(ls, batch_first=True, padding_value=0)], a library function *)
  Definition pad_sequence (ls : list (list X)) : list (list X) :=
    let m := list_max (map (@List.length X) ls) in
    map (fun l => l ++ repeat zero (m - List.length l)) ls.

  (** pipeline.py:65-84, one key. The numpy branch at line 82 (arrays of strings) is the same as the one for scalars. *)
  Definition collate_key (batch : list (seqd X)) (first : seqd X) (k : string) (out : dict string (cval X))
      : res (dict string (cval X)) :=
    if (String.eqb k "num_seqs" || String.eqb k "epoch")%string then
      let* v := getitem first k in Ok (dset out k (CSingle v))
    else if String.eqb k "complete_frac" then
      let* vs := mapM (fun s => let* v := getitem s k in as_scalar v) batch in
      match vs with
      | [] => Err ValueError
      | v :: vs' => Ok (dset out k (CSingle (Scalar (fold_left (fun a b => if ltb a b then b else a) vs' v))))
      end
    else
      let* ls := mapM (fun s => getitem s k) batch in
      match ls with
      | [] => Err ValueError
      | Frames _ :: _ =>
          let* fs := mapM as_frames ls in
          let out := dset out k (CPadded (pad_sequence fs)) in
          Ok (dset out (k ++ ":seq_len")%string (CLens (map (@List.length X) fs)))
      | Scalar _ :: _ =>
          let* xs := mapM stackable ls in Ok (dset out k (CStack xs))
      end.

  Fixpoint collate_keys (batch : list (seqd X)) (first : seqd X) (keys : list string) (out : dict string (cval X))
      : res (dict string (cval X)) :=
    match keys with
    | [] => Ok out
    | k :: keys' => let* out' := collate_key batch first k out in collate_keys batch first keys' out'
    end.
  (** pipeline.py:55-86 *)
  Definition collate_batch (batch : list (seqd X)) : res (dict string (cval X)) :=
    match batch with
    | [] => Err AssertionError
    | first :: _ => collate_keys batch first (dkeys first) []
    end.
End Collate.
