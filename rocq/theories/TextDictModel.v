(** Data sets of texts, or of lists of texts with scores (the output of a search): [TextDictDataset],
    returnn/datasets/text_dict.py. *)
From Coq Require Import String.
From Verif Require Import Base PyDict SeqOrderModel.
Local Open Scope nat_scope.

(** text_dict.py 17-38: the values of the dict in the file. Scores are compared only, so they are integers here; NaN is left out. *)
Inductive value := Text (s : string) | Beam (l : list (Z * string)) | OtherValue.
(** [item_format], 43; anything else is refused by the constructor, 73-74 *)
Inductive format := FSingle | FList.
(** what is read for a sequence, 166-178; "single" has only the labels *)
Record features := { f_data : list nat; f_beam : option (list nat * list nat * list Z) }.   (* data_flat, data_seq_lens, scores *)

Section Dataset.
Context {S : Type}.
(** the vocabulary, see C45-C48: it can have a state, e.g. the random numbers for the sampling of word pieces *)
Variable get_seq : S -> string -> list nat * S.
Variable set_random_seed : option nat -> S -> S.
Variable R : rng_api.
Variable py_int : string -> option Z.
Variable cfg : ds_cfg.
Variable fmt : format.
(** the literal in the file, in its order; a key which comes again replaces the value. Reading the literal is left out. *)
Variable file : list (string * value).

(** 75-77: [_data_values] with [_seq_tags], [_seq_order], and the state of the vocabulary *)
Record state := { st_data : option (list (string * value)); st_order : option (list nat); st_num : option nat; st_vocab : S }.
Definition fresh (v : S) : state := {| st_data := None; st_order := None; st_num := None; st_vocab := v |}.

Definition file_dict : list (string * value) := fold_left (fun d '(k, v) => dset d k v) file [].
(** [_load], 79-125: only the first entry is checked *)
Definition load (st : state) : res state :=
  match st_data st with
  | Some _ => Ok st
  | None =>
      let d := file_dict in
      match d with
      | [] => Err AssertionError
      | (_, v) :: _ =>
          let* _ := assert_ (match fmt, v with
                             | FSingle, Text _ => true
                             | FList, Beam (_ :: _) => true
                             | _, _ => false
                             end) in
          Ok {| st_data := Some d; st_order := st_order st; st_num := st_num st; st_vocab := st_vocab st |}
      end
  end.

(** [_get_seq_len], 137-146: numbers of characters *)
Definition seq_len (v : value) : res Z :=
  match fmt, v with
  | FSingle, Text s => Ok (Z.of_nat (String.length s))
  | FSingle, Beam l => Ok (Z.of_nat (List.length l))
  | FList, Beam l => Ok (Z.of_nat (list_sum (map (fun x => String.length (snd x)) l)))
  | FList, Text ""%string => Ok 0%Z
  | FList, Text _ => Err ValueError
  | _, OtherValue => Err TypeError
  end.
(** 157-158. If the length of some sequence fails, then so does any order which needs lengths. *)
Definition order_for (epoch : option nat) (data : list (string * value)) : res (list nat) :=
  match mapM (fun x => seq_len (snd x)) data with
  | Ok lens => get_seq_order_for_epoch R py_int cfg (Some (fun i => nth i lens 0%Z)) epoch (List.length data)
  | Err e => match get_seq_order_for_epoch R py_int cfg None epoch (List.length data) with
             | Err AssertionError => Err e
             | r => r
             end
  end.
(** [init_seq_order], 127-159 *)
Definition init_seq_order (st : state) (epoch : option nat) (seq_list : option (list string)) (seq_order : option (list nat)) : res state :=
  match epoch, seq_list, seq_order with
  | None, None, None => Ok {| st_data := st_data st; st_order := st_order st; st_num := Some 0; st_vocab := st_vocab st |}
  | _, _, _ =>
      let v := set_random_seed epoch (st_vocab st) in
      let done st o := Ok {| st_data := st_data st; st_order := Some o; st_num := Some (List.length o); st_vocab := v |} in
      match seq_order, seq_list with
      | Some o, _ => done st o
      | None, Some _ => Err NotImplementedError
      | None, None =>
          let* st := load st in
          match st_data st with
          | Some data => let* o := order_for epoch data in done st o
          | None => Err TypeError
          end
      end
  end.

(** python max(data, key=lambda x: x[0]): the first one with the greatest score *)
Fixpoint best_from (b : Z * string) (l : list (Z * string)) : Z * string :=
  match l with
  | [] => b
  | x :: l => best_from (if (fst b <? fst x)%Z then x else b) l
  end.
(** 173: [vocab.get_seq] for each text *)
Fixpoint encode_all (v : S) (l : list (Z * string)) : list (list nat) * S :=
  match l with
  | [] => ([], v)
  | (_, txt) :: l => let (x, v) := get_seq v txt in let (xs, v) := encode_all v l in (x :: xs, v)
  end.
(** [_collect_single_seq], 161-179: the tag, the data, and the new state of the vocabulary. A text in the place of a list is a
    ValueError, as [max] gives a single character there; a list in the place of a text is an error of the vocabulary. *)
Definition collect (st : state) (i : nat) : res (string * features * state) :=
  match st_order st with
  | None => Err TypeError
  | Some o =>
      let* c := pyget o i in
      match st_data st with
      | None => Err TypeError
      | Some data =>
          let* (tag, val) := pyget data c in
          let done x v := Ok (tag, x, {| st_data := st_data st; st_order := st_order st; st_num := st_num st; st_vocab := v |}) in
          match fmt, val with
          | FSingle, Text s => let (x, v) := get_seq (st_vocab st) s in done {| f_data := x; f_beam := None |} v
          | FSingle, _ => Err OtherException
          | FList, Beam [] => Err ValueError
          | FList, Beam (b :: l) =>
              let (x, v) := get_seq (st_vocab st) (snd (best_from b l)) in
              let (labels, v) := encode_all v (b :: l) in
              done {| f_data := x; f_beam := Some (List.concat labels, map (@List.length nat) labels, map fst (b :: l)) |} v
          | FList, Text _ => Err ValueError
          | FList, OtherValue => Err TypeError
          end
      end
  end.
(** an epoch: the first [n] sequences *)
Fixpoint read (st : state) (i n : nat) : res (list (string * features) * state) :=
  match n with
  | O => Ok ([], st)
  | Datatypes.S n => let* (x, st) := collect st i in
                     let* (xs, st) := read st (Datatypes.S i) n in
                     Ok (x :: xs, st)
  end.
(** [get_tag], 207-213 *)
Definition get_tag (st : state) (i : nat) : res (string * state) :=
  let* st := load st in
  match st_order st, st_data st with
  | Some o, Some data => let* c := pyget o i in let* (tag, _) := pyget data c in Ok (tag, st)
  | _, _ => Err TypeError
  end.
(** [get_all_tags], 215-218 *)
Definition get_all_tags (st : state) : res (list string * state) :=
  let* st := load st in
  match st_data st with Some data => Ok (map fst data, st) | None => Err TypeError end.
End Dataset.
Arguments state : clear implicits.
