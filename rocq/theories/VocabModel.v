(** Vocabularies (returnn/datasets/util/vocabulary.py). A string is the list of its code points. *)
From Verif Require Import Base PyDict PySort BpeModel.
Local Open Scope Z_scope.

(** a label argument: [None], a string or an id *)
Inductive label_arg := LNone | LStr (s : str) | LInt (i : Z).

(** what the constructor gets to build the labels from (lines 162-186): a list of labels, a file with one label per
    line, or a file with a dict from label to id. Reading and evaluating the file is not modelled, neither is the
    class level cache of parsed files. A list of lines becomes the dict [{line: i}]. *)
Inductive source := SLabels (l : list str) | SLines (l : list str) | SDict (d : @dict str Z).

Fixpoint enum_dict (i : Z) (l : list str) (d : @dict str Z) : @dict str Z :=
  match l with [] => d | x :: l' => enum_dict (i + 1) l' (dset d x i) end.

(** comparison of strings by code points *)
Fixpoint str_leb (a b : str) : bool :=
  match a, b with
  | [], _ => true
  | _ :: _, [] => false
  | x :: a', y :: b' => (x <? y)%nat || ((x =? y)%nat && str_leb a' b')
  end.
(** [sorted(d.items())]: the keys of a dict are different, so only they are compared *)
Fixpoint insert_item (x : str * Z) (l : list (str * Z)) : list (str * Z) :=
  match l with
  | [] => [x]
  | y :: l' => if str_leb (fst x) (fst y) then x :: l else y :: insert_item x l'
  end.
Definition sort_items (l : list (str * Z)) : list (str * Z) := fold_right insert_item [] l.

Definition zmin_list (l : list Z) : res Z :=
  match l with [] => Err ValueError | x :: l' => Ok (fold_left Z.min l' x) end.
Definition zmax_list (l : list Z) : res Z :=
  match l with [] => Err ValueError | x :: l' => Ok (fold_left Z.max l' x) end.

(** [_parse_vocab] for a dict (lines 187-198): label dict, label list *)
Definition parse_dict (d : @dict str Z) : res (@dict str Z * list str) :=
  let labels := fold_left (fun ls it => dset ls (snd it) (fst it)) (sort_items d) [] in
  let* mn := zmin_list (dkeys labels) in
  let* mx := zmax_list (dkeys labels) in
  let num := Z.of_nat (length labels) in
  let* _ := assert_ (0 =? mn) in
  let* _ := assert_ (num - 1 =? mx) in
  Ok (d, map snd (stable_sort_by fst labels)).

(** [_parse_vocab] (lines 158-198) *)
Definition parse (s : source) : res (@dict str Z * list str) :=
  match s with
  | SLabels l => Ok (enum_dict 0 l [], l)
  | SLines l => parse_dict (enum_dict 0 l [])
  | SDict d => parse_dict d
  end.

Record vocab := {
  v_vocab : @dict str Z;
  v_labels : list str;
  v_unknown : label_arg;
  v_unknown_id : option Z;
  v_postfix : list Z
}.

(** [is_id_valid] (lines 298-302) *)
Definition is_id_valid (labels : list str) (i : Z) : bool := (0 <=? i) && (i <? Z.of_nat (length labels)).

(** [label_to_id] and [id_to_label] with the default [KeyError] (lines 278-296) *)
Definition label_to_id (d : @dict str Z) (label : str) : res Z :=
  match dget d label with Some i => Ok i | None => Err KeyError end.
Definition id_to_label (labels : list str) (i : Z) : res str :=
  if is_id_valid labels i then pyget labels (Z.to_nat i) else Err KeyError.

(** [to_id] with [allow_none=True] (lines 253-276) *)
Definition to_id (d : @dict str Z) (labels : list str) (l : label_arg) : res (option Z) :=
  match l with
  | LStr s => let* i := label_to_id d s in Ok (Some i)
  | LInt i => if i =? -1 then Ok None else if is_id_valid labels i then Ok (Some i) else Err KeyError
  | LNone => Ok None
  end.

(** [__init__] (lines 48-134), without the special symbols other than the unknown label *)
Definition make_vocab (s : source) (unknown : label_arg) (num_labels : option Z) (postfix : list Z) : res vocab :=
  let* dl := parse s in
  let '(d, labels) := dl in
  let* _ := match num_labels with
            | Some n => assert_ (Z.of_nat (length labels) =? n)
            | None => Ok tt
            end in
  let* uid := to_id d labels unknown in
  let* u := match uid with
            | Some i => let* l := id_to_label labels i in Ok (LStr l)
            | None => Ok unknown
            end in
  Ok {| v_vocab := d; v_labels := labels; v_unknown := u; v_unknown_id := uid; v_postfix := postfix |}.

(** [get_seq_indices] (lines 317-324). With an unknown label the result for a missing entry is [unknown_label_id],
    which may be [None]. *)
Definition get_seq_indices (v : vocab) (seq : list str) : res (list (option Z)) :=
  match v_unknown v with
  | LNone => mapM (fun k => let* i := label_to_id (v_vocab v) k in Ok (Some i)) seq
  | _ => Ok (map (fun k => match dget (v_vocab v) k with Some i => Some i | None => v_unknown_id v end) seq)
  end.

Section Text.
  (** which characters are white space *)
  Variable is_space : nat -> bool.

  (** python [sentence.split()] *)
  Fixpoint split_ws (cur s : str) : list str :=
    match s with
    | [] => match cur with [] => [] | _ => [cur] end
    | c :: s' =>
        if is_space c then match cur with [] => split_ws [] s' | _ => cur :: split_ws [] s' end
        else split_ws (cur ++ [c]) s'
    end.

  (** [get_seq] (lines 309-315) *)
  Definition get_seq (v : vocab) (sentence : str) : res (list (option Z)) :=
    let* s := get_seq_indices v (split_ws [] sentence) in Ok (s ++ map Some (v_postfix v)).
End Text.

(** python [labels[i]], negative indices count from the end *)
Definition py_index (labels : list str) (i : Z) : res str :=
  if 0 <=? i then pyget labels (Z.to_nat i)
  else if 0 <=? i + Z.of_nat (length labels) then pyget labels (Z.to_nat (i + Z.of_nat (length labels)))
  else Err IndexError.

(** python [" ".join(l)] *)
Fixpoint join_space (l : list str) : str :=
  match l with
  | [] => []
  | [x] => x
  | x :: l' => x ++ 32%nat :: join_space l'
  end.

(** [get_seq_labels] (lines 326-334) *)
Definition get_seq_labels (v : vocab) (seq : list Z) : res str :=
  let* ls := mapM (py_index (v_labels v)) seq in Ok (join_space ls).

(** [CharacterTargets] (lines 567-600): the characters of the sentence are the labels *)
Definition char_get_seq (v : vocab) (sentence : str) : res (list (option Z)) :=
  let* s := get_seq_indices v (map sing sentence) in Ok (s ++ map Some (v_postfix v)).
Definition char_get_seq_labels (v : vocab) (seq : list Z) : res str :=
  let* ls := mapM (py_index (v_labels v)) seq in Ok (concat ls).

(** python [s.encode("utf8")] of one code point; surrogates raise UnicodeEncodeError, a ValueError *)
Definition utf8_char (c : nat) : res (list Z) :=
  let c := Z.of_nat c in
  if c <? 128 then Ok [c]
  else if c <? 2048 then Ok [192 + c / 64; 128 + c mod 64]
  else if (55296 <=? c) && (c <? 57344) then Err ValueError
  else if c <? 65536 then Ok [224 + c / 4096; 128 + (c / 64) mod 64; 128 + c mod 64]
  else if c <? 1114112 then Ok [240 + c / 262144; 128 + (c / 4096) mod 64; 128 + (c / 64) mod 64; 128 + c mod 64]
  else Err ValueError.
(** [Utf8ByteTargets.get_seq] (lines 623-632) *)
Definition utf8_get_seq (postfix : list Z) (sentence : str) : res (list Z) :=
  let* bs := mapM utf8_char sentence in Ok (concat bs ++ postfix).

(** a continuation byte *)
Definition is_cont (b : Z) : bool := (128 <=? b) && (b <? 192).
(** python [bytes.decode("utf8")]: strict, no surrogates, no longer forms than needed; otherwise UnicodeDecodeError,
    a ValueError *)
Fixpoint utf8_decode (bs : list Z) : res (list Z) :=
  match bs with
  | [] => Ok []
  | b0 :: r0 =>
      if b0 <? 128 then let* t := utf8_decode r0 in Ok (b0 :: t)
      else match r0 with
      | [] => Err ValueError
      | b1 :: r1 =>
          if (194 <=? b0) && (b0 <? 224) && is_cont b1 then
            let* t := utf8_decode r1 in Ok ((b0 - 192) * 64 + (b1 - 128) :: t)
          else match r1 with
          | [] => Err ValueError
          | b2 :: r2 =>
              if (224 <=? b0) && (b0 <? 240) && is_cont b1 && is_cont b2
                 && negb ((b0 =? 224) && (b1 <? 160)) && negb ((b0 =? 237) && (160 <=? b1)) then
                let* t := utf8_decode r2 in Ok ((b0 - 224) * 4096 + (b1 - 128) * 64 + (b2 - 128) :: t)
              else match r2 with
              | [] => Err ValueError
              | b3 :: r3 =>
                  if (240 <=? b0) && (b0 <? 245) && is_cont b1 && is_cont b2 && is_cont b3
                     && negb ((b0 =? 240) && (b1 <? 144)) && negb ((b0 =? 244) && (144 <=? b1)) then
                    let* t := utf8_decode r3 in
                    Ok ((b0 - 240) * 262144 + (b1 - 128) * 4096 + (b2 - 128) * 64 + (b3 - 128) :: t)
                  else Err ValueError
              end
          end
      end
  end.
(** [Utf8ByteTargets.get_seq_labels] (lines 634-645) *)
Definition utf8_get_seq_labels (seq : list Z) : res (list Z) :=
  let* _ := assert_ (forallb (fun b => (0 <=? b) && (b <? 256)) seq) in utf8_decode seq.

(** [create_vocab_from_labels] (lines 212-230): which class it makes, and with which options *)
Inductive vocab_class := CUtf8 | CChars | CWords.
Definition create_vocab_from_labels (labels : list str) (postfix : list Z) : vocab_class * list Z :=
  if (length labels <? 1000)%nat && forallb (fun l => (length l =? 1)%nat) labels then
    if (length labels =? 256)%nat
       && forallb (fun il => (nth 0%nat (snd il) 0%nat <=? 255)%nat && (nth 0%nat (snd il) 0%nat =? fst il)%nat)
            (enumerate_from 0%nat labels)
    then (CUtf8, [])
    else (CChars, postfix)
  else (CWords, postfix).
