(** What byte pair encoding promises. *)
From Verif Require Import Base BpeModel.

(** * Encoding with merge operations *)

(** The merge operations are the lines of the codes file, in the order of the file; each line is a pair of non-empty
    strings. *)
Definition merge_lines (lines : list (list str)) : Prop :=
  Forall (fun l => exists a b, l = [a; b] /\ a <> [] /\ b <> []) lines.

(** [p] comes for the first time not later than [q] *)
Definition not_after (lines : list (list str)) (p q : list str) : Prop :=
  exists l r, lines = l ++ p :: r /\ ~ In p l /\ ~ In q l.

(** the symbols [a] and [b] stand next to each other in the word *)
Definition adjacent (w : list str) (a b : str) : Prop := exists l r, w = l ++ a :: b :: r.

(** replace all occurrences of the pair [a], [b], from left to right *)
Fixpoint merge_pair (a b : str) (w : list str) : list str :=
  match w with
  | x :: (y :: r) as t => if str_eqb x a && str_eqb y b then (a ++ b) :: merge_pair a b r else x :: merge_pair a b t
  | _ => w
  end.

(** [merged lines w w']: applying always the first operation of the file that is applicable, until none is, turns [w]
    into [w']. *)
Inductive merged (lines : list (list str)) : list str -> list str -> Prop :=
| merged_done w : (forall a b, adjacent w a b -> ~ In [a; b] lines) -> merged lines w w
| merged_step w a b w' :
    adjacent w a b -> In [a; b] lines ->
    (forall a' b', adjacent w a' b' -> In [a'; b'] lines -> not_after lines [a; b] [a'; b']) ->
    merged lines (merge_pair a b w) w' -> merged lines w w'.

(** The characters of a word with the end-of-word mark: a symbol of its own in version 0.1, part of the last
    symbol in version 0.2. *)
Definition marked_chars (v : version) (word : str) (w : list str) : Prop :=
  match v with
  | V01 => w = map sing word ++ [eow]
  | V02 => exists i c, word = i ++ [c] /\ w = map sing i ++ [[c] ++ eow]
  | VOther => False
  end.

(** [out] are the symbols [w] without the end-of-word mark *)
Definition unmarked (w out : list str) : Prop :=
  w = out ++ [eow] \/ exists i x, x <> [] /\ w = i ++ [x ++ eow] /\ out = i ++ [x].

Definition contains (t s : str) : Prop := exists l r, s = l ++ t ++ r.

(** The mark only comes at the end of a symbol: an operation that makes a symbol with the mark has it in its second
    part. *)
Definition mark_at_end (lines : list (list str)) : Prop :=
  forall a b s, In [a; b] lines -> a ++ b = s ++ eow -> exists b', b = b' ++ eow.

(** [s] cannot be split further: it is at most one character, or no merge operation produces it. *)
Definition unsplittable (lines : list (list str)) (s : str) (final : bool) : Prop :=
  length s <= 1 \/ forall a b, In [a; b] lines -> a ++ b <> if final then s ++ eow else s.

(** All symbols of a word are labels of the vocabulary (with the merge symbol for all but the last one), or cannot
    be split further. *)
Definition in_vocabulary (lines : list (list str)) (vocab : list str) (out : list str) : Prop :=
  exists i l, out = i ++ [l] /\
    Forall (fun s => In (s ++ at_at) vocab \/ unsplittable lines s false) i /\
    (In l vocab \/ unsplittable lines l true).

(** Reading an encoded sentence: a symbol with the merge symbol continues in the next symbol. *)
Fixpoint decode_from (cur : str) (out : list str) : list str :=
  match out with
  | [] => match cur with [] => [] | _ => [cur] end
  | s :: out' =>
      if ends_with at_at s then decode_from (cur ++ firstn (length s - 2) s) out'
      else (cur ++ s) :: decode_from [] out'
  end.
Definition decode (out : list str) : list str := decode_from [] out.

(** the encoding of one word in a sentence: all symbols but the last one get the merge symbol *)
Definition with_merge_symbol (pieces out : list str) : Prop :=
  exists i l, pieces = i ++ [l] /\ out = map (fun s => s ++ at_at) i ++ [l].

(** a word that does not start a category like [$name] *)
Definition ordinary (word : str) : Prop := word <> [] /\ hd 0 word <> char_dollar.

(** * Splits of a word into labels *)

(** Either labels that are continued end with a merge symbol like "@@", or words start with a one character mark. *)
Definition opts_ok (o : bpe_opts) : Prop :=
  match o_merge o, o_word_prefix o with
  | Some m, None => 2 <= length m
  | None, Some wp => length wp = 1
  | None, None => True
  | Some _, Some _ => False
  end.

(** a label which can end a word: not one which has to be continued *)
Definition plain (o : bpe_opts) (labels : list str) (s : str) : Prop :=
  In s labels /\ match o_merge o with Some m => forall t, s <> t ++ m | None => True end.

(** what comes before the text of the first symbol of a word *)
Definition word_start (o : bpe_opts) (first : bool) : str :=
  if first then match o_word_prefix o with Some wp => wp | None => [] end else [].

(** [s] is a label that stands for the text [t] before the end of the word *)
Definition inner (o : bpe_opts) (labels : list str) (first : bool) (t s : str) : Prop :=
  (exists m, o_merge o = Some m /\ s = word_start o first ++ t ++ m /\ In s labels) \/
  (o_word_prefix o <> None /\ s = word_start o first ++ t /\ plain o labels s).

(** The sequence of labels is a split of the word. Only the first symbol of a word may stand for no text: it is then
    just the mark. *)
Inductive split (o : bpe_opts) (labels : list str) : bool -> str -> list str -> Prop :=
| split_last first w :
    w <> [] -> plain o labels (word_start o first ++ w) -> split o labels first w [word_start o first ++ w]
| split_more first t w s seq :
    first = true \/ t <> [] -> w <> [] -> inner o labels first t s -> split o labels false w seq ->
    split o labels first (t ++ w) (s :: seq).

(** some label starts with the mark of a new word, if there is such a mark *)
Definition has_start (o : bpe_opts) (labels : list str) : Prop :=
  match o_word_prefix o with Some wp => exists t, In (wp ++ t) labels | None => True end.

(** the encoding of a sentence: a split of every word, or the unknown label for a word that has none *)
Inductive sentence_split (o : bpe_opts) (labels : list str) (unknown : option str) : list str -> list str -> Prop :=
| ss_nil : sentence_split o labels unknown [] []
| ss_word w ws seq out :
    split o labels true w seq -> sentence_split o labels unknown ws out ->
    sentence_split o labels unknown (w :: ws) (seq ++ out)
| ss_unknown w ws u out :
    (forall seq, ~ split o labels true w seq) -> unknown = Some u -> u <> [] ->
    sentence_split o labels unknown ws out -> sentence_split o labels unknown (w :: ws) (u :: out).
