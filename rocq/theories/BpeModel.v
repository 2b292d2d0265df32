(** Byte pair encoding of texts (returnn/util/bpe.py).
    A python string is the list of its code points. [sentence.split()] is not modelled: a sentence is the list of
    its words, and a line of the codes file is the list of its white space separated items (lines 59-61). *)
From Verif Require Import Base PyDict.

Definition str := list nat.

Fixpoint str_eqb (a b : str) : bool :=
  match a, b with
  | [], [] => true
  | x :: a', y :: b' => (x =? y) && str_eqb a' b'
  | _, _ => false
  end.
Lemma str_eqb_eq a b : str_eqb a b = true <-> a = b.
Proof.
  revert b. induction a as [|x a IH]; intros [|y b]; cbn; try (split; [discriminate|intros E; discriminate E]).
  - tauto.
  - rewrite andb_true_iff, Nat.eqb_eq, IH. split; [intros [-> ->]; reflexivity|intros [= -> ->]; auto].
Qed.
#[global] Instance EqB_str : EqB str := {| keqb := str_eqb; keqb_eq := str_eqb_eq |}.

Fixpoint strs_eqb (a b : list str) : bool :=
  match a, b with
  | [], [] => true
  | x :: a', y :: b' => str_eqb x y && strs_eqb a' b'
  | _, _ => false
  end.
Lemma strs_eqb_eq a b : strs_eqb a b = true <-> a = b.
Proof.
  revert b. induction a as [|x a IH]; intros [|y b]; cbn; try (split; [discriminate|intros E; discriminate E]).
  - tauto.
  - rewrite andb_true_iff, str_eqb_eq, IH. split; [intros [-> ->]; reflexivity|intros [= -> ->]; auto].
Qed.
#[global] Instance EqB_strs : EqB (list str) := {| keqb := strs_eqb; keqb_eq := strs_eqb_eq |}.

(** the end-of-word mark ["</w>"] and [BpePostMergeSymbol = "@@"] (line 12) *)
Definition eow : str := [60; 47; 119; 62].
Definition at_at : str := [64; 64].

(** python [s.startswith(p)] and [s.endswith(p)] *)
Fixpoint starts_with (p s : str) : bool :=
  match p, s with
  | [], _ => true
  | x :: p', y :: s' => (x =? y) && starts_with p' s'
  | _ :: _, [] => false
  end.
Definition ends_with (p s : str) : bool := starts_with (rev p) (rev s).
(** python [k in labels] for a list of labels *)
Definition str_in (s : str) (l : list str) : bool := existsb (str_eqb s) l.
Definition sing (c : nat) : str := [c].

(** * StandardBytePairEncoder (lines 15-227) *)

(** [_load] (lines 42-65). The version comes from the first line of the file; here it is a parameter.
    [V01] is (0, 1), [V02] is (0, 2). The class level cache of loaded files is not modelled. *)
Inductive version := V01 | V02 | VOther.

Fixpoint enumerate_from {A} (i : nat) (l : list A) : list (nat * A) :=
  match l with [] => [] | x :: l' => (i, x) :: enumerate_from (S i) l' end.

(** line 63: [dict([(code, i) for (i, code) in reversed(list(enumerate(codes)))])]; the codes are tuples of any
    length *)
Definition load_codes (lines : list (list str)) : @dict (list str) nat :=
  fold_left (fun d ic => dset d (snd ic) (fst ic)) (rev (enumerate_from 0 lines)) [].

(** line 64: [dict([(pair[0] + pair[1], pair) for pair, i in codes.items()])]; a line with less than two items
    raises IndexError *)
Fixpoint load_reverse_from (items : list (list str * nat)) (d : @dict str (list str)) : res (@dict str (list str)) :=
  match items with
  | [] => Ok d
  | (code, _) :: items' =>
      match code with
      | a :: b :: _ => load_reverse_from items' (dset d (a ++ b) code)
      | _ => Err IndexError
      end
  end.
Definition load_reverse (codes : @dict (list str) nat) : res (@dict str (list str)) := load_reverse_from codes [].

Record encoder := {
  e_version : version;
  e_codes : @dict (list str) nat;
  e_reverse : @dict str (list str);
  e_labels : option (list str)
}.

(** [__init__] (lines 30-38) *)
Definition load_encoder (v : version) (lines : list (list str)) (labels : option (list str)) : res encoder :=
  let codes := load_codes lines in
  let* rv := load_reverse codes in
  Ok {| e_version := v; e_codes := codes; e_reverse := rv; e_labels := labels |}.

(** [_get_pairs] (lines 67-79). Python collects the pairs in a set; here they are listed from left to right, a pair
    may occur several times. *)
Fixpoint get_pairs (word : list str) : list (list str) :=
  match word with
  | a :: (b :: _) as r => [a; b] :: get_pairs r
  | _ => []
  end.

(** line 104: [min(pairs, key=lambda pair: codes.get(pair, inf))]. Different pairs in the codes have different
    ranks, so the iteration order of the set only matters among the pairs that are not in the codes. *)
Fixpoint min_pair (codes : @dict (list str) nat) (pairs : list (list str)) : option (list str) :=
  match pairs with
  | [] => None
  | p :: ps =>
      match min_pair codes ps with
      | None => Some p
      | Some q =>
          match dget codes p, dget codes q with
          | Some i, Some j => if i <=? j then Some p else Some q
          | Some _, None => Some p
          | None, Some _ => Some q
          | None, None => Some p
          end
      end
  end.

(** [word.index(first, i)] (line 112) *)
Fixpoint index_from (l : list str) (x : str) (i : nat) : option nat :=
  match l with
  | [] => None
  | y :: l' =>
      match i with
      | 0 => if str_eqb y x then Some 0 else option_map S (index_from l' x 0)
      | S i' => option_map S (index_from l' x i')
      end
  end.

(** the inner loop (lines 108-124): merge all occurrences of the pair [first], [second] *)
Fixpoint merge_loop (fuel : nat) (word : list str) (first second : str) (i : nat) (new_word : list str)
  : res (list str) :=
  match fuel with
  | 0 => Err OutOfFuel
  | S fuel =>
      if i <? length word then
        match index_from word first i with
        | None => Ok (new_word ++ skipn i word)
        | Some j =>
            let new_word := new_word ++ pyslice word i j in
            let i := j in
            if (str_eqb (nth i word []) first && (i <? length word - 1)) && str_eqb (nth (i + 1) word []) second
            then merge_loop fuel word first second (i + 2) (new_word ++ [first ++ second])
            else merge_loop fuel word first second (i + 1) (new_word ++ [nth i word []])
        end
      else Ok new_word
  end.

(** the outer loop (lines 103-130) *)
Fixpoint bpe_loop (fuel : nat) (codes : @dict (list str) nat) (word : list str) (pairs : list (list str))
  : res (list str) :=
  match fuel with
  | 0 => Err OutOfFuel
  | S fuel =>
      match min_pair codes pairs with
      | None => Err ValueError
      | Some bigram =>
          match dget codes bigram with
          | None => Ok word
          | Some _ =>
              match bigram with
              | [first; second] =>
                  let* new_word := merge_loop (S (length word)) word first second 0 [] in
                  if length new_word =? 1 then Ok new_word
                  else bpe_loop fuel codes new_word (get_pairs new_word)
              | _ => Err ValueError
              end
          end
      end
  end.

(** python [s.replace("</w>", "")] *)
Fixpoint remove_eow_ (fuel : nat) (s : str) : str :=
  match fuel with
  | 0 => s
  | S fuel =>
      match s with
      | [] => []
      | c :: s' => if starts_with eow s then remove_eow_ fuel (skipn 4 s) else c :: remove_eow_ fuel s'
      end
  end.
Definition remove_eow (s : str) : str := remove_eow_ (length s) s.

(** lines 132-136: don't print end-of-word symbols *)
Definition strip_eow (word : list str) : list str :=
  let l := last word [] in
  if str_eqb l eow then removelast word
  else if ends_with eow l then removelast word ++ [remove_eow l]
  else word.

(** [_recursive_split] (lines 169-195). [segment[:-4]] removes the last four characters. An entry that is not a pair
    raises ValueError in the unpacking, which is caught like the KeyError of a missing entry. *)
Fixpoint recursive_split (fuel : nat) (rv : @dict str (list str)) (vocab : list str) (separator : str)
    (segment : str) (final : bool) : res (list str) :=
  match fuel with
  | 0 => Err OutOfFuel
  | S fuel =>
      let entry := if final then dget rv (segment ++ eow) else dget rv segment in
      match entry with
      | Some [left_; right0] =>
          let right_ := if final then firstn (length right0 - 4) right0 else right0 in
          let* l := if str_in (left_ ++ separator) vocab then Ok [left_]
                    else recursive_split fuel rv vocab separator left_ false in
          let* r := if (final && str_in right_ vocab) || (negb final && str_in (right_ ++ separator) vocab)
                    then Ok [right_]
                    else recursive_split fuel rv vocab separator right_ final in
          Ok (l ++ r)
      | _ => Ok [segment]
      end
  end.
Definition split_fuel (segment : str) : nat := length segment + 5.

(** [_check_vocab_and_split] (lines 143-166). An empty word raises IndexError at [orig[-1]]. *)
Fixpoint check_init (rv : @dict str (list str)) (vocab : list str) (separator : str) (segments : list str)
  : res (list str) :=
  match segments with
  | [] => Ok []
  | segment :: rest =>
      let* out := if str_in (segment ++ separator) vocab then Ok [segment]
                  else recursive_split (split_fuel segment) rv vocab separator segment false in
      let* out' := check_init rv vocab separator rest in
      Ok (out ++ out')
  end.
Definition check_vocab_and_split (rv : @dict str (list str)) (vocab : list str) (separator : str) (orig : list str)
  : res (list str) :=
  let* out := check_init rv vocab separator (removelast orig) in
  match orig with
  | [] => Err IndexError
  | _ =>
      let segment := last orig [] in
      let* out' := if str_in segment vocab then Ok [segment]
                   else recursive_split (split_fuel segment) rv vocab separator segment true in
      Ok (out ++ out')
  end.

(** lines 91-96 *)
Definition start_word (v : version) (orig : str) : res (list str) :=
  match v with
  | V01 => Ok (map sing orig ++ [eow])
  | V02 => match orig with
           | [] => Err IndexError
           | _ => Ok (map sing (removelast orig) ++ [[last orig 0] ++ eow])
           end
  | VOther => Err NotImplementedError
  end.

(** [_encode_word] (lines 81-141). If there is no pair, the word itself is returned, which then is used as the
    sequence of its characters. The cache of encoded words is not modelled. *)
Definition encode_word (e : encoder) (orig : str) : res (list str) :=
  let* word := start_word (e_version e) orig in
  match get_pairs word with
  | [] => Ok (map sing orig)
  | pairs =>
      let* word := bpe_loop (length word) (e_codes e) word pairs in
      let word := strip_eow word in
      match e_labels e with
      | None | Some [] => Ok word
      | Some vocab => check_vocab_and_split (e_reverse e) vocab at_at word
      end
  end.

(** [segment_sentence] (lines 197-227). [word[0]] of a word of [sentence.split()] always exists. *)
Definition char_dollar := 36.
Definition char_open := 123.
Definition char_close := 125.
Fixpoint segment_words (e : encoder) (words : list str) (found_category skip_category : bool) : res (list str) :=
  match words with
  | [] => Ok []
  | word :: rest =>
      let c := hd 0 word in
      if (c =? char_dollar) && (1 <? length word) then
        let* out := segment_words e rest true skip_category in Ok (word :: out)
      else if found_category && (c =? char_open) then
        let* out := segment_words e rest found_category true in Ok (word :: out)
      else if skip_category && negb (c =? char_close) then
        let* out := segment_words e rest found_category skip_category in Ok (word :: out)
      else
        let* new_word := encode_word e word in
        match new_word with
        | [] => Err IndexError
        | _ =>
            let* out := segment_words e rest false false in
            Ok (map (fun item => item ++ at_at) (removelast new_word) ++ [last new_word []] ++ out)
        end
  end.
Definition segment_sentence (e : encoder) (words : list str) : res (list str) := segment_words e words false false.

(** * PrefixTree, CharSyncSearch, DepthFirstSearch, SamplingBytePairEncoder (lines 231-516) *)

(** [BpeOpts] (lines 231-238) *)
Record bpe_opts := { o_merge : option str; o_word_prefix : option str }.

(** [PrefixTree] (lines 241-255): prefix, arcs, finished, bpe_finished *)
Inductive tree := Tree (t_prefix : str) (t_arcs : list (str * tree)) (t_finished t_bpe_finished : bool).
Definition t_prefix (t : tree) := let 'Tree p _ _ _ := t in p.
Definition t_arcs (t : tree) : @dict str tree := let 'Tree _ a _ _ := t in a.
Definition t_finished (t : tree) := let 'Tree _ _ f _ := t in f.
Definition t_bpe_finished (t : tree) := let 'Tree _ _ _ b := t in b.
Definition set_finished (t : tree) := let 'Tree p a _ b := t in Tree p a true b.
Definition empty_tree (prefix : str) := Tree prefix [] false false.

Definition is_merge (o : bpe_opts) (s : str) : bool :=
  match o_merge o with Some m => str_eqb s m | None => false end.

(** one round of the loop in [add] (lines 267-284): follow or create [arc]; [postfix] is what comes after it, and
    [continue] the rest of the loop from the child *)
Definition add_arc (o : bpe_opts) (t : tree) (arc postfix : str) (continue : tree -> tree) : tree :=
  let 'Tree prefix arcs fin bpe := t in
  let child := match @dget str tree _ arcs arc with Some c => c | None => empty_tree (prefix ++ arc) end in
  let bpe' := if is_merge o arc && str_eqb postfix [] then true else bpe in
  let child' := if str_eqb postfix [] then set_finished child else continue child in
  Tree prefix (dset arcs arc child') fin bpe'.

(** [add] after the first round (lines 264-284): the remaining text is the merge symbol, or its first character is
    the next arc *)
Fixpoint add_rest (o : bpe_opts) (postfix : str) (t : tree) : tree :=
  match postfix with
  | [] => add_arc o t [] [] (fun c => c)
  | c :: rest =>
      if is_merge o postfix then add_arc o t postfix [] (fun c => c)
      else add_arc o t [c] rest (add_rest o rest)
  end.

(** [add] (lines 257-284), from the root. An empty [word_prefix_symbol] is false in python. *)
Definition add (o : bpe_opts) (t : tree) (label : str) : tree :=
  match o_word_prefix o with
  | Some (c :: wp) =>
      if starts_with (c :: wp) label
      then let rest := skipn (length (c :: wp)) label in add_arc o t (c :: wp) rest (add_rest o rest)
      else add_rest o label t
  | _ => add_rest o label t
  end.

(** lines 484-488 *)
Definition build_tree (o : bpe_opts) (labels : list str) : tree := fold_left (add o) labels (empty_tree []).

(** [Hyp] and [HypInPos] (lines 286-294, 365-374) *)
Record hyp := { h_history : list str; h_node : tree; h_pos : nat }.

(** the first hypothesis (lines 311-316, 391-399) *)
Definition first_hyp (o : bpe_opts) (root : tree) : res hyp :=
  match o_word_prefix o with
  | None => Ok {| h_history := []; h_node := root; h_pos := 0 |}
  | Some wp =>
      match dget (t_arcs root) wp with
      | Some node => Ok {| h_history := []; h_node := node; h_pos := 0 |}
      | None => Err KeyError
      end
  end.

(** the new hypotheses for one hypothesis and the next character, the same code in [CharSyncSearch._expand]
    (lines 330-352) and in [DepthFirstSearch._expand] (lines 411-436) *)
Definition new_hyps (o : bpe_opts) (root : tree) (char : nat) (h : hyp) : list hyp :=
  (if t_bpe_finished (h_node h) then
     match dget (t_arcs root) [char] with
     | Some node =>
         [{| h_history := h_history h ++ [t_prefix (h_node h) ++ match o_merge o with Some m => m | None => [] end];
             h_node := node; h_pos := h_pos h + 1 |}]
     | None => []
     end
   else []) ++
  (if match o_word_prefix o with Some _ => t_finished (h_node h) | None => false end then
     match dget (t_arcs root) [char] with
     | Some node => [{| h_history := h_history h ++ [t_prefix (h_node h)]; h_node := node; h_pos := h_pos h + 1 |}]
     | None => []
     end
   else []) ++
  match dget (t_arcs (h_node h)) [char] with
  | Some node => [{| h_history := h_history h; h_node := node; h_pos := h_pos h + 1 |}]
  | None => []
  end.

(** [CharSyncSearch.search] (lines 319-362) *)
Fixpoint char_sync (o : bpe_opts) (root : tree) (word : str) (hyps : list hyp) : list (list str) :=
  match word with
  | [] => flat_map (fun h => if t_finished (h_node h) then [h_history h ++ [t_prefix (h_node h)]] else []) hyps
  | c :: word' => char_sync o root word' (flat_map (new_hyps o root c) hyps)
  end.
Definition all_splits (o : bpe_opts) (root : tree) (word : str) : res (list (list str)) :=
  let* h := first_hyp o root in Ok (char_sync o root word [h]).

(** [DepthFirstSearch] (lines 376-451). The stack is kept with its top first. [sampler] gives the result of the n-th
    call of the sampler (the constant [false] if there is none). *)
Record dfs := { d_hyps : list hyp; d_final : option (list str); d_calls : nat }.

(** [_add_hyp] (lines 401-406) *)
Definition add_hyp (word : str) (s : dfs) (h : hyp) : dfs :=
  if length word <=? h_pos h then
    if t_finished (h_node h)
    then {| d_hyps := d_hyps s; d_final := Some (h_history h ++ [t_prefix (h_node h)]); d_calls := d_calls s |}
    else s
  else {| d_hyps := h :: d_hyps s; d_final := d_final s; d_calls := d_calls s |}.

(** [_expand] (lines 408-443) *)
Definition dfs_expand (o : bpe_opts) (root : tree) (word : str) (sampler : nat -> bool) (s : dfs) : dfs :=
  match d_hyps s with
  | [] => s
  | h :: rest =>
      let new := new_hyps o root (nth (h_pos h) word 0) h in
      let new := if sampler (d_calls s) then rev new else new in
      fold_left (add_hyp word) new {| d_hyps := rest; d_final := d_final s; d_calls := S (d_calls s) |}
  end.

(** [search] (lines 445-451) *)
Fixpoint dfs_loop (fuel : nat) (o : bpe_opts) (root : tree) (word : str) (sampler : nat -> bool) (s : dfs)
  : res (option (list str) * nat) :=
  match fuel with
  | 0 => Err OutOfFuel
  | S fuel =>
      match d_hyps s, d_final s with
      | _ :: _, None => dfs_loop fuel o root word sampler (dfs_expand o root word sampler s)
      | _, r => Ok (r, d_calls s)
      end
  end.

(** [get_bpe_split_for_word] (lines 494-498); [calls] is the number of random numbers drawn before. Also returns how
    many were drawn after it. *)
Definition sample_split (fuel : nat) (o : bpe_opts) (root : tree) (sampler : nat -> bool) (calls : nat) (word : str)
  : res (option (list str) * nat) :=
  let* h := first_hyp o root in
  dfs_loop fuel o root word sampler (add_hyp word {| d_hyps := []; d_final := None; d_calls := calls |} h).

(** [segment_sentence] (lines 500-516). An empty unknown label is false in python. *)
Fixpoint sample_words (fuel : nat) (o : bpe_opts) (root : tree) (unknown : option str) (sampler : nat -> bool)
    (calls : nat) (words : list str) : res (list str) :=
  match words with
  | [] => Ok []
  | word :: rest =>
      let* rc := sample_split fuel o root sampler calls word in
      let '(r, calls) := rc in
      match r, unknown with
      | Some seq, _ => let* out := sample_words fuel o root unknown sampler calls rest in Ok (seq ++ out)
      | None, Some (c :: u) => let* out := sample_words fuel o root unknown sampler calls rest in Ok ((c :: u) :: out)
      | None, _ => Err OtherException
      end
  end.

(** [SamplingBytePairEncoder.__init__] (lines 459-488) and [segment_sentence] *)
Definition sample_sentence (fuel : nat) (o : bpe_opts) (labels : list str) (unknown : option str)
    (sampler : nat -> bool) (calls : nat) (words : list str) : res (list str) :=
  let* _ := match unknown with
            | Some (c :: u) => assert_ (str_in (c :: u) labels)
            | _ => Ok tt
            end in
  sample_words fuel o (build_tree o labels) unknown sampler calls words.
