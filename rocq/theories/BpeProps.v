(** C45, C46: byte pair encoding keeps the text, and sampling finds exactly the splits into labels. *)
From Coq Require Import String Ascii.
From Verif Require Import Base BpeModel BpeSpec BpeProofs BpeSampleProofs.
Local Open Scope nat_scope.
Local Open Scope list_scope.
Local Notation length := List.length.

(** ** C45 encoding with merge operations *)

(** The symbols of a word, put together again, are the word. *)
Theorem C45_word_kept : forall v lines labels e word,
  merge_lines lines -> (labels <> None -> mark_at_end lines) -> v <> VOther ->
  load_encoder v lines labels = Ok e -> word <> [] -> ~ contains eow word ->
  exists out, encode_word e word = Ok out /\ concat out = word.
Proof.
  intros v lines labels e word H1 H2 H3 H4 H5 H6.
  destruct (encode_word_spec v lines labels e word H1 H2 H3 H4 H5 H6) as (w & w' & pc & out & _ & _ & _ & _ & K1 & K2 & _).
  eauto.
Qed.
Print Assumptions C45_word_kept.

(** Without a vocabulary, the symbols are the result of the merge operations, in the order of the file. *)
Theorem C45_merge_order : forall v lines e word,
  merge_lines lines -> v <> VOther -> load_encoder v lines None = Ok e -> word <> [] -> ~ contains eow word ->
  exists w w' out, marked_chars v word w /\ merged lines w w' /\ unmarked w' out /\
    encode_word e word = Ok out /\ Forall (fun s => s <> []) out.
Proof.
  intros v lines e word H1 H3 H4 H5 H6.
  destruct (encode_word_spec v lines None e word H1 ltac:(congruence) H3 H4 H5 H6)
    as (w & w' & pc & out & K1 & K2 & K3 & K4 & K5 & K6 & K7 & ->).
  exists w, w', pc. auto.
Qed.
Print Assumptions C45_merge_order.

(** That result is unique. *)
Theorem C45_merge_deterministic : forall lines w w1 w2, merged lines w w1 -> merged lines w w2 -> w1 = w2.
Proof. intros lines w w1 w2 H1 H2. exact (merged_det lines w w1 H1 w2 H2). Qed.
Print Assumptions C45_merge_deterministic.

(** With a vocabulary, the symbols are labels of it unless they cannot be split further, and symbols that are
    labels are not split. *)
Theorem C45_vocabulary : forall v lines vocab e word,
  merge_lines lines -> mark_at_end lines -> v <> VOther -> vocab <> [] ->
  load_encoder v lines (Some vocab) = Ok e -> word <> [] -> ~ contains eow word ->
  exists w w' pieces out, marked_chars v word w /\ merged lines w w' /\ unmarked w' pieces /\
    encode_word e word = Ok out /\ in_vocabulary lines vocab out /\
    (forall i l, pieces = i ++ [l] -> Forall (fun s => In (s ++ at_at) vocab) i -> In l vocab -> out = pieces).
Proof.
  intros v lines vocab e word H1 H2 H3 Hv H4 H5 H6.
  destruct (encode_word_spec v lines (Some vocab) e word H1 (fun _ => H2) H3 H4 H5 H6)
    as (w & w' & pc & out & K1 & K2 & K3 & K4 & K5 & K6 & K7 & K8).
  exists w, w', pc, out. destruct vocab as [|x vocab]; [congruence|]. destruct K8 as (K8 & K9).
  do 4 (split; [assumption|]). split; [exact K8|]. intros i l -> Ki Kl. apply K9.
  - now rewrite removelast_last.
  - now rewrite last_last.
Qed.
Print Assumptions C45_vocabulary.

(** An encoded sentence reads as the sentence. *)
Theorem C45_sentence_kept : forall v lines labels e words,
  merge_lines lines -> (labels <> None -> mark_at_end lines) -> v <> VOther ->
  load_encoder v lines labels = Ok e ->
  Forall (fun w => w <> [] /\ ~ contains eow w /\ ends_with at_at w = false) words ->
  exists out, segment_sentence e words = Ok out /\ decode out = words.
Proof.
  intros v lines labels e words H1 H2 H3 H4 H5. apply segment_words_decode.
  - eapply Forall_impl; [|exact H5]. intros w (K1 & K2 & _).
    destruct (encode_word_spec v lines labels e w H1 H2 H3 H4 K1 K2)
      as (? & ? & ? & out & _ & _ & _ & _ & G1 & G2 & G3 & _). eauto.
  - eapply Forall_impl; [|exact H5]. cbn beta. tauto.
Qed.
Print Assumptions C45_sentence_kept.

(** Without categories, a sentence is encoded word by word. *)
Theorem C45_word_by_word : forall v lines labels e words,
  merge_lines lines -> (labels <> None -> mark_at_end lines) -> v <> VOther ->
  load_encoder v lines labels = Ok e ->
  Forall (fun w => ordinary w /\ ~ contains eow w) words ->
  exists outs, segment_sentence e words = Ok (concat outs) /\
    Forall2 (fun w o => exists pieces, encode_word e w = Ok pieces /\ with_merge_symbol pieces o) words outs.
Proof.
  intros v lines labels e words H1 H2 H3 H4 H5. apply segment_words_ordinary.
  - eapply Forall_impl; [|exact H5]. cbn beta. tauto.
  - eapply Forall_impl; [|exact H5]. intros w ((K1 & _) & K2).
    destruct (encode_word_spec v lines labels e w H1 H2 H3 H4 K1 K2)
      as (? & ? & ? & out & _ & _ & _ & _ & G1 & G2 & G3 & _). eauto.
Qed.
Print Assumptions C45_word_by_word.

(** *** a concrete encoder *)
Fixpoint cs (s : string) : str :=
  match s with EmptyString => [] | String c s' => nat_of_ascii c :: cs s' end.
Definition demo_lines : list (list str) :=
  map (fun p => [cs (fst p); cs (snd p)])
    [("#version:", "0.2"); ("n", "d</w>"); ("a", "nd</w>"); ("d", "a"); ("t", "s</w>"); ("da", "ts</w>")]%string.
Example ex_lines : merge_lines demo_lines.
Proof. unfold merge_lines, demo_lines. repeat constructor; do 2 eexists; split; (reflexivity || split; discriminate). Qed.
Example ex_mark : mark_at_end demo_lines.
Proof.
  intros a b s H E. cbn in H.
  assert (G : forall l : str, a ++ b = l -> rev l = rev eow ++ rev s) by (intros l <-; rewrite E, rev_app_distr; reflexivity).
  destruct H as [H|[H|[H|[H|[H|[H|[]]]]]]]; injection H as <- <-; specialize (G _ eq_refl); cbn in G;
    try discriminate.
  - exists (cs "d"). reflexivity.
  - exists (cs "nd"). reflexivity.
  - exists (cs "s"). reflexivity.
  - exists (cs "ts"). reflexivity.
Qed.
(* like tests/test_GeneratingDataset.py, test_BytePairEncoding_unicode *)
Example ex_encode :
  (let* e := load_encoder V02 demo_lines None in
   segment_sentence e (map cs ["and"; "dats"; "send"; "$x"; "{"; "and"; "}"]%string)) =
  Ok (map cs ["and"; "dats"; "s@@"; "e@@"; "nd"; "$x"; "{"; "and"; "}"]%string).
Proof. vm_compute. reflexivity. Qed.
Example ex_encode_vocab :
  (let* e := load_encoder V02 demo_lines (Some (map cs ["a@@"; "nd"; "dats"; "da@@"; "t@@"]%string)) in
   segment_sentence e (map cs ["and"; "dats"; "send"]%string)) =
  Ok (map cs ["a@@"; "nd"; "dats"; "s@@"; "e@@"; "nd"]%string).
Proof. vm_compute. reflexivity. Qed.
Lemma short_no_eow w : length w < 4 -> ~ contains eow w.
Proof.
  intros H (l & r & E). apply (f_equal (@List.length nat)) in E. rewrite !app_length in E.
  change (length eow) with 4 in E. lia.
Qed.
Example ex_hyps : Forall (fun w => w <> [] /\ ~ contains eow w /\ ends_with at_at w = false) [cs "and"; cs "$x"].
Proof.
  constructor; [|constructor; [|constructor]]; (split; [discriminate|]; split; [apply short_no_eow; cbn; lia|reflexivity]).
Qed.

(** Findings. With codes of version 0.1, a symbol of the encoding can be empty: a word whose last merge was with the
    end-of-word mark itself, and which is not in the vocabulary, is split into the word and an empty symbol. *)
Theorem C45_no_empty_symbols_refuted :
  exists lines vocab e word out,
    merge_lines lines /\ mark_at_end lines /\ load_encoder V01 lines (Some vocab) = Ok e /\ word <> [] /\
    ~ contains eow word /\ encode_word e word = Ok out /\ In [] out.
Proof.
  exists [[cs "d"; eow]], [cs "x"]. eexists. exists (cs "d"). eexists.
  split; [repeat constructor; do 2 eexists; split; (reflexivity || split; discriminate)|]. split.
  { intros a b s [H|[]] E. injection H as <- <-. exists []. reflexivity. }
  split; [vm_compute; reflexivity|]. split; [discriminate|]. split.
  { apply short_no_eow. cbn. lia. }
  split; [vm_compute; reflexivity|]. right. now left.
Qed.
Print Assumptions C45_no_empty_symbols_refuted.

(** A word that contains the text of the end-of-word mark can lose it. *)
Theorem C45_any_word_kept_refuted :
  exists lines e word out,
    merge_lines lines /\ load_encoder V02 lines None = Ok e /\ word <> [] /\
    encode_word e word = Ok out /\ concat out <> word.
Proof.
  exists [[cs "<"; cs "/"]; [cs "</"; cs "w"]; [cs "</w"; cs "></w>"]]. eexists. exists (cs "x</w>"). eexists.
  split; [repeat constructor; do 2 eexists; split; (reflexivity || split; discriminate)|].
  split; [vm_compute; reflexivity|]. split; [discriminate|]. split; [vm_compute; reflexivity|]. discriminate.
Qed.
Print Assumptions C45_any_word_kept_refuted.

(** ** C46 sampling a split *)

(** Whatever the random choices are: the search ends, it finds a split of the word into labels, and it finds one
    whenever there is one. *)
Theorem C46_sample_is_split : forall o labels fuel sampler calls word,
  opts_ok o -> has_start o labels -> word <> [] -> 4 ^ length word < fuel ->
  exists r calls', sample_split fuel o (build_tree o labels) sampler calls word = Ok (r, calls') /\
    match r with
    | Some seq => split o labels true word seq
    | None => forall seq, ~ split o labels true word seq
    end.
Proof. intros. now apply sample_split_spec. Qed.
Print Assumptions C46_sample_is_split.

(** The exhaustive search finds exactly the splits of the word. *)
Theorem C46_all_splits : forall o labels word seqs,
  opts_ok o -> has_start o labels -> word <> [] -> all_splits o (build_tree o labels) word = Ok seqs ->
  forall seq, In seq seqs <-> split o labels true word seq.
Proof. intros. now apply all_splits_spec. Qed.
Print Assumptions C46_all_splits.

(** A sentence is encoded by a split of every word, with the unknown label exactly for the words without a split. It
    fails only if there is no unknown label and some word has no split. *)
Theorem C46_sentence : forall o labels fuel unknown sampler calls words,
  opts_ok o -> has_start o labels -> (forall u, unknown = Some u -> In u labels) ->
  Forall (fun w => w <> [] /\ 4 ^ length w < fuel) words ->
  match sample_sentence fuel o labels unknown sampler calls words with
  | Ok out => sentence_split o labels unknown words out
  | Err e => e = OtherException /\ (unknown = None \/ unknown = Some []) /\
      exists w, In w words /\ forall seq, ~ split o labels true w seq
  end.
Proof.
  intros o labels fuel unknown sampler calls words H1 H2 H3 H4. unfold sample_sentence.
  assert (E : match unknown with Some (c :: u) => assert_ (str_in (c :: u) labels) | _ => Ok tt end = Ok tt).
  { destruct unknown as [[|c u]|]; auto. unfold assert_.
    now rewrite (proj2 (str_in_In (c :: u) labels) (H3 _ eq_refl)). }
  rewrite E. cbn [bind]. now apply sample_words_spec.
Qed.
Print Assumptions C46_sentence.

(** With the merge symbol "@@", a split reads as the word. *)
Theorem C46_split_reads_as_word : forall o labels word seq,
  o_merge o = Some at_at -> o_word_prefix o = None -> split o labels true word seq -> decode seq = [word].
Proof.
  intros o labels word seq H1 H2 H3. unfold decode. rewrite <- (app_nil_r seq).
  rewrite (split_decode o labels true word seq H1 H2 H3). reflexivity.
Qed.
Print Assumptions C46_split_reads_as_word.

(** With a mark for the start of words, a split is the marked word. *)
Theorem C46_split_is_marked_word : forall o labels wp word seq,
  o_merge o = None -> o_word_prefix o = Some wp -> split o labels true word seq -> concat seq = wp ++ word.
Proof.
  intros o labels wp word seq H1 H2 H3. rewrite (split_concat o labels wp true word seq H1 H2 H3).
  unfold word_start. now rewrite H2.
Qed.
Print Assumptions C46_split_is_marked_word.

(** All symbols of a split are labels. *)
Theorem C46_split_labels : forall o labels word seq, split o labels true word seq -> Forall (fun s => In s labels) seq.
Proof.
  intros o labels word seq H. induction H as [first w H1 H2|first t w s seq H1 H2 H3 H4 IH].
  - constructor; [apply H2|constructor].
  - constructor; [|exact IH]. destruct H3 as [(m & _ & _ & K)|(_ & _ & K)]; [exact K|apply K].
Qed.
Print Assumptions C46_split_labels.

Definition demo_opts := {| o_merge := Some at_at; o_word_prefix := None |}.
Definition demo_labels := map cs ["a"; "b@@"; "a@@"; "ab@@"; "b"; "ba"; "<unk>"]%string.
Example ex_all : all_splits demo_opts (build_tree demo_opts demo_labels) (cs "aba") =
  Ok [map cs ["a@@"; "b@@"; "a"]; map cs ["a@@"; "ba"]; map cs ["ab@@"; "a"]]%string.
Proof. vm_compute. reflexivity. Qed.
Example ex_sample : forall n : nat, sample_sentence 100 demo_opts demo_labels (Some (cs "<unk>")) (fun _ => false) n
  (map cs ["aba"; "c"; "ab"]%string) = Ok (map cs ["ab@@"; "a"; "<unk>"; "a@@"; "b"]%string).
Proof. intros n. vm_compute. reflexivity. Qed.
Example ex_sample_breadth : forall n : nat, sample_sentence 100 demo_opts demo_labels (Some (cs "<unk>")) (fun _ => true) n
  (map cs ["aba"; "c"; "ab"]%string) = Ok (map cs ["a@@"; "b@@"; "a"; "<unk>"; "a@@"; "b"]%string).
Proof. intros n. vm_compute. reflexivity. Qed.
Definition demo_opts2 := {| o_merge := None; o_word_prefix := Some [95] |}.
Definition demo_labels2 : list str := [[95]; 95 :: cs "a"; cs "b"; cs "ba"; cs "a"].
Example ex_all2 : all_splits demo_opts2 (build_tree demo_opts2 demo_labels2) (cs "aba") =
  Ok [[[95]; cs "a"; cs "b"; cs "a"]; [[95]; cs "a"; cs "ba"]; [95 :: cs "a"; cs "b"; cs "a"];
      [95 :: cs "a"; cs "ba"]].
Proof. vm_compute. reflexivity. Qed.
Example ex_opts : opts_ok demo_opts /\ opts_ok demo_opts2 /\ has_start demo_opts demo_labels /\
  has_start demo_opts2 demo_labels2.
Proof. split; [cbn; lia|]. split; [reflexivity|]. split; [exact I|]. exists []. now left. Qed.

(** Finding: with a mark for the start of words, an unknown label does not help if no label starts with the mark: the
    encoder fails with KeyError. *)
Theorem C46_unknown_label_refuted :
  exists o labels unknown words, opts_ok o /\ unknown <> [] /\ In unknown labels /\ Forall (fun w => w <> []) words /\
    forall fuel sampler calls, sample_sentence fuel o labels (Some unknown) sampler calls words = Err KeyError.
Proof.
  exists demo_opts2, [cs "<unk>"; cs "a"], (cs "<unk>"), [cs "b"]. split; [reflexivity|]. split; [discriminate|].
  split; [now left|]. split; [repeat constructor; discriminate|]. intros. reflexivity.
Qed.
Print Assumptions C46_unknown_label_refuted.
