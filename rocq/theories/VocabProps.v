(** C47, C48: vocabularies. *)
From Verif Require Import Base PyDict ListLemmas BpeModel VocabModel VocabSpec VocabProofs.
Local Open Scope Z_scope.

(** A vocabulary file with a dict is accepted exactly if the dict uses the ids 0, ..., n - 1 without a gap, [num_labels]
    (if given) is n, and the unknown label (if any) is in the vocabulary. *)
Theorem C47_file_accepted d unk nl post : dict_ok d ->
  (is_ok (make_vocab (SDict d) unk nl post) = true <->
   exists n, 0 < n /\ uses_ids d n /\ (nl = None \/ nl = Some n) /\ unknown_ok d n unk).
Proof. apply file_accepted. Qed.
Print Assumptions C47_file_accepted.

(** Its labels: the label of an id is the alphabetically last one that the file has for the id. *)
Theorem C47_file_labels d unk nl post v : dict_ok d -> make_vocab (SDict d) unk nl post = Ok v ->
  v_vocab v = d /\ uses_ids d (Z.of_nat (length (v_labels v))) /\
  forall i l, nth_error (v_labels v) i = Some l <->
    dget d l = Some (Z.of_nat i) /\ forall l', dget d l' = Some (Z.of_nat i) -> not_after l' l.
Proof. apply file_labels. Qed.
Print Assumptions C47_file_labels.

(** A file with one label per line is accepted exactly if no line occurs twice (and there is a line), and then the
    labels are the lines in order. *)
Theorem C47_lines_accepted l unk nl post :
  (is_ok (make_vocab (SLines l) unk nl post) = true <->
   l <> [] /\ NoDup l /\ (nl = None \/ nl = Some (Z.of_nat (length l))) /\
   match unk with LNone => True | LStr s => In s l | LInt i => -1 <= i < Z.of_nat (length l) end)
  /\ (forall v, make_vocab (SLines l) unk nl post = Ok v -> v_labels v = l).
Proof. split; [apply lines_accepted|apply lines_labels]. Qed.
Print Assumptions C47_lines_accepted.

(** From an id to its label and back. *)
Theorem C47_id_label_id s unk nl post v i l : distinct_labels s -> make_vocab s unk nl post = Ok v ->
  id_to_label (v_labels v) i = Ok l -> label_to_id (v_vocab v) l = Ok i.
Proof. apply id_label_id. Qed.
Print Assumptions C47_id_label_id.

(** From a label to its id and back, if no two labels share an id. *)
Theorem C47_label_id_label s unk nl post v i l : distinct_ids s -> make_vocab s unk nl post = Ok v ->
  label_to_id (v_vocab v) l = Ok i -> id_to_label (v_labels v) i = Ok l.
Proof. apply label_id_label. Qed.
Print Assumptions C47_label_id_label.

(** The promise of [get_seq_labels]: [get_seq(get_seq_labels(seq)) == seq], for a vocabulary whose labels are words and
    without [seq_postfix]. *)
Theorem C47_get_seq_inverse is_space s unk nl v seq t : is_space 32%nat = true -> distinct_labels s ->
  make_vocab s unk nl [] = Ok v -> Forall (word is_space) (v_labels v) -> Forall (fun i => 0 <= i) seq ->
  get_seq_labels v seq = Ok t -> get_seq is_space v t = Ok (map Some seq).
Proof. apply round_trip. Qed.
Print Assumptions C47_get_seq_inverse.

(** The other way round a sentence of known words comes back with single spaces. *)
Theorem C47_sentence_round_trip is_space s unk nl v t ws : distinct_ids s -> make_vocab s unk nl [] = Ok v ->
  words_of is_space t ws -> Forall (fun w => In w (v_labels v)) ws ->
  exists ids, get_seq is_space v t = Ok (map Some ids) /\ get_seq_labels v ids = Ok (join_space ws).
Proof. apply sentence_round_trip. Qed.
Print Assumptions C47_sentence_round_trip.

(** Every sentence has its words. With an unknown label every word gets an id: its own, or that of the unknown label.
    The postfix comes last. *)
Theorem C47_unknown_words is_space s u nl post v t : make_vocab s (LStr u) nl post = Ok v ->
  exists ws ids uid, words_of is_space t ws /\ dget (v_vocab v) u = Some uid /\
    get_seq is_space v t = Ok (map Some (ids ++ post)) /\
    Forall2 (fun w i => dget (v_vocab v) w = Some i \/ (dget (v_vocab v) w = None /\ i = uid)) ws ids.
Proof.
  intros H. destruct (words_total is_space t) as (ws&Hw). destruct (unknown_words is_space s u nl post v t ws H Hw) as (ids&uid&A&B&C).
  exists ws, ids, uid. auto.
Qed.
Print Assumptions C47_unknown_words.

(** Without an unknown label a sentence with a word that is not in the vocabulary is refused. *)
Theorem C47_no_unknown is_space s nl post v t ws : make_vocab s LNone nl post = Ok v -> words_of is_space t ws ->
  (forall ids, Forall2 (fun w i => dget (v_vocab v) w = Some i) ws ids -> get_seq is_space v t = Ok (map Some (ids ++ post)))
  /\ (Exists (fun w => dget (v_vocab v) w = None) ws -> get_seq is_space v t = Err KeyError).
Proof. apply no_unknown. Qed.
Print Assumptions C47_no_unknown.

(** Character vocabularies: both ways. *)
Theorem C47_characters s unk nl v : make_vocab s unk nl [] = Ok v -> Forall (fun l => length l = 1%nat) (v_labels v) ->
  (forall seq t, distinct_labels s -> Forall (fun i => 0 <= i) seq -> char_get_seq_labels v seq = Ok t -> char_get_seq v t = Ok (map Some seq))
  /\ (forall t, distinct_ids s -> Forall (fun c => In [c] (v_labels v)) t ->
        exists ids, char_get_seq v t = Ok (map Some ids) /\ char_get_seq_labels v ids = Ok t).
Proof.
  intros H Hl. split.
  - intros seq t Hs Hseq Ht. eapply char_round_trip; eauto.
  - intros t Hs Ht. eapply char_sentence_round_trip; eauto.
Qed.
Print Assumptions C47_characters.

(** Wrong without [distinct_ids]: a file with two labels for an id is accepted, and a label comes back as another. *)
Theorem C47_label_id_label_refuted : ~ forall d unk nl post v i l, dict_ok d -> make_vocab (SDict d) unk nl post = Ok v ->
  label_to_id (v_vocab v) l = Ok i -> id_to_label (v_labels v) i = Ok l.
Proof.
  intros H. set (d := [([97%nat], 0); ([98%nat], 0); ([99%nat], 1)] : dict str Z).
  assert (E : exists v, make_vocab (SDict d) LNone None [] = Ok v /\ label_to_id (v_vocab v) [97%nat] = Ok 0 /\ id_to_label (v_labels v) 0 <> Ok [97%nat]).
  { eexists. split; [vm_compute; reflexivity|]. split; [reflexivity|]. vm_compute. discriminate. }
  destruct E as (v&E1&E2&E3). apply E3. apply (H d LNone None [] v 0 [97%nat]); auto. unfold dict_ok. cbn. repeat constructor; cbn; intuition discriminate.
Qed.
Print Assumptions C47_label_id_label_refuted.

(** Wrong for a list of labels with a repetition, which is accepted: an id comes back as another. *)
Theorem C47_id_label_id_refuted : ~ forall l unk nl post v i w, make_vocab (SLabels l) unk nl post = Ok v ->
  id_to_label (v_labels v) i = Ok w -> label_to_id (v_vocab v) w = Ok i.
Proof.
  intros H. assert (E : exists v, make_vocab (SLabels [[97]; [98]; [97]]%nat) LNone None [] = Ok v /\ id_to_label (v_labels v) 0 = Ok [97%nat] /\ label_to_id (v_vocab v) [97%nat] <> Ok 0).
  { eexists. split; [vm_compute; reflexivity|]. split; [reflexivity|]. vm_compute. discriminate. }
  destruct E as (v&E1&E2&E3). apply E3. eapply H; eauto.
Qed.
Print Assumptions C47_id_label_id_refuted.

(** Wrong with a [seq_postfix]: the promise of [get_seq_labels] fails for every sequence. *)
Theorem C47_get_seq_inverse_postfix_refuted is_space s unk nl post v seq t : is_space 32%nat = true -> post <> [] ->
  make_vocab s unk nl post = Ok v -> Forall (word is_space) (v_labels v) ->
  get_seq_labels v seq = Ok t -> get_seq is_space v t <> Ok (map Some seq).
Proof. apply postfix_breaks. Qed.
Print Assumptions C47_get_seq_inverse_postfix_refuted.

(** Wrong for [unknown_label=-1]: an unknown word gives [None] instead of an id. *)
Theorem C47_unknown_id_refuted : ~ forall is_space l u nl post v t r, make_vocab (SLabels l) u nl post = Ok v ->
  get_seq is_space v t = Ok r -> ~ In None r.
Proof.
  intros H. assert (E : exists v, make_vocab (SLabels [[97]; [98]]%nat) (LInt (-1)) None [] = Ok v /\ get_seq (Nat.eqb 32) v [99%nat] = Ok [None]).
  { eexists. split; [vm_compute; reflexivity|]. reflexivity. }
  destruct E as (v&E1&E2). eapply H; eauto. now left.
Qed.
Print Assumptions C47_unknown_id_refuted.

(** [create_vocab_from_labels]: which class is made. The byte vocabulary for exactly the 256 labels [chr(0)] to
    [chr(255)] in this order, the character vocabulary for fewer than 1000 labels of one character each otherwise. *)
Theorem C47_from_labels_class labels post :
  let c := fst (create_vocab_from_labels labels post) in
  let single := (length labels < 1000)%nat /\ Forall (fun l => length l = 1%nat) labels in
  (c = CUtf8 <-> labels = map (fun i => [i]) (seq 0 256))
  /\ (c = CChars <-> single /\ labels <> map (fun i => [i]) (seq 0 256))
  /\ (c = CWords <-> ~ single)
  /\ (c <> CUtf8 -> snd (create_vocab_from_labels labels post) = post).
Proof. apply from_labels_class. Qed.
Print Assumptions C47_from_labels_class.

(** [create_vocab_from_labels]: characters become a character vocabulary and other labels a word vocabulary, with the
    given postfix. Wrong for the 256 bytes: the options are dropped. *)
Theorem C47_from_labels_refuted : ~ forall labels post, snd (create_vocab_from_labels labels post) = post.
Proof. intros H. specialize (H (map (fun i => [i]) (seq 0 256)) [7]). vm_compute in H. discriminate. Qed.
Print Assumptions C47_from_labels_refuted.

(** UTF-8 bytes as labels: every text of Unicode scalar values, and only such, has a sequence; its elements are bytes,
    and the labels of the sequence are the text. *)
Theorem C48_utf8_round_trip s :
  (Forall (fun c => scalar_value (Z.of_nat c)) s <-> exists bs, utf8_get_seq [] s = Ok bs)
  /\ (forall bs, utf8_get_seq [] s = Ok bs -> Forall (fun b => 0 <= b < 256) bs /\ utf8_get_seq_labels bs = Ok (map Z.of_nat s)).
Proof. split; [apply utf8_encode_ok|apply utf8_round_trip]. Qed.
Print Assumptions C48_utf8_round_trip.

(** The promise of [get_seq_labels]: whatever sequence has labels, those labels give the sequence. *)
Theorem C48_utf8_inverse bs t : utf8_get_seq_labels bs = Ok t ->
  Forall scalar_value t /\ utf8_get_seq [] (map Z.to_nat t) = Ok bs.
Proof. apply utf8_labels_inverse. Qed.
Print Assumptions C48_utf8_inverse.

(** Wrong with a [seq_postfix]: the postfix may not be a character by itself, then the sequence has no labels. *)
Theorem C48_utf8_postfix_refuted : ~ forall post s bs, Forall (fun b => 0 <= b < 256) post -> utf8_get_seq post s = Ok bs ->
  is_ok (utf8_get_seq_labels bs) = true.
Proof. intros H. specialize (H [255] [97%nat] [97; 255]). assert (X : is_ok (utf8_get_seq_labels [97; 255]) = true); [|discriminate]. apply H; [constructor; [lia|constructor]|reflexivity]. Qed.
Print Assumptions C48_utf8_postfix_refuted.

(* ---------- examples ---------- *)
Definition sp (c : nat) : bool := (c =? 32)%nat.
Example C47_ex_vocab : exists v, make_vocab (SLines [[97; 98]; [99]; [85]]%nat) (LStr [85%nat]) (Some 3) [1] = Ok v
  /\ get_seq sp v [32; 99; 32; 32; 97; 98; 32; 97]%nat = Ok [Some 1; Some 0; Some 2; Some 1]
  /\ get_seq_labels v [1; 0] = Ok [99; 32; 97; 98]%nat.
Proof. eexists. split; [reflexivity|]. split; reflexivity. Qed.
Example C47_ex_gap : make_vocab (SDict [([97%nat], 0); ([98%nat], 2)]) LNone None [] = Err AssertionError.
Proof. reflexivity. Qed.
Example C47_ex_accepted : dict_ok [([97%nat], 1); ([98%nat], 0)] /\ uses_ids [([97%nat], 1); ([98%nat], 0)] 2
  /\ word sp [97%nat] /\ words_of sp [97; 32; 98]%nat [[97]; [98]]%nat.
Proof.
  split; [cbn; repeat constructor; cbn; intuition discriminate|]. split.
  - intros i. split.
    + intros (l&H). apply dget_In in H. cbn in H. destruct H as [[= <- <-]|[[= <- <-]|[]]]; lia.
    + intros Hi. assert (i = 0 \/ i = 1) as [-> | ->] by lia; eexists; [apply (In_dget _ [98%nat])|apply (In_dget _ [97%nat])].
      * cbn; repeat constructor; cbn; intuition discriminate.
      * cbn. auto.
      * cbn; repeat constructor; cbn; intuition discriminate.
      * cbn. auto.
  - split; [split; [discriminate|intros c [<-|[]]; reflexivity]|]. now apply split_words.
Qed.
Example C47_ex_chars : exists v, make_vocab (SLabels [[97]; [32]; [98]]%nat) LNone None [] = Ok v
  /\ char_get_seq v [98; 32; 97]%nat = Ok [Some 2; Some 1; Some 0] /\ char_get_seq_labels v [2; 1; 0] = Ok [98; 32; 97]%nat.
Proof. eexists. split; [reflexivity|]. split; reflexivity. Qed.
(** "é€" *)
Example C48_ex : utf8_get_seq [] [233; 2000; 97]%nat = Ok [195; 169; 223; 144; 97] /\ utf8_get_seq_labels [226; 130; 172] = Ok [8364]
  /\ utf8_get_seq_labels [192; 128] = Err ValueError /\ utf8_get_seq_labels [240; 159; 152; 128] = Ok [128512].
Proof. repeat split. Qed.
