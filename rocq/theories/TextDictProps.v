(** C135: data sets of texts, or of the output of a search. *)
From Coq Require Import String.
From Verif Require Import Base PyDict ListLemmas SeqOrderModel SeqOrderSpec SeqOrderProofs SeqOrderProps TextDictModel TextDictSpec TextDictProofs.
Local Open Scope nat_scope.

(** With a fixed encoding of texts, an epoch reads each entry of the file exactly once, with its tag: the text, or for a list the first
    text with the greatest score, the scores, and all texts, which can be got back from data_flat by data_seq_lens. *)
Theorem C135_epoch : forall S enc seed R py_int method fixed off fmt file (v : S) e st,
  rng_ok R -> startswith method "default_every_n:" = false -> Forall (fun x => value_ok fmt (snd x)) (file_dict file) ->
  init_seq_order seed R py_int (plain_cfg method fixed off) fmt file (fresh v) (Some e) None None = Ok st ->
  st_num st = Some (List.length (file_dict file)) /\
  exists entries l, Permutation entries (file_dict file) /\ read (fun v s => (enc s, v)) fmt st 0 (List.length (file_dict file)) = Ok (l, st) /\
    Forall2 (fun entry x => fst x = fst entry /\ encoded enc fmt (snd entry) (snd x)) entries l.
Proof.
  intros S enc seed R py_int method fixed off fmt file v e st HR Hm Hv H. unfold init_seq_order in H.
  assert (Hne : file_dict file <> []).
  { intros E. unfold load in H. cbn [fresh st_data] in H. rewrite E in H. discriminate. }
  rewrite (load_ok fmt file (fresh v) eq_refl Hne) in H.
  2:{ intros t val l E. rewrite E in Hv. apply Forall_cons_iff in Hv as [Hv _]. exact Hv. }
  cbn [bind st_data] in H. destruct (order_for R py_int (plain_cfg method fixed off) fmt (Some e) (file_dict file)) as [o|] eqn:Eo; [|discriminate]. cbn [bind] in H. injection H as <-.
  assert (Hn : 0 < List.length (file_dict file)) by (destruct (file_dict file); [congruence|cbn; lia]).
  assert (Hp : Permutation o (seq 0 (List.length (file_dict file)))).
  { assert (G : exists len, get_seq_order_for_epoch R py_int (plain_cfg method fixed off) len (Some e) (List.length (file_dict file)) = Ok o).
    { unfold order_for in Eo. destruct (mapM _ (file_dict file)) as [lens|e']; [eexists; exact Eo|].
      destruct (get_seq_order_for_epoch R py_int (plain_cfg method fixed off) None (Some e) (List.length (file_dict file))) as [o'|[]] eqn:E; try discriminate Eo. injection Eo as ->. eexists; exact E. }
    destruct G as (len & G). exact (C02_order_is_permutation R py_int method fixed off len e _ o HR Hn Hm G). }
  assert (Hl : List.length o = List.length (file_dict file)) by (rewrite (Permutation_length Hp), seq_length; reflexivity).
  cbn [st_num]. split; [rewrite Hl; reflexivity|].
  destruct (read_ok enc fmt {| st_data := Some (file_dict file); st_order := Some o; st_num := Some (List.length o); st_vocab := seed (Some e) (st_vocab (fresh v)) |} o (file_dict file) eq_refl eq_refl Hv) as (l & El & Hfl).
  { apply Forall_forall. intros c Hc. apply (Permutation_in _ Hp) in Hc. apply in_seq in Hc. lia. }
  destruct (file_dict file) as [|d0 rest] eqn:Ed; [congruence|]. rewrite <- Ed in *.
  exists (map (fun c => nth c (file_dict file) d0) o), l. split; [|split].
  - rewrite (Permutation_map _ Hp). enough (E : map (fun c => nth c (file_dict file) d0) (seq 0 (List.length (file_dict file))) = file_dict file) by (rewrite E; reflexivity). apply nth_error_ext. intros k. destruct (Nat.lt_ge_cases k (List.length (file_dict file))) as [Hk|Hk].
    + assert (Hs : nth_error (seq 0 (List.length (file_dict file))) k = Some k) by (rewrite (nth_error_nth' _ 0) by (rewrite seq_length; exact Hk); rewrite seq_nth by exact Hk; reflexivity).
      rewrite (map_nth_error _ _ _ Hs). symmetry. apply nth_error_nth'. exact Hk.
    + rewrite (proj2 (nth_error_None _ _)) by (rewrite map_length, seq_length; exact Hk). symmetry. apply nth_error_None. exact Hk.
  - rewrite Hl in El |- *. exact El.
  - clear - Hfl. induction Hfl as [|c x o l (val & E & He) Hfl IH]; [constructor|]. cbn [map]. constructor; [|exact IH]. rewrite (nth_error_nth _ _ _ E). split; [reflexivity|exact He].
Qed.
Print Assumptions C135_epoch.

(** A given order of indices, once the file was read (e.g. for the tags): exactly these entries in this order. *)
Theorem C135_seq_order : forall S enc seed R py_int cfg fmt file (st st' : state S) tags epoch o,
  Forall (fun x => value_ok fmt (snd x)) (file_dict file) -> st_data st = None -> get_all_tags fmt file st = Ok (tags, st') ->
  Forall (fun c => c < List.length tags) o ->
  tags = map fst (file_dict file) /\
  exists st'' l, init_seq_order seed R py_int cfg fmt file st' epoch None (Some o) = Ok st'' /\ st_num st'' = Some (List.length o) /\
    read (fun v s => (enc s, v)) fmt st'' 0 (List.length o) = Ok (l, st'') /\
    Forall2 (fun c x => exists val, nth_error (file_dict file) c = Some (fst x, val) /\ encoded enc fmt val (snd x)) o l.
Proof.
  intros S enc seed R py_int cfg fmt file st st' tags epoch o Hv Hd Ht Ho. unfold get_all_tags in Ht.
  assert (Hne : file_dict file <> []) by (intros E; unfold load in Ht; rewrite Hd, E in Ht; discriminate).
  rewrite (load_ok fmt file st Hd Hne) in Ht by (intros t val l E; rewrite E in Hv; apply Forall_cons_iff in Hv as [Hv _]; exact Hv).
  cbn [bind st_data] in Ht. injection Ht as <- <-. split; [reflexivity|]. rewrite map_length in Ho.
  destruct (read_ok enc fmt {| st_data := Some (file_dict file); st_order := Some o; st_num := Some (List.length o); st_vocab := seed epoch (st_vocab st) |} o (file_dict file) eq_refl eq_refl Hv Ho) as (l & El & Hfl).
  eexists; exists l. split; [unfold init_seq_order; destruct epoch; reflexivity|]. split; [reflexivity|]. split; [exact El|exact Hfl].
Qed.
Print Assumptions C135_seq_order.

(** But on a data set which has read nothing yet, it is accepted and then the first sequence fails: the file is not loaded there. *)
Theorem C135_fresh_seq_order_refuted : forall S get_seq seed R py_int cfg fmt file (v : S) epoch c o,
  exists st, init_seq_order seed R py_int cfg fmt file (fresh v) epoch None (Some (c :: o)) = Ok st /\ st_num st = Some (List.length (c :: o)) /\
    collect get_seq fmt st 0 = Err TypeError.
Proof. intros S get_seq seed R py_int cfg fmt file v epoch c o. eexists. split; [unfold init_seq_order; destruct epoch; reflexivity|]. split; reflexivity. Qed.
Print Assumptions C135_fresh_seq_order_refuted.

(** Lists of tags are not supported. *)
Theorem C135_seq_list : forall S seed R py_int cfg fmt file (st : state S) epoch l, init_seq_order seed R py_int cfg fmt file st epoch (Some l) None = Err NotImplementedError.
Proof. intros S seed R py_int cfg fmt file st epoch l. destruct epoch; reflexivity. Qed.
Print Assumptions C135_seq_list.

(** Without an epoch there are no sequences. *)
Theorem C135_no_epoch : forall S seed R py_int cfg fmt file (st : state S), exists st', init_seq_order seed R py_int cfg fmt file st None None None = Ok st' /\ st_num st' = Some 0.
Proof. intros. eexists. split; reflexivity. Qed.
Print Assumptions C135_no_epoch.

(** The first entry of the file is checked when the file is read: reading succeeds exactly if there is one and it has the format. *)
Theorem C135_first_entry : forall S fmt file (v : S),
  ((exists r, get_all_tags fmt file (fresh v) = Ok r) <-> exists tag val l, file_dict file = (tag, val) :: l /\ value_ok fmt val) /\
  (forall e, get_all_tags fmt file (fresh v) = Err e -> e = AssertionError).
Proof.
  intros S fmt file v. unfold get_all_tags, load. cbn [fresh st_data]. destruct (file_dict file) as [|[tag val] l]; cbn [bind].
  - split; [split; [intros (r & H); discriminate|intros (t & x & l & H & _); discriminate]|intros e H; congruence].
  - destruct fmt, val as [s|[|b beam]|]; cbn; (split; [split; [intros (r & H)|intros (t & x & l' & H & Hv); injection H as <- <- <-]|intros e H]); try discriminate; try congruence; try (eexists; reflexivity); try (cbn in Hv; contradiction); try (cbn in Hv; congruence);
      do 3 eexists; (split; [reflexivity|cbn; first [exact I|discriminate]]).
Qed.
Print Assumptions C135_first_entry.

(** Only the first entry of the file is checked: an empty list of a later entry makes the epoch fail in the middle. *)
Theorem C135_later_entry_refuted : forall enc, exists file st, init_seq_order (S := unit) (fun _ v => v) ex_rng ex_int (plain_cfg "default" None 0) FList file (fresh tt) (Some 1) None None = Ok st /\
  st_num st = Some 2 /\ is_ok (collect (fun v s => (enc s, v)) FList st 0) = true /\ collect (fun v s => (enc s, v)) FList st 1 = Err ValueError.
Proof. intros enc. exists [("a", Beam [(1%Z, "x")]); ("b", Beam [])]%string. eexists. split; [vm_compute; reflexivity|]. repeat split. Qed.
Print Assumptions C135_later_entry_refuted.

(** With a vocabulary which draws random numbers, "data" is encoded once more for itself: it need not be one of the parts of
    data_flat. *)
Definition alternating (v : bool) (s : string) : list nat * bool := ([if v then 1 else 2], negb v).
Theorem C135_random_vocab_refuted : exists S get_seq seed file (v : S) st tag x flat lens scores st',
  init_seq_order seed ex_rng ex_int (plain_cfg "default" None 0) FList file (fresh v) (Some 1) None None = Ok st /\
  collect get_seq FList st 0 = Ok (tag, x, st') /\ f_beam x = Some (flat, lens, scores) /\ ~ In (f_data x) (parts lens flat).
Proof.
  exists bool, alternating, (fun _ v => v), [("a", Beam [(1%Z, "x")])]%string, true. do 7 eexists. split; [vm_compute; reflexivity|]. split; [vm_compute; reflexivity|]. split; [reflexivity|].
  cbn. intros [H|[]]. discriminate.
Qed.
Print Assumptions C135_random_vocab_refuted.

Definition ex_enc (s : string) : list nat := map Ascii.nat_of_ascii (list_ascii_of_string s).
Definition ex_file : list (string * value) := [("s1", Beam [(-3, "ab"); (-1, "c"); (-1, "d")]); ("s2", Beam [(0, "")])]%string%Z.
Example C135_ex : (let* st := init_seq_order (S := unit) (fun _ v => v) ex_rng ex_int (plain_cfg "sorted" None 0) FList ex_file (fresh tt) (Some 1) None None in
    let* (l, _) := read (fun v s => (ex_enc s, v)) FList st 0 2 in Ok l) =
  Ok [("s2", {| f_data := []; f_beam := Some ([], [0], [0%Z]) |}); ("s1", {| f_data := [99]; f_beam := Some ([97; 98; 99; 100], [2; 1; 1], [-3; -1; -1]%Z) |})]%string /\
  Forall (fun x => value_ok FList (snd x)) (file_dict ex_file) /\ startswith "sorted" "default_every_n:" = false.
Proof. split; [vm_compute; reflexivity|]. split; [repeat constructor; discriminate|reflexivity]. Qed.
Example C135_ex_single : (let* st := init_seq_order (S := unit) (fun _ v => v) ex_rng ex_int (plain_cfg "sorted_reverse" None 0) FSingle [("s1", Text "a"); ("s2", Text "bb"); ("s1", Text "ccc")]%string (fresh tt) (Some 1) None None in
    let* (l, _) := read (fun v s => (ex_enc s, v)) FSingle st 0 2 in Ok l) =
  Ok [("s1", {| f_data := [99; 99; 99]; f_beam := None |}); ("s2", {| f_data := [98; 98]; f_beam := None |})]%string.
Proof. vm_compute. reflexivity. Qed.
Example C135_ex_seq_order : (let* (_, st) := get_all_tags (S := unit) FList ex_file (fresh tt) in
    let* st := init_seq_order (fun _ v => v) ex_rng ex_int (plain_cfg "sorted" None 0) FList ex_file st None None (Some [1; 1]) in
    let* (t, st) := get_tag FList ex_file st 1 in
    let* (l, _) := read (fun v s => (ex_enc s, v)) FList st 0 2 in Ok (t, map fst l)) = Ok ("s2", ["s2"; "s2"])%string.
Proof. vm_compute. reflexivity. Qed.
Example C135_ex_errors : is_ok (load (S := unit) FSingle ex_file (fresh tt)) = false /\ is_ok (load (S := unit) FList [] (fresh tt)) = false /\
  is_ok (load (S := unit) FList [("a", Beam [])]%string (fresh tt)) = false /\
  init_seq_order (S := unit) (fun _ v => v) ex_rng ex_int (plain_cfg "default" None 0) FList [] (fresh tt) None None None =
    Ok {| st_data := None; st_order := None; st_num := Some 0; st_vocab := tt |}.
Proof. repeat split. Qed.
