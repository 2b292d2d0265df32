(** C49-C52: HDF files. *)
From Coq Require Import String Ascii.
From Verif Require Import Base PyDict ListLemmas OptimModel HdfModel HdfSpec HdfProofs HdfReadProofs HdfOkProofs HdfFileProofs HdfSizeProofs HdfCopyProofs.
Import ListNotations.
Local Open Scope string_scope.
Local Open Scope nat_scope.
Local Open Scope list_scope.
Local Notation length := List.length.

(** * C49: what [SimpleHDFWriter] wrote, [HDFDataset] reads *)

Theorem C49_round_trip {A} (zero : A) of_size dim ndim labels types tlabels bs f :
  write_file zero of_size dim ndim labels types tlabels bs = Ok f ->
  NoDup (map fst types) -> Forall batch_python bs -> Forall keys_distinct bs ->
  all_seqs of_size bs <> [] -> Forall (fun s => no_nul (q_tag s)) (all_seqs of_size bs) -> ~ written_keys types bs "data" ->
  exists r keys, open_files [f] = Ok r /\ (forall k, In k keys <-> written_keys types bs k)
    /\ is_dataset r true keys (all_seqs of_size bs).
Proof. intros H Nd PB KD Hne Ht Hd. apply (open_one zero of_size f); auto. now apply produced_new with dim ndim labels tlabels. Qed.
Print Assumptions C49_round_trip.

(** The writer takes everything that is documented: [types] for all the keys, or the keys of the first sequence. *)
Theorem C49_accepts {A} (zero : A) of_size dim ndim labels types tlabels (bs : list (@batch A)) :
  let nd := match ndim with Some n => n | None => match dim with None => 1 | Some _ => 2 end end in
  labels = [] \/ dim = Some (length labels) ->
  (forall k d n ls, In (k, (d, n)) types -> dget tlabels k = Some ls -> d = Some (length ls)) ->
  NoDup (map fst types) -> ~ In "inputs" (map fst types) ->
  Forall batch_python bs -> Forall keys_distinct bs -> Forall (batch_valid dim nd) bs -> same_sparseness dim nd bs ->
  Forall (fun b => ~ In "inputs" (batch_keys b) /\ incl (batch_keys b) (map fst types ++ first_keys bs)) bs ->
  exists f, write_file zero of_size dim ndim labels types tlabels bs = Ok f.
Proof.
  intros nd HL Hl Nd Hin PB KD BV HS HK. destruct (new_writer_ok (A := A) dim ndim labels types tlabels HL Hin Hl) as (w&Hw).
  destruct (new_writer_fresh of_size dim ndim labels types tlabels w Nd Hw) as (I&He&Hd&Hn).
  pose proof (new_writer_inputs dim ndim labels types tlabels w Hw) as Hf.
  destruct (same_sparseness_kind dim nd bs HS) as (kind&Hkind).
  destruct (insert_batches_ok zero of_size kind bs w _ [] I He PB KD) as (w'&Hw').
  - rewrite Hd, Hn. exact BV.
  - eapply Forall_impl; [|exact HK]. now intros b [? _].
  - congruence.
  - intros _. eapply Forall_impl; [|exact HK]. now intros b [_ ?].
  - rewrite Hd, Hn. exact Hkind.
  - unfold kind_fits. rewrite Hf. exact Logic.I.
  - exists (w_file w'). unfold write_file. rewrite Hw. cbn [bind]. rewrite Hw'. reflexivity.
Qed.
Print Assumptions C49_accepts.

(** [close] with a temporary file: whenever the process dies, the destination is as before or complete, and there is a
    complete copy. After [close] the file is complete and no other file is left. *)
Theorem C49_close_crash_safe {C} (content : list C) old leftover done todo :
  let d := {| d_dest := old; d_copying := leftover; d_tmp := Some content |} in
  close_ops (length content) = done ++ todo ->
  let now := run_ops d done in
  (d_dest now = old \/ d_dest now = Some content) /\ (d_tmp now = Some content \/ d_dest now = Some content)
  /\ (todo = [] -> now = {| d_dest := Some content; d_copying := None; d_tmp := None |}).
Proof.
  intros d H now. unfold now, run_ops. clear now.
  assert (Hcopy : forall ns (d : disk C), d_dest d = old -> d_tmp d = Some content ->
    d_dest (fold_left run_op (map FCopyPart ns) d) = old /\ d_tmp (fold_left run_op (map FCopyPart ns) d) = Some content).
  { clear. induction ns as [|n ns IH]; intros d H1 H2; [now split|]. cbn. apply IH; assumption. }
  assert (Hfull : fold_left run_op (map FCopyPart (seq 0 (S (length content)))) d
      = {| d_dest := old; d_copying := Some content; d_tmp := Some content |}).
  { rewrite seq_S, map_app, fold_left_app. destruct (Hcopy (seq 0 (length content)) d eq_refl eq_refl) as [E1 E2].
    cbn [map fold_left run_op]. rewrite E1, E2. cbn [option_map Nat.add]. now rewrite firstn_all. }
  unfold close_ops in H. set (ns := seq 0 (S (length content))) in *.
  destruct (Nat.le_gt_cases (length done) (length ns)) as [Hle|Hgt].
  - assert (Ed : done = map FCopyPart (firstn (length done) ns)).
    { rewrite <- firstn_map. apply (f_equal (firstn (length done))) in H. rewrite firstn_app, firstn_app, Nat.sub_diag, firstn_all in H.
      rewrite map_length in H. replace (length done - length ns) with 0 in H by lia. cbn [firstn] in H. now rewrite !app_nil_r in H. }
    rewrite Ed. destruct (Hcopy (firstn (length done) ns) d eq_refl eq_refl) as [E1 E2]. rewrite E1, E2. split; [now left|]. split; [now left|].
    intros ->. apply (f_equal (@length _)) in H. rewrite !app_length, map_length in H. cbn [List.length] in H. lia.
  - assert (Ed : exists rest, done = map FCopyPart ns ++ rest /\ [FRename; FRemoveTmp] = rest ++ todo).
    { exists (skipn (length ns) done). split.
      - rewrite <- (firstn_skipn (length ns) done) at 1. f_equal. apply (f_equal (firstn (length ns))) in H. rewrite !firstn_app, map_length, Nat.sub_diag in H.
        replace (length ns - length done) with 0 in H by lia. cbn [firstn] in H. rewrite !app_nil_r in H. rewrite <- H, <- (map_length FCopyPart ns). apply firstn_all.
      - apply (f_equal (skipn (length ns))) in H. rewrite !skipn_app, map_length, Nat.sub_diag in H. replace (length ns - length done) with 0 in H by lia.
        rewrite <- (map_length FCopyPart ns) in H at 1. rewrite skipn_all in H. exact H. }
    destruct Ed as (rest&->&Er). rewrite fold_left_app, Hfull. destruct rest as [|o1 [|o2 [|o3 rest]]].
    + cbn in *. subst todo. split; [now left|]. split; [now left|discriminate].
    + injection Er as <- <-. cbn. split; [now right|]. split; [now right|discriminate].
    + injection Er as <- <- <-. cbn. split; [now right|]. split; [now right|reflexivity].
    + discriminate.
Qed.
Print Assumptions C49_close_crash_safe.

(** A user key "sizes" next to several dynamic axes is not refused, but then the sequences are mixed up. *)
Definition nat_row (base n : nat) : @nd nat := Axis (map (fun t => Frame (base + t)) (seq 0 n)).
Definition nat_batch (base : nat) (lens : list nat) (time dim : nat) (tags : list string) extra : @batch nat :=
  {| b_shape := [length lens; time; dim]; b_inputs := map (fun i => nat_row (base + 100 * i) time) (seq 0 (length lens));
     b_lens := [(0, lens)]; b_tags := tags; b_extra := extra |}.

Definition read_all {A} (f : @hfile A) (keys : list string) : res (list (string * list (list A) * @dict string nat)) :=
  let* r := open_files [f] in
  let* r := init_seq_order r (ByEpoch (seq 0 (r_num_seqs r))) in
  mapM (fun i => let* t := get_tag r i in let* d := mapM (fun k => get_data r i k) keys in let* n := get_seq_length r i in Ok (t, d, n))
       (seq 0 (num_seqs r)).

Lemma read_all_bad {A} (f : @hfile A) inp keys seqs r i s x k l : open_files [f] = Ok r -> is_dataset r inp keys seqs ->
  read_all f [k] = Ok x -> nth_error x i = Some l -> nth_error seqs i = Some s -> In k keys -> snd (fst l) = [target s k].
Proof.
  intros Hr HD Hx Hl Hs Hk. unfold read_all in Hx. rewrite Hr in Hx. cbn [bind] in Hx. destruct HD as (En&_&_&Ho&_).
  destruct (Ho (ByEpoch (seq 0 (r_num_seqs r))) _ (or_introl eq_refl)) as (r'&E'&_&Hsh). rewrite E' in Hx. cbn [bind] in Hx.
  apply mapM_Ok_Forall2 in Hx. assert (Hi : i < length seqs) by (apply nth_error_Some; congruence).
  destruct (Hsh i i s) as (Htag&_&Hd&d&Hlen&_); [rewrite nth_error_seq by lia; reflexivity|exact Hs|].
  assert (Hii : nth_error (seq 0 (num_seqs r')) i = Some i).
  { assert (Hb : i < length x) by (apply nth_error_Some; congruence). rewrite <- (Forall2_len _ _ _ Hx), seq_length in Hb. rewrite nth_error_seq by lia. reflexivity. }
  pose proof (Forall2_nth _ _ _ i i l Hx Hii Hl) as H. cbn beta in H. rewrite Htag in H. cbn [bind mapM] in H. rewrite (Hd k Hk) in H. cbn [bind] in H.
  rewrite Hlen in H. cbn [bind] in H. apply Ok_inj in H. subst l. reflexivity.
Qed.

Theorem C49_sizes_key_refuted :
  ~ (forall (bs : list (@batch nat)) f,
       write_file 0 (fun n => n) None (Some 2) [] [] [] bs = Ok f -> Forall batch_python bs ->
       all_seqs (fun n => n) bs <> [] -> Forall (fun s => no_nul (q_tag s)) (all_seqs (fun n => n) bs) ->
       (forall b, In b bs -> ~ In "data" (batch_keys b)) ->
       exists r keys, open_files [f] = Ok r /\ (forall k, In k keys <-> written_keys [] bs k)
         /\ exists seqs, map q_tag seqs = map q_tag (all_seqs (fun n => n) bs) /\ map q_data seqs = map q_data (all_seqs (fun n => n) bs)
         (* the key shows the user's or the writer's own data *)
         /\ (map (fun s => target s "sizes") seqs = map (fun s => target s "sizes") (all_seqs (fun n => n) bs)
             \/ forall b, In b bs -> forall e, In e (b_extra b) -> fst e = "sizes" -> map (fun s => target s "sizes") seqs = snd (snd e))
         /\ is_dataset r true keys seqs).
Proof.
  intros H.
  set (b := {| b_shape := [2; 2; 2]; b_inputs := [Axis [nat_row 0 2; nat_row 10 2]; Axis [nat_row 20 2; nat_row 30 2]];
               b_lens := [(0, [1; 2]); (1, [2; 1])]; b_tags := ["a"; "b"]; b_extra := [("sizes", (1, 1, [[7]; [8; 9]]))] |} : @batch nat).
  assert (E : exists f, write_file 0 (fun n => n) None (Some 2) [] [] [] [b] = Ok f
    /\ read_all f ["sizes"] = Ok [("a", [[1]], [("data", 2); ("sizes", 1)]); ("b", [[2; 7]], [("data", 2); ("sizes", 2)])]).
  { eexists. split; vm_compute; reflexivity. }
  destruct E as (f&Ef&Er). destruct (H [b] f Ef) as (r&keys&Ho&HK&seqs&Ht&_&Hsz&HD).
  - constructor; [|constructor]. split; [|split].
    + cbn. repeat constructor.
    + cbn. unfold dict_ok. cbn. repeat constructor; cbn; intuition discriminate.
    + repeat constructor; cbn; intuition.
  - discriminate.
  - cbn. repeat constructor; intro; discriminate.
  - intros b' [<-|[]]. cbn. intuition discriminate.
  - assert (Hk : In "sizes" keys) by (apply HK; right; exists b; cbn; intuition discriminate).
    assert (El : length seqs = 2) by (rewrite <- (map_length q_tag), Ht; reflexivity).
    destruct seqs as [|s1 [|s2 [|s3 seqs]]]; try discriminate El.
    pose proof (read_all_bad f true keys _ r 0 s1 _ "sizes" _ Ho HD Er eq_refl eq_refl Hk) as E1.
    pose proof (read_all_bad f true keys _ r 1 s2 _ "sizes" _ Ho HD Er eq_refl eq_refl Hk) as E2. cbn in E1, E2. injection E1 as E1. injection E2 as E2.
    destruct Hsz as [Hsz|Hsz].
    + cbn in Hsz. injection Hsz as Hs1 _. congruence.
    + specialize (Hsz b (or_introl eq_refl) _ (or_introl eq_refl) eq_refl). cbn in Hsz. injection Hsz as Hs1 _. congruence.
Qed.
Print Assumptions C49_sizes_key_refuted.

(** The writer takes a key "data", but the file cannot be opened. *)
Theorem C49_data_key_refuted :
  ~ (forall dim ndim labels types tlabels (bs : list (@batch nat)) f,
       write_file 0 (fun n => n) dim ndim labels types tlabels bs = Ok f ->
       NoDup (map fst types) -> Forall batch_python bs -> Forall keys_distinct bs ->
       all_seqs (fun n => n) bs <> [] -> Forall (fun s => no_nul (q_tag s)) (all_seqs (fun n => n) bs) ->
       exists r, open_files [f] = Ok r).
Proof.
  intros H. set (b := nat_batch 0 [1; 2] 2 2 ["a"; "b"] [("data", (1, 1, [[5]; [6]]))]).
  assert (E : exists f, write_file 0 (fun n => n) (Some 2) None [] [] [] [b] = Ok f /\ open_files [f] = Err AssertionError).
  { eexists. split; vm_compute; reflexivity. }
  destruct E as (f&Ef&Eo). destruct (H _ _ _ _ _ _ _ Ef) as (r&Hr); try congruence.
  - constructor.
  - constructor; [|constructor]. split; [|split]; cbn; unfold dict_ok; cbn; repeat constructor; cbn; intuition.
  - repeat constructor; cbn; intuition.
  - discriminate.
  - cbn. repeat constructor; intro; discriminate.
Qed.
Print Assumptions C49_data_key_refuted.

(** A non-trivial case: the batches of the unit test (tests/test_HDFDataset.py lines 232-265). *)
Definition test_batches : list (@batch nat) :=
  [nat_batch 0 [11; 7; 5] 11 13 ["seq-0"; "seq-1"; "seq-2"] [];
   nat_batch 1000 [10; 13; 3; 2] 13 13 ["seq-3"; "seq-4"; "seq-5"; "seq-6"] []].
Example C49_example :
  exists f, write_file 0 (fun n => n) (Some 13) None [] [] [] test_batches = Ok f
    /\ match open_files [f] with Ok r => data_keys r = ["data"] | Err _ => False end
    /\ match read_all f ["data"] with
       | Ok l => map (fun x => fst (fst x)) l = ["seq-0"; "seq-1"; "seq-2"; "seq-3"; "seq-4"; "seq-5"; "seq-6"]
                 /\ map (fun x => dget (snd x) "data") l = map Some [11; 7; 5; 10; 13; 3; 2]
       | Err _ => False
       end.
Proof. eexists. split; [vm_compute; reflexivity|]. split; vm_compute; [reflexivity|split; reflexivity]. Qed.
Example C49_example_hyps : Forall batch_python test_batches /\ Forall keys_distinct test_batches
  /\ Forall (batch_valid (Some 13) 2) test_batches /\ same_sparseness (Some 13) 2 test_batches
  /\ all_seqs (fun n => n) test_batches <> [] /\ Forall (fun s => no_nul (q_tag s)) (all_seqs (fun n => n) test_batches).
Proof.
  repeat split; try discriminate.
  - repeat constructor; cbn; intuition.
  - repeat constructor.
  - constructor; [|constructor; [|constructor]].
    + exists [11; 13]. cbn. repeat split; try lia; try tauto; repeat (apply Forall_cons || apply Forall_nil); cbn; repeat split; try tauto; repeat (apply Forall_cons || apply Forall_nil); try lia; try (left; reflexivity); now constructor.
    + exists [13; 13]. cbn. repeat split; try lia; try tauto; repeat (apply Forall_cons || apply Forall_nil); cbn; repeat split; try tauto; repeat (apply Forall_cons || apply Forall_nil); try lia; try (left; reflexivity); now constructor.
  - right. repeat constructor; cbn; discriminate.
  - cbn. repeat constructor; intro; discriminate.
Qed.
(** tests/test_HDFDataset.py lines 409-453, two dynamic axes *)
Example C49_example_2d :
  exists f, write_file 0 (fun n => n) None (Some 2) [] [] []
      [{| b_shape := [2; 3; 2]; b_inputs := [Axis [nat_row 0 2; nat_row 10 2; nat_row 20 2]; Axis [nat_row 30 2; nat_row 40 2; nat_row 50 2]];
          b_lens := [(0, [3; 1]); (1, [1; 2])]; b_tags := ["seq-0"; "seq-1"]; b_extra := [] |}] = Ok f
    /\ read_all f ["data"; "sizes"] = Ok [("seq-0", [[0; 10; 20]; [3; 1]], [("data", 3); ("sizes", 2)]);
                                          ("seq-1", [[30; 31]; [1; 2]], [("data", 2); ("sizes", 2)])].
Proof. eexists. split; vm_compute; reflexivity. Qed.

(** The file says of every declared key its dim and number of axes; an unknown dim counts as 1. *)
Theorem C49_declared_sizes {A} (zero : A) of_size dim ndim labels types tlabels bs f :
  write_file zero of_size dim ndim labels types tlabels bs = Ok f -> NoDup (map fst types) ->
  forall k d n, In (k, (d, n)) types ->
  dget (f_sizes f) k = Some (match d with Some d' => Nat.max 1 d' | None => 1 end, Nat.max 1 n).
Proof.
  intros H Nd k d n Hk. rewrite (write_file_sizes _ _ _ _ _ _ _ _ _ H Nd k d n Hk).
  destruct d as [[|d]|], n; cbn [or_one Nat.eqb]; reflexivity.
Qed.
Print Assumptions C49_declared_sizes.

(** * C50: several files are one data set *)

(** What the data set reports about the size of a key is what every single file says: files that disagree are refused. *)
Theorem C50_sizes_agree {A} (fs : list (@hfile A)) r f k v : open_files fs = Ok r -> Forall (fun f => f_inputs f <> None) fs ->
  In f fs -> dget (r_outputs r) k = Some v -> file_declares f k v.
Proof. intros H HF Hf Hk. exact (proj2 (add_files_declares _ _ _ H HF) f k v Hf Hk). Qed.
Print Assumptions C50_sizes_agree.

Theorem C50_concatenation {A} (zero : A) of_size f keys seqs fs seqss r :
  usable zero of_size f keys seqs -> Forall2 (fun f' seqs' => exists keys', usable zero of_size f' keys' seqs') fs seqss ->
  open_files (f :: fs) = Ok r ->
  exists ks, (forall k, In k ks <-> keys k) /\ is_dataset r true ks (seqs ++ concat seqss).
Proof. apply open_many. Qed.
Print Assumptions C50_concatenation.

(** Files are accepted if each of them is, and they have the same data keys and dimensions. *)
Theorem C50_accepts {A} (zero : A) of_size fs keyss seqss outputs : fs <> [] ->
  Forall2 (fun f ks => usable zero of_size f (fst ks) (snd ks)) fs (combine keyss seqss) ->
  Forall (fun f => exists r, open_files [f] = Ok r /\ forall k, dget (r_outputs r) k = dget outputs k) fs ->
  exists r, open_files fs = Ok r.
Proof. apply open_many_ok. Qed.
Print Assumptions C50_accepts.

Definition nat_source (known : bool) keys targets seqs : @source nat :=
  {| s_keys := keys; s_targets := targets; s_outputs := map (fun k => (k, (5, 1))) keys; s_labels := []; s_known := known; s_seqs := seqs |}.

Lemma is_dataset_keys {A} (r : @reader A) inp keys keys' seqs : (forall k, In k keys <-> In k keys') -> is_dataset r inp keys seqs -> is_dataset r inp keys' seqs.
Proof.
  intros Hk (D1&D2&D3&D4&D5&D6).
  assert (Hsh : forall (r : @reader A) i s, shows r i inp keys s -> shows r i inp keys' s).
  { intros r0 i s (G1&G2&G3&d&G4&G5&G6). split; [exact G1|]. split; [exact G2|]. split; [intros k H; apply G3, Hk, H|].
    exists d. split; [exact G4|]. split; [exact G5|]. intros k H. apply G6, Hk, H. }
  split; [exact D1|]. split; [exact D2|]. split; [intros k; rewrite D3, Hk; reflexivity|]. split; [|split; [|exact D6]].
  - intros o l Ho. destruct (D4 o l Ho) as (r0&G1&G2&G3). exists r0. split; [exact G1|]. split; [exact G2|]. intros i j s Hi Hj. apply Hsh. now apply (G3 i j).
  - intros tags Ht. destruct (D5 tags Ht) as (r0&G1&G2&G3). exists r0. split; [exact G1|]. split; [exact G2|]. intros i t Hi.
    destruct (G3 i t Hi) as (s&be&af&K1&K2&K3&K4). exists s, be, af. repeat (split; [assumption|]). now apply Hsh.
Qed.

(** Files without input data, where a later file has more keys: accepted, but the lengths are those of other keys. *)
Theorem C50_target_only_refuted :
  ~ (forall (s1 s2 : @source nat) f1 f2 r1 r2 r keys l1 l2,
       dump_from_dataset s1 0 None = Ok f1 -> dump_from_dataset s2 0 None = Ok f2 ->
       open_files [f1] = Ok r1 -> open_files [f2] = Ok r2 -> is_dataset r1 false keys l1 -> is_dataset r2 false (s_keys s2) l2 ->
       incl keys (s_keys s2) -> open_files [f1; f2] = Ok r ->
       forall k, In k keys -> forall i s, nth_error l2 i = Some s ->
       exists r', init_seq_order r (ByEpoch (seq 0 (length l1 + length l2))) = Ok r' /\ get_data r' (length l1 + i) k = Ok (target s k)).
Proof.
  intros H.
  set (s1 := nat_source true ["b"] ["b"] [("s", [("b", [1; 2])])]).
  set (s2 := nat_source true ["a"; "b"; "c"] ["a"; "b"; "c"] [("t", [("a", [1]); ("b", [2; 3]); ("c", [4; 5; 6])])]).
  assert (E : exists f1 f2 r1 r2 r r', dump_from_dataset s1 0 None = Ok f1 /\ dump_from_dataset s2 0 None = Ok f2
    /\ open_files [f1] = Ok r1 /\ open_files [f2] = Ok r2 /\ open_files [f1; f2] = Ok r /\ init_seq_order r (ByEpoch [0; 1]) = Ok r' /\ get_data r' 1 "b" = Ok [2]).
  { eexists _, _, _, _, _, _. do 6 (split; [vm_compute; reflexivity|]). vm_compute. reflexivity. }
  destruct E as (f1&f2&r1&r2&r&r'&E1&E2&E3&E4&E5&E6&E7).
  assert (Hout : forall (s : @source nat) k v, s = s1 \/ s = s2 -> dget (s_outputs s) k = Some v -> 0 < fst v).
  { intros s k v Hs Hv. assert (X : forall d : @dict string (nat * nat), Forall (fun kv => 0 < fst (snd kv)) d -> dget d k = Some v -> 0 < fst v).
    { intros d Hd HH. apply dget_In in HH. rewrite Forall_forall in Hd. apply (Hd _ HH). }
    apply (X (s_outputs s)); [|exact Hv]. destruct Hs as [-> | ->]; cbn; repeat constructor. }
  assert (N1 : NoDup (s_keys s1)) by (cbn; repeat constructor; cbn; intuition discriminate).
  assert (N2 : NoDup (s_keys s2)) by (cbn; repeat constructor; cbn; intuition discriminate).
  destruct (dump_opens s1 0 None f1 N1 N1 E1 (fun k v => Hout s1 k v (or_introl eq_refl))) as (i1&r1'&ks1&ys1&Eo1&Hi1&HK1&HF1&HD1).
  { cbn. repeat constructor; intro; discriminate. }
  { intros i [[H1 _] _]. cbn in H1. intuition discriminate. }
  destruct (dump_opens s2 0 None f2 N2 N2 E2 (fun k v => Hout s2 k v (or_intror eq_refl))) as (i2&r2'&ks2&ys2&Eo2&Hi2&HK2&HF2&HD2).
  { cbn. repeat constructor; intro; discriminate. }
  { intros i [[H1 _] _]. cbn in H1. intuition discriminate. }
  rewrite E3 in Eo1. apply Ok_inj in Eo1. subst r1'. rewrite E4 in Eo2. apply Ok_inj in Eo2. subst r2'.
  destruct i1 as [i1|]; [destruct Hi1 as ((Hx&_)&Hn&_); elim Hn; exact Hx|]. destruct i2 as [i2|]; [destruct Hi2 as ((Hx&_)&Hn&_); elim Hn; exact Hx|].
  assert (Hkept2 : forall k, In k (s_keys s2) -> In k ks2).
  { intros k Hk. apply HK2. exists k. split; [split; [|discriminate]; split; [exact Hk|]; cbn in Hk; intuition (subst; discriminate)|].
    unfold file_name. cbn in Hk. intuition (subst; reflexivity). }
  assert (Hb1 : In "b" ks1) by (apply HK1; exists "b"; split; [split; [split; [now left|split; discriminate]|discriminate]|reflexivity]).
  assert (Hks2 : forall k, In k ks2 <-> In k (s_keys s2)).
  { intros k. split; [|apply Hkept2]. intros Hk. apply HK2 in Hk. destruct Hk as (k'&((Hk'&_)&_)&->). cbn in Hk'. cbn. unfold file_name. intuition (subst; auto). }
  inversion HF1 as [|? y1 ? ? C1 F1]; subst. inversion F1; subst. inversion HF2 as [|? y2 ? ? C2 F2]; subst. inversion F2; subst.
  assert (HD2' : is_dataset r2 false (s_keys s2) [y2]).
  { now apply is_dataset_keys with ks2. }
  destruct (H s1 s2 f1 f2 r1 r2 r ks1 [y1] [y2] E1 E2 E3 E4 HD1 HD2') with (k := "b") (i := 0) (s := y2) as (r''&G1&G2).
  - intros k Hk. apply HK1 in Hk. destruct Hk as (k'&((Hk'&_)&_)&->). cbn in Hk'. destruct Hk' as [<-|[]]. right. now left.
  - exact E5.
  - exact Hb1.
  - reflexivity.
  - cbn [length seq Nat.add] in G1. rewrite E6 in G1. apply Ok_inj in G1. subst r''. cbn [length Nat.add] in G2. rewrite E7 in G2.
    destruct C2 as (_&_&C2). specialize (C2 "b"). cbn in C2. assert (X : Some [2; 3] = Some (target y2 "b")).
    { apply C2. split; [|discriminate]. split; [right; now left|split; discriminate]. }
    apply Ok_inj in G2. injection X as X. congruence.
Qed.
Print Assumptions C50_target_only_refuted.

(** After a lookup by tag, the tags of files that are added later are not found. *)
Theorem C50_add_file_after_lookup_refuted :
  ~ (forall (f1 f2 : @hfile nat) r1 r1' r2 tags t,
       open_files [f1] = Ok r1 -> init_seq_order r1 (BySeqList tags) = Ok r1' -> add_file r1' f2 = Ok r2 ->
       In t (get_all_tags r2) -> exists r, init_seq_order r2 (BySeqList [t]) = Ok r).
Proof.
  intros H.
  assert (E : exists f1 f2 r1 r1' r2, write_file 0 (fun n => n) (Some 2) None [] [] [] [nat_batch 0 [2] 2 2 ["a"] []] = Ok f1
    /\ write_file 0 (fun n => n) (Some 2) None [] [] [] [nat_batch 0 [2] 2 2 ["b"] []] = Ok f2
    /\ open_files [f1] = Ok r1 /\ init_seq_order r1 (BySeqList ["a"]) = Ok r1' /\ add_file r1' f2 = Ok r2
    /\ get_all_tags r2 = ["a"; "b"] /\ init_seq_order r2 (BySeqList ["b"]) = Err KeyError).
  { eexists _, _, _, _, _. do 6 (split; [vm_compute; reflexivity|]). vm_compute. reflexivity. }
  destruct E as (f1&f2&r1&r1'&r2&_&_&E1&E2&E3&E4&E5). destruct (H _ _ _ _ _ _ "b" E1 E2 E3) as (r&Hr); [rewrite E4; right; now left|congruence].
Qed.
Print Assumptions C50_add_file_after_lookup_refuted.

Example C50_example :
  exists f1 f2 r r', write_file 0 (fun n => n) (Some 2) None [] [] [] [nat_batch 0 [2; 1] 2 2 ["a"; "b"] [("x", (1, 1, [[]; [7]]))]] = Ok f1
    /\ write_file 0 (fun n => n) (Some 2) None [] [] [] [nat_batch 500 [1; 3] 3 2 ["c"; "d"] [("x", (1, 1, [[8]; [9]]))]] = Ok f2
    /\ open_files [f1; f2] = Ok r /\ init_seq_order r (BySeqList ["d"; "b"]) = Ok r'
    /\ get_data r' 0 "data" = Ok [600; 601; 602] /\ get_data r' 0 "x" = Ok [9] /\ get_data r' 1 "data" = Ok [100] /\ get_data r' 1 "x" = Ok [7].
Proof. eexists _, _, _, _. do 7 (split; [vm_compute; reflexivity|]). vm_compute. reflexivity. Qed.

(** * C51: [extend_existing_file] *)

(** The old and the new sequences can be read, after any number of extensions. *)
Theorem C51_extended {A} (zero : A) of_size f keys seqs dim ndim labels types tlabels bs f' :
  produced zero of_size f keys seqs -> extend_file zero of_size f dim ndim labels types tlabels bs = Ok f' ->
  NoDup (map fst types) -> Forall batch_python bs -> Forall keys_distinct bs ->
  (* all the extra keys are declared, or there is at most one *)
  (forall k, In k (map fst types) <-> keys k) \/ (types = [] /\ forall k k', keys k -> keys k' -> k = k') ->
  let all := seqs ++ all_seqs of_size bs in
  all <> [] -> Forall (fun s => no_nul (q_tag s)) all -> ~ keys "data" ->
  exists r ks, open_files [f'] = Ok r /\ (forall k, In k ks <-> keys k) /\ is_dataset r true ks all.
Proof.
  intros HP H Nd PB KD HK all Hne Ht Hd. apply (open_one zero of_size f'); auto.
  now apply (produced_extended zero of_size f keys seqs dim ndim labels types tlabels bs f').
Qed.
Print Assumptions C51_extended.

(** With two extra keys that are not declared, the new sequences are mixed up. *)
Theorem C51_undeclared_refuted :
  ~ (forall (bs bs' : list (@batch nat)) f f' keys,
       write_file 0 (fun n => n) (Some 2) None [] [] [] bs = Ok f -> extend_file 0 (fun n => n) f (Some 2) None [] [] [] bs' = Ok f' ->
       Forall batch_python (bs ++ bs') -> Forall keys_distinct (bs ++ bs') ->
       (forall b, In b (bs ++ bs') -> batch_keys b = keys) -> ~ In "data" keys ->
       let all := all_seqs (fun n => n) (bs ++ bs') in
       all <> [] -> Forall (fun s => no_nul (q_tag s)) all ->
       exists r, open_files [f'] = Ok r /\ is_dataset r true keys all).
Proof.
  intros H. set (b := nat_batch 0 [1; 2] 2 2 ["a"; "b"] [("x", (1, 1, [[5]; [6; 7]])); ("y", (1, 1, [[15; 16; 17]; [18]]))]).
  set (b' := nat_batch 0 [1; 2] 2 2 ["c"; "d"] [("x", (1, 1, [[25]; [26; 27]])); ("y", (1, 1, [[35; 36; 37]; [38]]))]).
  assert (E : exists f f' x, write_file 0 (fun n => n) (Some 2) None [] [] [] [b] = Ok f /\ extend_file 0 (fun n => n) f (Some 2) None [] [] [] [b'] = Ok f'
    /\ read_all f' ["x"] = Ok x /\ nth_error x 2 = Some ("c", [[25; 26; 27]], [("data", 1); ("x", 4); ("y", 3)])).
  { eexists _, _, _. do 3 (split; [vm_compute; reflexivity|]). vm_compute. reflexivity. }
  destruct E as (f&f'&x&E1&E2&E3&E4). destruct (H [b] [b'] f f' ["x"; "y"] E1 E2) as (r&Hr&HD).
  - constructor; [|constructor; [|constructor]]; (split; [|split]); cbn; unfold dict_ok; cbn; repeat constructor; cbn; intuition discriminate.
  - repeat constructor; cbn; intuition discriminate.
  - intros b0 [<-|[<-|[]]]; reflexivity.
  - cbn. intuition discriminate.
  - discriminate.
  - cbn. repeat constructor; intro; discriminate.
  - pose proof (read_all_bad f' true _ _ r 2 _ x "x" _ Hr HD E3 E4 eq_refl (or_introl eq_refl)) as X. cbn in X. discriminate.
Qed.
Print Assumptions C51_undeclared_refuted.

(** Extending a file replaces the labels of the target. *)
Theorem C51_labels_refuted :
  ~ (forall (f f' : @hfile nat) dim ndim bs r r' k,
       extend_file 0 (fun n => n) f dim ndim [] [] [] bs = Ok f' -> open_files [f] = Ok r -> open_files [f'] = Ok r' ->
       dget (r_labels r') k = dget (r_labels r) k).
Proof.
  intros H.
  assert (E : exists f f' r r', write_file 0 (fun n => n) (Some 2) None [] [("x", (Some 2, 1))] [("x", ["u"; "v"])] [nat_batch 0 [1; 2] 2 2 ["a"; "b"] [("x", (2, 1, [[0]; [1; 1]]))]] = Ok f
    /\ extend_file 0 (fun n => n) f (Some 2) None [] [] [] [nat_batch 0 [1; 2] 2 2 ["c"; "d"] [("x", (2, 1, [[0]; [1; 1]]))]] = Ok f'
    /\ open_files [f] = Ok r /\ open_files [f'] = Ok r' /\ dget (r_labels r) "x" = Some ["u"; "v"] /\ dget (r_labels r') "x" = Some ["dummy-label"]).
  { eexists _, _, _, _. do 5 (split; [vm_compute; reflexivity|]). vm_compute. reflexivity. }
  destruct E as (f&f'&r&r'&_&E2&E3&E4&E5&E6). specialize (H f f' _ _ _ r r' "x" E2 E3 E4). congruence.
Qed.
Print Assumptions C51_labels_refuted.

(** tests/test_HDFDataset.py lines 456-491, with an extra key *)
Example C51_example :
  exists f f', write_file 0 (fun n => n) (Some 3) None [] [("x", (Some 1, 1)); ("y", (Some 1, 1))] []
      [nat_batch 0 [2; 3] 3 3 ["seq-0"; "seq-1"] [("x", (1, 1, [[1]; []])); ("y", (1, 1, [[2]; [3; 4]]))]] = Ok f
    /\ extend_file 0 (fun n => n) f (Some 3) None [] [("y", (Some 1, 1)); ("x", (Some 1, 1))] []
      [nat_batch 500 [4; 3; 2] 4 3 ["seq-2"; "seq-3"; "seq-4"] [("x", (1, 1, [[5]; [6]; [7; 8]])); ("y", (1, 1, [[]; [9]; [10]]))]] = Ok f'
    /\ read_all f' ["data"; "x"; "y"] = Ok [("seq-0", [[0; 1]; [1]; [2]], [("data", 2); ("x", 1); ("y", 1)]);
         ("seq-1", [[100; 101; 102]; []; [3; 4]], [("data", 3); ("x", 0); ("y", 2)]);
         ("seq-2", [[500; 501; 502; 503]; [5]; []], [("data", 4); ("x", 1); ("y", 0)]);
         ("seq-3", [[600; 601; 602]; [6]; [9]], [("data", 3); ("x", 1); ("y", 1)]);
         ("seq-4", [[700; 701]; [7; 8]; [10]], [("data", 2); ("x", 2); ("y", 1)])].
Proof. eexists _, _. do 2 (split; [vm_compute; reflexivity|]). vm_compute. reflexivity. Qed.

(** * C52: [HDFDatasetWriter] *)

Theorem C52_copy {A} (s : @source A) start_seq end_seq f : NoDup (s_keys s) -> NoDup (s_targets s) ->
  dump_from_dataset s start_seq end_seq = Ok f ->
  (forall k v, dget (s_outputs s) k = Some v -> 0 < fst v) ->
  Forall (fun x => no_nul (fst x)) (selected s start_seq end_seq) ->
  (* if "data" is a target, then no target is between "classes" and "data" *)
  (forall input, copy_target s input "data" -> forall k, copy_target s input k -> ~ (String.ltb "classes" k = true /\ String.ltb k "data" = true)) ->
  exists input r keys ys, open_files [f] = Ok r
    /\ match input with Some i => is_input_key s i | None => forall k, kept s k -> In k (s_targets s) end
    /\ (forall n, In n keys <-> exists k, copy_target s input k /\ n = file_name k)
    /\ Forall2 (fun x y => copied s x input y) (selected s start_seq end_seq) ys
    /\ is_dataset r (match input with Some _ => true | None => false end) keys ys.
Proof. apply dump_opens. Qed.
Print Assumptions C52_copy.

Theorem C52_accepts {A} (s : @source A) input start_seq end_seq : NoDup (s_keys s) -> NoDup (s_targets s) ->
  match input with Some i => is_input_key s i | None => (forall k, kept s k -> In k (s_targets s)) /\ exists k, kept s k end ->
  (copy_target s input "data" -> ~ copy_target s input "classes") ->
  start_seq < length (s_seqs s) -> match end_seq with Some e => start_seq < e | None => True end ->
  Forall (fun x => forall k, kept s k -> dget (snd x) k <> None) (s_seqs s) ->
  exists f, dump_from_dataset s start_seq end_seq = Ok f.
Proof. apply dump_ok. Qed.
Print Assumptions C52_accepts.

(** If "data" is a target next to a target like "context", then the lengths are swapped. *)
Theorem C52_between_refuted :
  ~ (forall (s : @source nat) f, NoDup (s_keys s) -> NoDup (s_targets s) ->
       dump_from_dataset s 0 None = Ok f -> (forall k v, dget (s_outputs s) k = Some v -> 0 < fst v) ->
       Forall (fun x => no_nul (fst x)) (s_seqs s) ->
       exists input r keys ys, open_files [f] = Ok r
         /\ match input with Some i => is_input_key s i | None => forall k, kept s k -> In k (s_targets s) end
         /\ (forall n, In n keys <-> exists k, copy_target s input k /\ n = file_name k)
         /\ Forall2 (fun x y => copied s x input y) (s_seqs s) ys
         /\ is_dataset r (match input with Some _ => true | None => false end) keys ys).
Proof.
  intros H. set (s := nat_source true ["feat"; "data"; "context"] ["data"; "context"]
    [("a", [("feat", [9]); ("data", [1; 2]); ("context", [3])]); ("b", [("feat", [8; 8]); ("data", [4]); ("context", [5; 6; 7])])]).
  assert (E : exists f x, dump_from_dataset s 0 None = Ok f /\ read_all f ["classes"] = Ok x
    /\ nth_error x 0 = Some ("a", [[1]], [("data", 1); ("classes", 1); ("context", 2)])).
  { eexists _, _. do 2 (split; [vm_compute; reflexivity|]). vm_compute. reflexivity. }
  destruct E as (f&x&E1&E2&E3). destruct (H s f) as (input&r&keys&ys&Hr&Hi&HK&HF&HD).
  - cbn; repeat constructor; cbn; intuition discriminate.
  - cbn; repeat constructor; cbn; intuition discriminate.
  - exact E1.
  - intros k v Hv. apply dget_In in Hv. cbn in Hv. intuition (try congruence); match goal with X : (_, _) = (_, _) |- _ => injection X as <- <- end; cbn; lia.
  - cbn. repeat constructor; intro; discriminate.
  - assert (Hd : copy_target s input "data").
    { split; [split; [right; now left|split; discriminate]|]. intros Ei. subst input. destruct Hi as (_&Hn&_). apply Hn. now left. }
    assert (Hk : In "classes" keys) by (apply HK; exists "data"; split; [exact Hd|reflexivity]).
    inversion HF as [|x1 y1 l1 l2 C1 F1]; subst.
    pose proof (read_all_bad f _ keys _ r 0 y1 x "classes" _ Hr HD E2 E3 eq_refl Hk) as X. cbn in X. injection X as X.
    destruct C1 as (_&_&C1). specialize (C1 "data" Hd). cbn in C1. injection C1 as C1. congruence.
Qed.
Print Assumptions C52_between_refuted.

Definition copy_source := nat_source true ["data"; "classes"; "orth"] ["classes"; "orth"]
  [("a", [("data", [1; 2]); ("classes", [3]); ("orth", [])]); ("b", [("data", [4]); ("classes", [5; 6; 7]); ("orth", [])]);
   ("c", [("data", [8]); ("classes", [9]); ("orth", [])])].
Example C52_example :
  exists f, dump_from_dataset copy_source 1 (Some 2) = Ok f
    /\ read_all f ["data"; "classes"] = Ok [("b", [[4]; [5; 6; 7]], [("data", 1); ("classes", 3)]); ("c", [[8]; [9]], [("data", 1); ("classes", 1)])].
Proof. eexists. split; vm_compute; reflexivity. Qed.
Example C52_example_hyps : NoDup (s_keys copy_source) /\ NoDup (s_targets copy_source) /\ is_input_key copy_source "data"
  /\ ~ copy_target copy_source (Some "data") "data".
Proof.
  split; [|split; [|split]].
  - cbn; repeat constructor; cbn; intuition discriminate.
  - cbn; repeat constructor; cbn; intuition discriminate.
  - split; [split; [now left|split; discriminate]|]. split; [cbn; intuition discriminate|now left].
  - intros [_ H]. now apply H.
Qed.
