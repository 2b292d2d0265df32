(* C97: what was written into a Sprint archive is read back. C98: alignments. C99: bundles of archives. *)
From Coq Require Import List ZArith Lia Bool.
From Verif Require Import Base ListLemmas ArchiveModel ArchiveSpec ArchiveProofs.
Import ListNotations.
Local Open Scope Z_scope.

(* A few entries to try things on: "a/x" with two vectors, "b/y" without any, "a/x" again. *)
Definition ex_attr (dim duration : Z) : bytes := [60; dim; duration mod 256; 62].
Definition ex_entries : list entry :=
  [ {| e_name := [97; 47; 120]; e_features := [[1; 2]; [3; 4294967295]]; e_times := [(5, 6); (6, 7)] |};
    {| e_name := [98; 47; 121]; e_features := []; e_times := [] |};
    {| e_name := [97; 47; 120]; e_features := [[9]]; e_times := [(0, 18446744073709551615)] |} ].

(* C97: a finalized archive can be opened, lists the names in the order of their first occurrence, and gives for each
   name the content which was written last under it. *)
Theorem C97_round_trip attr one es file :
  write_archive attr one es = Ok file ->
  exists a, open_archive file = Ok a /\
    first_occurrences (map fst (files attr one es)) (file_list a) /\
    (forall n, has_entry a n = true <-> In n (map fst (files attr one es))) /\
    forall na n c, latest n c (files attr one es) -> c <> Str [] -> read_entry na a n (type_of c) = Ok (Some c).
Proof.
  intros H. destruct (archive_parts _ _ _ _ H) as (w & a & (I1 & I2 & I3) & Ho & Hf & Ht & _ & r & Er).
  exists a. split; [exact Ho|]. unfold file_list. rewrite Ht. split; [exact I1|]. split.
  - intros n. rewrite lookup_has, Ht. apply (proj1 (proj2 I1)).
  - intros na n c L Hc. destruct (I3 n c L) as (fi & pre & b & post & L1 & L2 & L3 & L4).
    apply (holds_read na a n fi c pre b (post ++ r)); auto.
    + rewrite Ht. exact L1.
    + rewrite Hf, Er, L2, <- !app_assoc. reflexivity.
Qed.
Print Assumptions C97_round_trip.

Example C97_ex : is_ok (write_archive ex_attr 1 ex_entries) = true.
Proof. vm_compute. reflexivity. Qed.

Example C97_ex_read :
  (let* file := write_archive ex_attr 1 ex_entries in
   let* a := open_archive file in
   let* x := read_entry 0 a [97; 47; 120] TFeat in
   let* y := read_entry 0 a [98; 47; 121] TFeat in
   let* z := read_entry 0 a (attribs_name [97; 47; 120]) TStr in
   Ok (file_list a, x, y, z)) =
  Ok ([[97; 47; 120]; attribs_name [97; 47; 120]; [98; 47; 121]; attribs_name [98; 47; 121]],
      Some (Feat [[0; 18446744073709551615]] [[9]]), Some (Feat [] []), Some (Str [60; 1; 255; 62])).
Proof. vm_compute. reflexivity. Qed.

(* Writing works if the numbers of the entry fit: this is what makes the premise of the above true. *)
Theorem C97_size_limit attr one w e w' :
  add_feature_cache attr one w (e_name e) (e_features e) (e_times e) = Ok w' ->
  length (e_features e) = length (e_times e) /\
  18 + Z.of_nat (length (e_features e)) * (20 + 4 * entry_dim e) < 2 ^ 31 /\
  Z.of_nat (length (e_name e)) < 2 ^ 31.
Proof.
  unfold add_feature_cache. cbv zeta. intros H.
  apply bind_Ok in H as (a & Ha & H). apply bind_Ok in H as (b & Hb & H).
  apply bind_Ok in H as ([[dim size] dur] & Hd & H). apply bind_Ok in H as (c & Hc & H).
  apply bind_Ok in H as ([] & Hl & H). apply assert_Ok in Hl. apply Nat.eqb_eq in Hl.
  apply seq_writes_cons in Hc as (x & y & Hx & Hc & ->). apply write_u32_range in Hx. apply write_u32_range in Hb.
  split; [exact Hl|]. split; [|unfold zlen in Hb; lia]. unfold entry_dim.
  destruct (e_features e) as [|f0 fs]; [cbn; lia|].
  destruct (rev (e_times e)); [discriminate|]. apply Ok_inj in Hd.
  apply pair_equal_spec in Hd as [Hd _]. apply pair_equal_spec in Hd as [_ Hd]. subst size. unfold zlen in Hx. lia.
Qed.
Print Assumptions C97_size_limit.

(* An entry can also be read by the last part of its name, if these are unique in the archive; otherwise that is a
   KeyError. *)
Theorem C97_short_names file a na n typ :
  open_archive file = Ok a -> has_entry a n = false ->
  (forall m, unique_basenames (file_list a) -> In m (file_list a) -> basename m = n ->
     read_entry na a n typ = read_entry na a m typ) /\
  (~ unique_basenames (file_list a) \/ (forall m, In m (file_list a) -> basename m <> n) ->
     read_entry na a n typ = Err KeyError).
Proof.
  intros Ho Hn. apply open_short in Ho. unfold file_list. split.
  - intros m Hu Hm Hb. unfold read_entry, resolve. rewrite Hn.
    assert (Hm' : has_entry a m = true) by (apply lookup_has; exact Hm). rewrite Hm', Ho, <- Hb.
    rewrite short_unique by assumption. reflexivity.
  - intros H. unfold read_entry, resolve. rewrite Hn, Ho.
    rewrite short_none.
    + unfold has_entry in Hn. destruct (lookup n (a_ft a)); [discriminate|reflexivity].
    + destruct H as [H|H]; [auto|]. right. intros Hin. apply in_map_iff in Hin as (m & Em & Hm). exact (H m Hm Em).
Qed.
Print Assumptions C97_short_names.

Example C97_ex_short :
  (let* file := write_archive ex_attr 1 ex_entries in
   let* a := open_archive file in read_entry 0 a [121] TFeat) = Ok (Some (Feat [] [])).
Proof. vm_compute. reflexivity. Qed.

(* has_entry is documented as taking the argument for read, but does not know the short names. *)
Theorem C97_has_short_refuted :
  ~ (forall file a na n typ c, open_archive file = Ok a -> read_entry na a n typ = Ok (Some c) -> has_entry a n = true).
Proof.
  intros H.
  destruct (write_archive ex_attr 1 ex_entries) as [file|] eqn:E; [|vm_compute in E; discriminate].
  destruct (open_archive file) as [a|] eqn:Eo.
  - specialize (H file a 0 [121] TFeat (Feat [] []) Eo).
    vm_compute in E. apply Ok_inj in E. subst file. vm_compute in Eo. apply Ok_inj in Eo. subst a.
    vm_compute in H. specialize (H eq_refl). discriminate.
  - vm_compute in E. apply Ok_inj in E. subst file. vm_compute in Eo. discriminate.
Qed.
Print Assumptions C97_has_short_refuted.

(* If the writer dies before finalize, the archive is not silently read as something else: opening it is an error. *)
Theorem C97_unfinished attr one es w :
  write_entries attr one es = Ok w -> Forall (fun b => 0 <= b < 256) (w_out w) ->
  Z.of_nat (length (w_out w)) < 2 ^ 62 -> exists e, open_archive (w_out w) = Err e.
Proof. exact (unfinished attr one es w). Qed.
Print Assumptions C97_unfinished.

Example C97_ex_unfinished :
  match write_entries ex_attr 1 ex_entries with
  | Ok w => forallb (fun b => (0 <=? b) && (b <? 256)) (w_out w) && (Z.of_nat (length (w_out w)) <? 2 ^ 62)
  | Err _ => false
  end = true.
Proof. vm_compute. reflexivity. Qed.

(* An archive without a table (the byte after the header is 0) is to be scanned for its entries. The scan looks for the
   start tags in steps of 4 bytes from the start of the file, but the entries start after 9 bytes: it does not find
   them. *)
Theorem C97_scan_refuted :
  ~ (forall attr one es w, write_entries attr one es = Ok w ->
       exists a, open_archive (cache_header ++ [0] ++ skipn 9 (w_out w)) = Ok a /\
         forall n, In n (map fst (files attr one es)) -> In n (file_list a)).
Proof.
  intros H.
  specialize (H ex_attr 1 [{| e_name := [120]; e_features := []; e_times := [] |}]).
  destruct (write_entries ex_attr 1 _) as [w|] eqn:E in H; [|vm_compute in E; discriminate].
  destruct (H w eq_refl) as (a & Ho & Hi). vm_compute in E. apply Ok_inj in E. subst w.
  vm_compute in Ho. first [discriminate Ho | (apply Ok_inj in Ho; subst a; specialize (Hi [120]); vm_compute in Hi; intuition discriminate)].
Qed.
Print Assumptions C97_scan_refuted.

(* After a longer header the scan works. *)
Example C97_ex_scan :
  (let* e := seq_writes [write_U32 start_recovery_tag; write_u32 1; Ok [120]; write_u32 50; write_u32 0; write_u32 0; Ok (repeat 7 50); write_U32 end_recovery_tag] in
   let* a := open_archive (cache_header ++ [0; 0; 0; 0] ++ e ++ e) in Ok (a_ft a)) =
  Ok [([120], {| fi_name := [120]; fi_pos := 96; fi_size := 50; fi_comp := 0 |})].
Proof. vm_compute. reflexivity. Qed.

(* ---- C98 ---- *)

(* C98: a run-length encoded alignment is decoded to the labels of the frames, in order, whatever follows the
   alignment. *)
Theorem C98_alignment (raw : bool) na a name flag (alph : bool) items :
  0 < na <= 2 ^ 26 -> Forall (rle_ok na) items -> Z.of_nat (length (rle_frames 0 items)) < 2 ^ 31 ->
  stored a name (align_magic ++ u32 flag ++ rle_magic alph
                 ++ u32 (Z.of_nat (length (rle_frames 0 items))) ++ flat_map rle_bytes items) ->
  read_entry na a name (if raw then TAlignRaw else TAlign) =
    Ok (Some (Align (map (shown raw) (rle_frames 0 items)))).
Proof.
  intros Hn Hok Hl Hst. destruct (stored_read na a name _ (if raw then TAlignRaw else TAlign) Hst) as [rest ->].
  - intros rest size. destruct raw; reflexivity.
  - rewrite <- !app_assoc, align_header. rewrite read_U32_u32 by lia. cbn [bind].
    destruct (Z.ltb_spec (Z.of_nat (length (rle_frames 0 items))) (2 ^ 31)); [|lia].
    rewrite rle_ok_read; auto; try lia. rewrite app_length. lia.
Qed.
Print Assumptions C98_alignment.

Definition ex_archive (payload : bytes) : archive :=
  {| a_file := [0; 0] ++ u32 1 ++ u32 0 ++ u32 7 ++ payload ++ [9; 9];
     a_ft := [([120], {| fi_name := [120]; fi_pos := 2; fi_size := 1; fi_comp := 0 |})];
     a_short := [] |}.

Lemma ex_stored payload : stored (ex_archive payload) [120] payload.
Proof.
  split; [repeat constructor; intros []|].
  exists {| fi_name := [120]; fi_pos := 2; fi_size := 1; fi_comp := 0 |}, [0; 0], 1, 7, [9; 9].
  repeat split; cbn; auto; lia.
Qed.

Definition ex_items : list rle_item := [Time 3; Literals [(1, 0); (2, 5)]; Run 3 (0, 1); Time 20; Run 1 (2, 2)].

Example C98_ex :
  read_entry 3 (ex_archive (align_magic ++ u32 1 ++ rle_magic false ++ u32 6 ++ flat_map rle_bytes ex_items)) [120] TAlign =
  Ok (Some (Align [(3, 1, Some 0, One); (4, 2, Some 5, One); (5, 0, Some 1, One); (6, 0, Some 1, One);
                   (7, 0, Some 1, One); (20, 2, Some 2, One)])).
Proof. vm_compute. reflexivity. Qed.

Example C98_ex_ok : Forall (rle_ok 3) ex_items.
Proof. unfold ex_items, rle_ok, label_ok. repeat constructor; cbn; lia. Qed.

(* a state above 5 does not exist for the reader: it gives state 5 for state 6, without an error *)
Theorem C98_state_refuted :
  ~ (forall na a s, 0 <= a < na -> na <= 2 ^ 26 -> 0 <= s ->
       get_state na (label_code (a, s)) = Ok (a, s) \/ exists e, get_state na (label_code (a, s)) = Err e).
Proof.
  intros H. specialize (H 3 1 6). destruct H as [H|[e H]]; try lia; vm_compute in H; discriminate.
Qed.
Print Assumptions C98_state_refuted.

(* The weighted scheme works as long as no frame has a time of its own. *)
Theorem C98_weighted (raw : bool) na version a name flag (alph : bool) fs bs size :
  0 < na <= 2 ^ 26 -> version = 1 \/ version = 2 ->
  Forall (frame_ok na version) fs -> Forall2 frame_enc fs bs -> Forall (fun f => fr_time f = None) fs ->
  packed (Z.of_nat (length (weighted_frames 0 fs))) size ->
  stored a name (align_magic ++ u32 flag ++ rle_magic alph ++ u32 (2 ^ 31 + version) ++ size ++ concat bs) ->
  read_entry na a name (if raw then TAlignRaw else TAlign) = Ok (Some (Align (weighted_frames 0 fs))).
Proof.
  intros Hn Hv Hok Henc Ht Hp Hst.
  destruct (stored_read na a name _ (if raw then TAlignRaw else TAlign) Hst) as [rest ->].
  - intros rest sz. destruct raw; reflexivity.
  - rewrite <- !app_assoc, align_header.
    rewrite read_U32_u32 by (change (2 ^ 31) with 2147483648; change (2 ^ 32) with 4294967296; lia). cbn [bind].
    destruct (Z.ltb_spec (2 ^ 31 + version) (2 ^ 31)); [lia|]. cbv zeta.
    replace (Z.land (2 ^ 31 + version) (2 ^ 31 - 1)) with version by (destruct Hv as [-> | ->]; reflexivity).
    replace (version <=? 2) with true by (symmetry; apply Z.leb_le; lia). cbn [assert_ bind].
    rewrite (packed_ok _ _ _ Hp). cbn [bind].
    rewrite (weighted_ok na version fs bs); auto; try lia. rewrite app_length. lia.
Qed.
Print Assumptions C98_weighted.

(* With a time of its own (the flag in the lowest bit), a frame takes one item too many, from the following bytes: the
   number of items is halved by a float division. *)
Theorem C98_weighted_time_refuted :
  ~ (forall na version a name flag (alph : bool) fs bs size,
       0 < na <= 2 ^ 26 -> version = 1 \/ version = 2 ->
       Forall (frame_ok na version) fs -> Forall2 frame_enc fs bs ->
       packed (Z.of_nat (length (weighted_frames 0 fs))) size ->
       stored a name (align_magic ++ u32 flag ++ rle_magic alph ++ u32 (2 ^ 31 + version) ++ size ++ concat bs) ->
       read_entry na a name TAlign = Ok (Some (Align (weighted_frames 0 fs)))).
Proof.
  intros H.
  specialize (H 3 2
    (ex_archive (align_magic ++ u32 1 ++ rle_magic false ++ u32 (2 ^ 31 + 2) ++ [2] ++
                 concat [[3; 5; 0; 0; 0; 128; 63]; [2; 1; 0; 0; 128; 63]]))
    [120] 1 false
    [{| fr_time := Some 5; fr_items := [((0, 0), Float32 1065353216)] |};
     {| fr_time := None; fr_items := [((1, 0), Float32 1065353216)] |}]
    [[3; 5; 0; 0; 0; 128; 63]; [2; 1; 0; 0; 128; 63]] [2]).
  assert (X : Ok (Some (Align [(5, 0, Some 0, Float32 1065353216); (5, 2, Some 0, Float32 2147483649)])) =
              @Ok (option content) (Some (Align [(5, 0, Some 0, Float32 1065353216); (6, 1, Some 0, Float32 1065353216)]))).
  { refine (eq_trans _ (eq_trans (H _ _ _ _ _ _) _)).
    - vm_compute. reflexivity.
    - lia.
    - right. reflexivity.
    - repeat constructor; cbn; lia.
    - constructor; [|constructor; [|constructor]].
      + apply (frame_enc_time 5 [((0, 0), Float32 1065353216)] [3] [5] [[0; 0; 0; 128; 63]]).
        * apply packed_last. cbn. lia.
        * apply packed_last. lia.
        * constructor; [|constructor]. apply (item_enc_intro (0, 0) (Float32 1065353216) [0]).
          apply (packed_last (label_code (0, 0))). cbn. lia.
      + apply (frame_enc_none [((1, 0), Float32 1065353216)] [2] [[1; 0; 0; 128; 63]]).
        * apply packed_last. cbn. lia.
        * constructor; [|constructor]. apply (item_enc_intro (1, 0) (Float32 1065353216) [1]).
          apply (packed_last (label_code (1, 0))). cbn. lia.
    - apply packed_last. cbn. lia.
    - apply ex_stored.
    - reflexivity. }
  discriminate X.
Qed.
Print Assumptions C98_weighted_time_refuted.

(* "align_raw" is for an archive without allophones; that works in the plain scheme only, the weighted one looks up the
   state nevertheless. *)
Theorem C98_raw_weighted_refuted :
  ~ (forall a name flag (alph : bool) fs bs size,
       Forall (frame_ok 3 2) fs -> Forall2 frame_enc fs bs -> Forall (fun f => fr_time f = None) fs ->
       packed (Z.of_nat (length (weighted_frames 0 fs))) size ->
       stored a name (align_magic ++ u32 flag ++ rle_magic alph ++ u32 (2 ^ 31 + 2) ++ size ++ concat bs) ->
       is_ok (read_entry 0 a name TAlignRaw) = true).
Proof.
  intros H.
  specialize (H
    (ex_archive (align_magic ++ u32 1 ++ rle_magic false ++ u32 (2 ^ 31 + 2) ++ [1] ++
                 concat [[2; 1; 0; 0; 128; 63]]))
    [120] 1 false
    [{| fr_time := None; fr_items := [((1, 0), Float32 1065353216)] |}]
    [[2; 1; 0; 0; 128; 63]] [1]).
  assert (X : false = true).
  { refine (eq_trans _ (H _ _ _ _ _)).
    - vm_compute. reflexivity.
    - repeat constructor; cbn; lia.
    - constructor; [|constructor].
      apply (frame_enc_none [((1, 0), Float32 1065353216)] [2] [[1; 0; 0; 128; 63]]).
      + apply packed_last. cbn. lia.
      + constructor; [|constructor]. apply (item_enc_intro (1, 0) (Float32 1065353216) [1]).
        apply (packed_last (label_code (1, 0))). cbn. lia.
    - repeat constructor.
    - apply packed_last. cbn. lia.
    - apply ex_stored. }
  discriminate X.
Qed.
Print Assumptions C98_raw_weighted_refuted.

(* ---- C99 ---- *)

(* C99: a bundle lists the entries of all its archives, and reads an entry from the archive added last among those
   which have it. *)
Theorem C99_bundle l :
  first_occurrences (flat_map file_list l) (bundle_list (open_bundle l)) /\
  forall na n typ,
    (forall a, last_with n a l -> bundle_has (open_bundle l) n = true /\
       bundle_read na (open_bundle l) n typ = read_entry na a n typ) /\
    ((forall a, In a l -> ~ In n (file_list a)) -> bundle_has (open_bundle l) n = false).
Proof.
  split; [apply bundle_names|]. intros na n typ. split.
  - intros a H. apply bundle_last in H. unfold bundle_read, resolve, bundle_has. rewrite H. cbn [is_some].
    rewrite H. auto.
  - intros H. unfold bundle_has. rewrite bundle_no; auto.
Qed.
Print Assumptions C99_bundle.

(* A short name works in a bundle too, if it belongs to one archive whose short names are unique, and no other archive
   has an entry with it. *)
Theorem C99_short l1 a l2 na n typ :
  (forall b, In b (l1 ++ a :: l2) -> exists file, open_archive file = Ok b) ->
  unique_basenames (file_list a) -> In n (file_list a) ->
  (forall b, In b (l1 ++ l2) -> forall m, In m (file_list b) -> basename m <> basename n) ->
  (forall b, In b (l1 ++ a :: l2) -> ~ In (basename n) (file_list b)) ->
  bundle_read na (open_bundle (l1 ++ a :: l2)) (basename n) typ = read_entry na a n typ.
Proof.
  intros Ho Hu Hin Hb Hn.
  assert (Hs : lookup (basename n) (b_short (open_bundle (l1 ++ a :: l2))) = Some n).
  { apply bundle_short; auto.
    - intros b Hi. destruct (Ho b Hi) as [file Hf]. apply (open_short _ _ Hf).
    - intros b Hi Hin2. apply in_map_iff in Hin2 as (m & Em & Hm).
      apply (Hb b (in_or_app _ _ _ (or_intror Hi)) m Hm Em). }
  unfold bundle_read, resolve. unfold bundle_has. rewrite (bundle_no _ (basename n)) by exact Hn. cbn [is_some].
  rewrite Hs. rewrite (bundle_last _ n a); [reflexivity|].
  exists l1, l2. split; [reflexivity|]. split; [exact Hin|].
  intros b Hi Hm. apply (Hb b (in_or_app _ _ _ (or_intror Hi)) n Hm eq_refl).
Qed.
Print Assumptions C99_short.

Definition ex_open (es : list entry) : archive :=
  match (let* file := write_archive ex_attr 1 es in open_archive file) with
  | Ok a => a
  | Err _ => {| a_file := []; a_ft := []; a_short := [] |}
  end.

Definition ex_one (name : bytes) (x : Z) : archive :=
  ex_open [{| e_name := name; e_features := [[x]]; e_times := [(0, 1)] |}].

Example C99_ex_short :
  bundle_read 0 (open_bundle [ex_one [97; 47; 120] 1; ex_one [97; 47; 121] 2]) [121] TFeat =
  Ok (Some (Feat [[0; 1]] [[2]])).
Proof. vm_compute. reflexivity. Qed.

(* An ambiguous short name is an error within one archive. In a bundle of two archives it silently means the entry of
   the archive added last. *)
Theorem C99_ambiguous_refuted :
  ~ (forall l na n m1 m2 a1 a2 typ,
       (forall b, In b l -> exists file, open_archive file = Ok b) ->
       (forall b, In b l -> ~ In n (file_list b)) ->
       In a1 l -> In a2 l -> In m1 (file_list a1) -> In m2 (file_list a2) -> m1 <> m2 ->
       basename m1 = n -> basename m2 = n ->
       bundle_read na (open_bundle l) n typ = Err KeyError).
Proof.
  intros H.
  specialize (H [ex_one [97; 47; 120] 1; ex_one [98; 47; 120] 2] 0 [120] [97; 47; 120] [98; 47; 120]
                (ex_one [97; 47; 120] 1) (ex_one [98; 47; 120] 2) TFeat).
  assert (X : @Ok (option content) (Some (Feat [[0; 1]] [[2]])) = Err KeyError).
  { refine (eq_trans _ (H _ _ _ _ _ _ _ _ _)).
    - vm_compute. reflexivity.
    - intros b [<-|[<-|[]]]; eexists.
      + assert (E : exists f, write_archive ex_attr 1
            [{| e_name := [97; 47; 120]; e_features := [[1]]; e_times := [(0, 1)] |}] = Ok f)
          by (vm_compute; eauto).
        instantiate (1 := match write_archive ex_attr 1
            [{| e_name := [97; 47; 120]; e_features := [[1]]; e_times := [(0, 1)] |}] with Ok f => f | Err _ => [] end).
        vm_compute. reflexivity.
      + instantiate (1 := match write_archive ex_attr 1
            [{| e_name := [98; 47; 120]; e_features := [[2]]; e_times := [(0, 1)] |}] with Ok f => f | Err _ => [] end).
        vm_compute. reflexivity.
    - intros b [<-|[<-|[]]]; vm_compute; intuition discriminate.
    - left. reflexivity.
    - right. left. reflexivity.
    - vm_compute. auto.
    - vm_compute. auto.
    - discriminate.
    - reflexivity.
    - reflexivity. }
  discriminate X.
Qed.
Print Assumptions C99_ambiguous_refuted.
