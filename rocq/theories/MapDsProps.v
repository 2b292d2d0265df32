(** C134: data sets given by the user as a list of sequences. *)
From Coq Require Import String.
From Verif Require Import Base PyDict PySort ListLemmas SeqOrderModel SeqOrderSpec SeqOrderProofs SeqOrderProps DimModel DimNameProofs MapDsModel MapDsSpec MapDsProofs.
Local Open Scope nat_scope.

(** An epoch without a given order reads each sequence exactly once, with its own tag: whether or not lengths are available. *)
Theorem C134_epoch : forall D R py_int method seed off (ds : map_ds D) e o, rng_ok R -> startswith method "default_every_n:" = false ->
  md_order ds = None -> init_seq_order R py_int (plain_cfg method seed off) ds (Some e) None None = Ok o ->
  num_seqs (Some o) = Ok (List.length (md_seqs ds)) /\ exists l, read_all ds o = Ok l /\ Permutation l (whole ds).
Proof.
  intros D R py_int method seed off ds e o HR Hm Ho H. unfold init_seq_order in H. cbn [bind] in H. rewrite Ho in H.
  assert (E : exists len, get_seq_order_for_epoch R py_int (plain_cfg method seed off) len (Some e) (List.length (md_seqs ds)) = Ok o).
  { unfold default_order in H. destruct (md_len ds) as [f|]; [|eexists; exact H]. destruct (mapM f _) as [lens|e']; [eexists; exact H|].
    destruct (get_seq_order_for_epoch R py_int (plain_cfg method seed off) None (Some e) (size ds)) as [o'|[]] eqn:E; try discriminate H. injection H as ->. eexists; exact E. }
  destruct E as (len & E). assert (Hn : 0 < List.length (md_seqs ds)).
  { destruct (List.length (md_seqs ds)); [discriminate E|lia]. }
  pose proof (C02_order_is_permutation R py_int method seed off len e _ o HR Hn Hm E) as Hp. split; [|apply read_perm; exact Hp].
  cbn [num_seqs]. rewrite (Permutation_length Hp), seq_length. reflexivity.
Qed.
Print Assumptions C134_epoch.

(** With a list of tags, the sequences with these tags are read in this order. If several have the tag, it is the last one. *)
Theorem C134_seq_list : forall D (ds : map_ds D) R py_int cfg epoch l, Forall (has_tag ds) l ->
  exists o, init_seq_order R py_int cfg ds epoch (Some l) None = Ok o /\ num_seqs (Some o) = Ok (List.length l) /\
    forall k t, nth_error l k = Some t -> exists x, last_with_tag ds t x /\ collect ds (Some o) k = Ok (x, t) /\ get_tag ds (Some o) k = Ok t.
Proof.
  intros D ds R py_int cfg epoch l Hl. destruct (seq_list_ok ds R py_int cfg epoch l Hl) as (o & E & El & H). exists o. split; [exact E|]. split; [cbn; rewrite El; reflexivity|exact H].
Qed.
Print Assumptions C134_seq_list.

(** A tag which no sequence has is an error. *)
Theorem C134_unknown_tag : forall D (ds : map_ds D) R py_int cfg epoch l t, In t l -> ~ has_tag ds t ->
  init_seq_order R py_int cfg ds epoch (Some l) None = Err KeyError.
Proof. intros D ds R py_int cfg epoch l t. apply seq_list_unknown. Qed.
Print Assumptions C134_unknown_tag.

(** A given order of indices is taken as it is. *)
Theorem C134_seq_order : forall D (ds : map_ds D) R py_int cfg epoch o, Forall (fun i => i < List.length (md_seqs ds)) o ->
  init_seq_order R py_int cfg ds epoch None (Some o) = Ok o /\
  exists l, read_all ds o = Ok l /\ List.length l = List.length o /\
    forall k i, nth_error o k = Some i -> exists x, nth_error (md_seqs ds) i = Some x /\ nth_error l k = Some (x, md_tag ds i).
Proof. intros D ds R py_int cfg epoch o Ho. split; [reflexivity|]. apply read_order. exact Ho. Qed.
Print Assumptions C134_seq_order.

(** A list of tags together with an order of indices is an error. *)
Theorem C134_both : forall D (ds : map_ds D) R py_int cfg epoch l o, init_seq_order R py_int cfg ds epoch (Some l) (Some o) = Err AssertionError.
Proof. reflexivity. Qed.
Print Assumptions C134_both.

(** An order of the user overrides all options about the order, also the partition of epochs. *)
Theorem C134_user_order : forall D (ds : map_ds D) R py_int cfg epoch f, md_order ds = Some f -> init_seq_order R py_int cfg ds epoch None None = Ok (f epoch).
Proof. intros D ds R py_int cfg epoch f H. unfold init_seq_order. cbn [bind]. rewrite H. reflexivity. Qed.
Print Assumptions C134_user_order.

(** With different tags: the tags of an epoch, given as a list, give the same epoch again. *)
Theorem C134_replay : forall D (ds : map_ds D) R py_int cfg epoch o tags, distinct_tags ds -> Forall (fun i => i < List.length (md_seqs ds)) o ->
  mapM (get_tag ds (Some o)) (seq 0 (List.length o)) = Ok tags ->
  init_seq_order R py_int cfg ds epoch (Some tags) None = Ok o.
Proof. intros D ds R py_int cfg epoch o tags Hd Ho Ht. rewrite get_tags in Ht. injection Ht as <-. apply replay_ok; assumption. Qed.
Print Assumptions C134_replay.

(** The tags which are made if the user has none are different. *)
Theorem C134_default_tags : forall A (data : list (list (string * list A))) key, distinct_tags (from_list data key) /\
  get_all_tags (from_list data key) = map (fun i => ("seq-" ++ int_str (Z.of_nat i))%string) (seq 0 (List.length data)).
Proof.
  intros A data key. split; [|reflexivity]. intros i j _ _ H. cbn [from_list md_tag] in H. unfold default_tag in H. apply (str_app_inv "seq-") in H. apply (int_str_inj [] (fun _ => 0%Z)) in H. apply Nat2Z.inj. exact H.
Qed.
Print Assumptions C134_default_tags.

(** Without lengths, sorting is not supported: the orders which need lengths are refused, and the others work. *)
Theorem C134_no_lengths : forall D (ds : map_ds D) R py_int seed off e, 0 < List.length (md_seqs ds) -> md_order ds = None -> md_len ds = None ->
  supports_sorting ds = Ok false /\
  (forall method, In method ["default"; "reverse"; "random"]%string -> is_ok (init_seq_order R py_int (plain_cfg method seed off) ds (Some e) None None) = true) /\
  (forall method, In method ["sorted"; "sorted_reverse"; "sort_bin_shuffle"; "sort_bin_shuffle_x2"; "laplace"]%string ->
     init_seq_order R py_int (plain_cfg method seed off) ds (Some e) None None = Err AssertionError).
Proof.
  intros D ds R py_int seed off e Hn Ho Hl. split; [unfold supports_sorting; rewrite Hl; reflexivity|]. unfold init_seq_order. cbn [bind]. rewrite Ho. unfold default_order. rewrite Hl.
  split; intros method Hm; rewrite plain_order by exact Hn; cbn [In] in Hm; repeat (destruct Hm as [<-|Hm]); try contradiction; reflexivity.
Qed.
Print Assumptions C134_no_lengths.

(** A list of data, sorted by the length of the data of the given key. *)
Theorem C134_from_list_sorted : forall A (data : list (list (string * list A))) key len R py_int seed off e, data <> [] -> key <> ""%string ->
  (forall i x, nth_error data i = Some x -> exists l, dget x key = Some l /\ len i = Z.of_nat (List.length l)) ->
  supports_sorting (from_list data (Some key)) = Ok true /\
  exists o, init_seq_order R py_int (plain_cfg "sorted" seed off) (from_list data (Some key)) (Some e) None None = Ok o /\
    stably_sorted len (seq 0 (List.length data)) o.
Proof.
  intros A data key len R py_int seed off e Hne Hk Hlen.
  assert (F : forall i, i < List.length data -> from_list_len data (Some key) i = Ok (len i)).
  { intros i Hi. destruct (nth_error data i) as [x|] eqn:E; [|apply nth_error_None in E; lia]. destruct (Hlen i x E) as (l & El & ->). unfold from_list_len, pyget. rewrite E. cbn [bind]. rewrite El. destruct key; [congruence|reflexivity]. }
  assert (Hn : 0 < List.length data) by (destruct data; [congruence|cbn; lia]).
  split; [unfold supports_sorting; cbn [from_list md_len]; rewrite F by exact Hn; reflexivity|].
  unfold init_seq_order. cbn [bind from_list md_order]. unfold default_order, size. cbn [from_list md_len md_seqs].
  assert (M : forall l, (forall i, In i l -> i < List.length data) -> mapM (from_list_len data (Some key)) l = Ok (map len l)).
  { induction l as [|i l IH]; intros Hin; [reflexivity|]. cbn [mapM map]. rewrite F by (apply Hin; left; reflexivity). rewrite IH by (intros j Hj; apply Hin; right; exact Hj). reflexivity. }
  rewrite M by (intros i Hi; apply in_seq in Hi; lia). set (lens := fun i => nth i (map len (seq 0 (List.length data))) 0%Z).
  assert (L : forall i, In i (seq 0 (List.length data)) -> lens i = len i).
  { intros i Hi. apply in_seq in Hi. unfold lens. rewrite (nth_indep _ 0%Z (len 0)) by (rewrite map_length, seq_length; lia). rewrite map_nth, seq_nth by lia. reflexivity. }
  destruct (C03_sorted R py_int seed off lens e (List.length data) Hn) as (o & E & Hp & Hs & Hf). exists o. split; [exact E|]. split; [exact Hp|].
  assert (Lo : forall i, In i o -> lens i = len i) by (intros i Hi; apply L; apply (Permutation_in _ Hp); exact Hi). split.
  - clear - Hs Lo. induction Hs as [|x o Hs IH Hx]; [constructor|]. constructor; [apply IH; intros i Hi; apply Lo; right; exact Hi|]. rewrite Forall_forall in *. intros y Hy. rewrite <- (Lo x (or_introl eq_refl)), <- (Lo y (or_intror Hy)). apply Hx. exact Hy.
  - intros k. specialize (Hf k). rewrite (filter_ext_in (fun x => (len x =? k)%Z) (fun x => (lens x =? k)%Z) o) by (intros i Hi; rewrite Lo by exact Hi; reflexivity).
    rewrite (filter_ext_in (fun x => (len x =? k)%Z) (fun x => (lens x =? k)%Z) (seq 0 (List.length data))) by (intros i Hi; rewrite L by exact Hi; reflexivity). exact Hf.
Qed.
Print Assumptions C134_from_list_sorted.

(** Whether sorting is supported should be answered by yes or no. A list of data without a key for sorting raises an AssertionError
    instead, and an empty one an IndexError. *)
Theorem C134_sorting_query_refuted : (forall A (data : list (list (string * list A))), supports_sorting (from_list data None) = Err AssertionError) /\
  (forall A key, key <> ""%string -> supports_sorting (from_list (@nil (list (string * list A))) (Some key)) = Err IndexError).
Proof. split; [reflexivity|]. intros A key Hk. destruct key; [congruence|reflexivity]. Qed.
Print Assumptions C134_sorting_query_refuted.

Definition ex_data : list (list (string * list nat)) := [[("data", [1; 2; 3])]; [("data", [4])]; [("data", [5; 6])]]%string.
Example C134_ex_sorted : init_seq_order ex_rng ex_int (plain_cfg "sorted" None 0) (from_list ex_data (Some "data"%string)) (Some 1) None None = Ok [1; 2; 0] /\
  read_all (from_list ex_data (Some "data"%string)) [1; 2; 0] =
    Ok [([("data", [4])], "seq-1"); ([("data", [5; 6])], "seq-2"); ([("data", [1; 2; 3])], "seq-0")]%string.
Proof. split; vm_compute; reflexivity. Qed.
Example C134_ex_list : init_seq_order ex_rng ex_int (plain_cfg "sorted" None 0) (from_list ex_data None) (Some 1) (Some ["seq-2"; "seq-0"; "seq-2"]%string) None = Ok [2; 0; 2] /\
  Forall (has_tag (from_list ex_data None)) ["seq-2"; "seq-0"; "seq-2"]%string /\
  init_seq_order ex_rng ex_int (plain_cfg "sorted" None 0) (from_list ex_data None) (Some 1) (Some ["seq-2"; "seq-3"]%string) None = Err KeyError /\
  init_seq_order ex_rng ex_int (plain_cfg "sorted" None 0) (from_list ex_data None) (Some 1) None None = Err AssertionError /\
  init_seq_order ex_rng ex_int (plain_cfg "default" None 0) (from_list ex_data None) (Some 1) None None = Ok [0; 1; 2] /\
  init_seq_order ex_rng ex_int (plain_cfg "default" None 0) (from_list ex_data None) (Some 1) (Some []) (Some []) = Err AssertionError /\
  init_seq_order ex_rng ex_int (plain_cfg "default" None 0) (from_list ex_data None) None None None = Ok [] /\
  num_seqs None = Err NotImplementedError.
Proof.
  split; [vm_compute; reflexivity|]. split; [repeat constructor; [exists 2|exists 0|exists 2]; (split; [cbn; lia|reflexivity])|]. repeat split; vm_compute; reflexivity.
Qed.
(** two sequences with the same tag *)
Example C134_ex_same_tag : let ds := {| md_seqs := [10; 20; 30]; md_tag := fun i => if (i =? 1)%nat then "b" else "a"; md_len := None; md_order := None |}%string in
  init_seq_order ex_rng ex_int (plain_cfg "default" None 0) ds (Some 1) (Some ["a"; "b"]%string) None = Ok [2; 1] /\ read_all ds [2; 1] = Ok [(30, "a"); (20, "b")]%string.
Proof. split; vm_compute; reflexivity. Qed.
