(** The postprocessing dataset. *)
From Coq Require Import String QArith.
From Verif Require Import Base ListLemmas PyDict PySort PostprocModel PostprocSpec PostprocProofs PostprocDsProofs.
Local Open Scope string_scope.
Local Open Scope nat_scope.
Local Open Scope list_scope.
Local Notation length := List.length.

(** ** C67 *)

(** The bins of the items are sorted up and down in turn, for every non-empty stream of usable items, and only that result is
    possible. *)
Theorem C67_laplace : forall (A : Type) n seq_len (f : mapper A), laplace_ordering n seq_len = Ok f ->
  forall D (nx : iterator A D) d xs, yields nx d xs -> Forall (usable seq_len) xs -> xs <> [] ->
  (exists ys, laplace_ordered n (len_of seq_len) xs ys) /\
  forall ys, yields (m_next f D nx) (m_start f, d) ys <-> laplace_ordered n (len_of seq_len) xs ys.
Proof.
  intros A n seq_len f Hf D nx d xs HY HU Hne.
  assert (Hn : 0 < n) by (unfold laplace_ordering in Hf; destruct (Nat.ltb_spec 0 n); [assumption|discriminate]).
  pose proof (lap_laplace_ordered n seq_len Hn xs HU) as HO. split; [eauto|].
  pose proof (laplace_computes n seq_len Hn f Hf D nx d xs) as HC. intros ys. split; [|intros H; apply HC; auto].
  intros H. rewrite (yields_fun _ _ _ _ H (HC _ HY (conj HU (conj Hne HO)))). exact HO.
Qed.
Print Assumptions C67_laplace.

(** One [next] reads one bin, and then one item per item that is given: when item number [j] is given, at most [n + j] items were
    taken from the input. *)
Theorem C67_read_ahead : forall (A : Type) n seq_len (f : mapper A), laplace_ordering n seq_len = Ok f ->
  forall D (nx : iterator A D) d xs, yields nx d xs -> Forall (usable seq_len) xs -> forall j, j < length xs ->
  snd (snd (state_after (m_next f (D * nat) (counted nx)) (S j) (m_start f, (d, 0)))) = Nat.min (length xs) (n + j).
Proof.
  intros A n seq_len f Hf D nx d xs HY HU j Hj. unfold laplace_ordering in Hf. destruct (Nat.ltb_spec 0 n) as [Hn|]; [|discriminate].
  injection Hf as <-. cbn [m_next m_start]. now apply laplace_count.
Qed.
Print Assumptions C67_read_ahead.

(** An exception of the input comes out as soon as the item is read, and after the items of the bin before. *)
Theorem C67_error : forall (A : Type) n seq_len (f : mapper A), laplace_ordering n seq_len = Ok f ->
  forall D (nx : iterator A D) d xs e, breaks nx d xs e -> Forall (usable seq_len) xs ->
  (forall j, j < S (length xs) - n -> exists t, result_of (m_next f D nx) (m_start f, d) j = Yield t)
  /\ result_of (m_next f D nx) (m_start f, d) (S (length xs) - n) = Raise e.
Proof.
  intros A n seq_len f Hf D nx d xs e HB HU. unfold laplace_ordering in Hf. destruct (Nat.ltb_spec 0 n) as [Hn|]; [|discriminate].
  injection Hf as <-. cbn [m_next m_start]. destruct (laplace_breaks n seq_len Hn nx d xs e HB HU) as (j&->&H1&H2). auto.
Qed.
Print Assumptions C67_error.

(** "for every stream" is false: without any items there is an exception instead of an empty stream. *)
Theorem C67_empty_refuted : forall (A : Type) n seq_len (f : mapper A), laplace_ordering n seq_len = Ok f ->
  forall D (nx : iterator A D) d, yields nx d [] -> result_of (m_next f D nx) (m_start f, d) 0 = Raise AssertionError.
Proof.
  intros A n seq_len f Hf D nx d HY. unfold laplace_ordering in Hf. destruct (Nat.ltb_spec 0 n) as [Hn|]; [|discriminate].
  injection Hf as <-. cbn [m_next m_start]. exact (laplace_empty n seq_len nx d HY).
Qed.
Print Assumptions C67_empty_refuted.

(** The size of a bin has to be positive. *)
Theorem C67_size : forall (A : Type) n (seq_len : @dict string A -> res nat), is_ok (laplace_ordering n seq_len) = (0 <? n).
Proof. intros A n seq_len. unfold laplace_ordering. now destruct (0 <? n). Qed.
Print Assumptions C67_size.

(** A sequence of stream functions is their composition, and it says that it keeps the number of sequences exactly if all of them
    say so. *)
Theorem C67_sequential : forall (A : Type) (fs : list (mapper A)) (Fs : list (list (tdict A) -> list (tdict A) -> Prop)),
  Forall2 computes fs Fs -> computes (sequential fs) (in_sequence Fs)
  /\ (preserves (sequential fs) = true <-> Forall (fun f => m_preserves f = Some true) fs).
Proof.
  intros A fs Fs H. split; [now apply sequential_computes|]. unfold preserves at 1. cbn [m_preserves sequential]. rewrite forallb_forall, Forall_forall.
  split; intros G f Hf; specialize (G f Hf); unfold preserves in *; destruct (m_preserves f) as [[|]|]; congruence.
Qed.
Print Assumptions C67_sequential.

(** Laplace ordering is such a function, and it does keep the number. *)
Theorem C67_laplace_computes : forall (A : Type) n seq_len (f : mapper A), laplace_ordering n seq_len = Ok f ->
  computes f (fun xs ys => Forall (usable seq_len) xs /\ xs <> [] /\ laplace_ordered n (len_of seq_len) xs ys)
  /\ m_preserves f = Some true
  /\ forall xs ys, laplace_ordered n (len_of seq_len) xs ys -> length ys = length xs.
Proof.
  intros A n seq_len f Hf. assert (Hn : 0 < n) by (unfold laplace_ordering in Hf; destruct (Nat.ltb_spec 0 n); [assumption|discriminate]).
  split; [now apply laplace_computes|]. split; [unfold laplace_ordering in Hf; apply bind_Ok in Hf; destruct Hf as (?&_&Hf); apply Ok_inj in Hf; now subst f|].
  intros xs ys [H _]. apply (f_equal (@length _)) in H. now rewrite !map_length in H.
Qed.
Print Assumptions C67_laplace_computes.

(** ** C68 *)

(** With [map_seq], sequence [i] of an epoch is the result of [map_seq] for sequence [i] of the wrapped dataset, and there are as
    many. A given list of tags is accepted if the tags are right. *)
Theorem C68_map_seq : forall (A R : Type) (o : options A R) f epoch seq_list ts idxs,
  o_map_seq o = Some f -> o_stream o = None ->
  mapped f (o_seed o epoch) 0 (w_seqs (o_wrapped o epoch)) ts -> acceptable o ts ->
  match seq_list with None => True | Some l => forall i t, nth_error ts i = Some t -> nth_error l i = t_tag t end ->
  (w_num_seqs (o_wrapped o epoch) = None \/ w_num_seqs (o_wrapped o epoch) = Some (length (w_seqs (o_wrapped o epoch)))) ->
  increasing 0 idxs ->
  epoch_results o epoch seq_list idxs = Ok (right_results ts idxs) /\ length ts = length (w_seqs (o_wrapped o epoch)).
Proof.
  intros A R o f epoch seq_list ts idxs Ef Es HM HA HT HN HI.
  assert (HL : length ts = length (w_seqs (o_wrapped o epoch))) by (clear - HM; induction HM; cbn; congruence). split; [|exact HL].
  apply epoch_right; auto; [|intros _ n Hn; destruct HN as [HN|HN]; congruence].
  pose proof (source_mapped (o_wrapped o epoch) f seq_list (o_seed o epoch) ts HM HT) as HY. rewrite Ef. unfold stream_of. rewrite Es.
  exact (identity_computes _ _ _ _ _ HY eq_refl).
Qed.
Print Assumptions C68_map_seq.

(** With [map_seq_stream], the sequences of an epoch are what the function gives. *)
Theorem C68_stream : forall (A R : Type) (o : options A R) f F epoch ts idxs,
  o_map_seq o = None -> o_stream o = Some f -> computes f F ->
  F (map in_dict (w_seqs (o_wrapped o epoch))) ts -> acceptable o ts ->
  (preserves_num_seqs o = true -> forall n, w_num_seqs (o_wrapped o epoch) = Some n -> n = length ts) ->
  increasing 0 idxs ->
  epoch_results o epoch None idxs = Ok (right_results ts idxs).
Proof.
  intros A R o f F epoch ts idxs Em Es HC HF HA HN HI. apply epoch_right; auto.
  - pose proof (source_plain (o_wrapped o epoch) None (o_seed o epoch)) as HY. rewrite Em. unfold stream_of. rewrite Es. exact (HC _ _ _ _ _ HY HF).
  - intros [H|H]; [congruence|auto].
Qed.
Print Assumptions C68_stream.

(** With Laplace ordering, any number of increasing reads of an epoch gives the sequences of the wrapped dataset in this order. *)
Theorem C68_laplace : forall (A R : Type) (o : options A R) n seq_len f epoch,
  laplace_ordering n seq_len = Ok f -> o_map_seq o = None -> o_stream o = Some f -> (forall t, o_check o t = Ok tt) ->
  let seqs := w_seqs (o_wrapped o epoch) in
  seqs <> [] -> Forall (fun x => is_ok (seq_len (snd (fst x))) = true /\ snd x <> None) seqs -> fracs_increase 0 (map snd seqs) ->
  (w_num_seqs (o_wrapped o epoch) = None \/ w_num_seqs (o_wrapped o epoch) = Some (length seqs)) ->
  exists ys, laplace_ordered n (len_of seq_len) (map in_dict seqs) ys /\
    forall idxs, increasing 0 idxs -> epoch_results o epoch None idxs = Ok (right_results ys idxs).
Proof.
  intros A R o n seq_len f epoch Hf Em Es Hc seqs Hne HU HF HN.
  assert (Hn : 0 < n) by (unfold laplace_ordering in Hf; destruct (Nat.ltb_spec 0 n); [assumption|discriminate]).
  assert (HU' : Forall (usable seq_len) (map in_dict seqs)).
  { apply Forall_forall. intros t Ht. apply in_map_iff in Ht. destruct Ht as (x&<-&Hx). rewrite Forall_forall in HU. destruct (HU x Hx). split; [discriminate|assumption]. }
  pose proof (lap_laplace_ordered n seq_len Hn _ HU') as HO. eexists. split; [exact HO|]. intros idxs HI.
  assert (Hfr : map t_frac (lap n seq_len false (map in_dict seqs)) = map (fun x => Some (snd x)) seqs) by (rewrite (proj1 HO), map_map; reflexivity).
  revert HO Hfr. generalize (lap n seq_len false (map in_dict seqs)). intros ys HO Hfr.
  refine (C68_stream _ _ o f _ epoch ys idxs Em Es (laplace_computes n seq_len Hn f Hf) _ _ _ HI).
  - split; [exact HU'|]. split; [|exact HO]. intros E. apply map_eq_nil in E. contradiction.
  - split.
    + apply Forall_forall. intros t Ht. split; [apply Hc|]. apply (in_map t_frac) in Ht. rewrite Hfr in Ht. apply in_map_iff in Ht. destruct Ht as (x&<-&Hx).
      rewrite Forall_forall in HU. destruct (HU x Hx). congruence.
    + replace (map _ ys) with (map snd seqs); [exact HF|]. transitivity (map (fun c : option (option Q) => match c with Some q => q | None => None end) (map t_frac ys)); [|now rewrite map_map].
      rewrite Hfr, map_map. reflexivity.
  - intros _ k Hk. destruct HN as [HN|HN]; [congruence|]. apply (f_equal (@length _)) in Hfr. rewrite !map_length in Hfr. congruence.
Qed.
Print Assumptions C68_laplace.

(** For any functions of the user, even if some of the reads fail, and in whatever order the sequences are asked for: two runs
    of the same epoch give the same data for the same sequence. *)
Theorem C68_same_data : forall (A R : Type) (o : options A R) epoch seq_list idxs idxs' rs rs',
  epoch_results o epoch seq_list idxs = Ok rs -> epoch_results o epoch seq_list idxs' = Ok rs' ->
  forall k k' i x y, nth_error idxs k = Some i -> nth_error idxs' k' = Some i ->
  nth_error rs k = Some (Ok (Some x)) -> nth_error rs' k' = Some (Ok (Some y)) -> x = y.
Proof.
  intros A R o epoch seq_list idxs idxs' rs rs' H H' k k' i x y Hk Hk' Hx Hy.
  destruct (epoch_some o epoch seq_list idxs rs H k i x Hk Hx) as (t&H1&->). destruct (epoch_some o epoch seq_list idxs' rs' H' k' i y Hk' Hy) as (t'&H2&->). congruence.
Qed.
Print Assumptions C68_same_data.

(** The fractions of the sequences are between 0 and 1, and do not decrease. *)
Theorem C68_fractions : forall (A R : Type) (o : options A R) epoch seq_list idxs rs,
  epoch_results o epoch seq_list idxs = Ok rs ->
  forall k i x q, nth_error idxs k = Some i -> nth_error rs k = Some (Ok (Some x)) -> d_frac x = Some q ->
  (0 <= q <= 1)%Q /\
  forall k' i' x' q', i < i' -> nth_error idxs k' = Some i' -> nth_error rs k' = Some (Ok (Some x')) -> d_frac x' = Some q' -> (q <= q')%Q.
Proof.
  intros A R o epoch seq_list idxs rs H k i x q Hk Hx Hq. destruct (epoch_some o epoch seq_list idxs rs H k i x Hk Hx) as (t&H1&->).
  destruct (fracs_any o epoch seq_list i t q H1 Hq) as [F1 F2]. split; [exact F1|]. intros k' i' x' q' Hi Hk' Hx' Hq'.
  destruct (epoch_some o epoch seq_list idxs rs H k' i' x' Hk' Hx') as (t'&H2&->). exact (F2 i' t' q' Hi H2 Hq').
Qed.
Print Assumptions C68_fractions.

(** If the number of sequences is known, then exactly the sequences below it exist. *)
Theorem C68_num_seqs : forall (A R : Type) (o : options A R) epoch seq_list idxs rs n,
  o_stream o = None \/ preserves_num_seqs o = true -> w_num_seqs (o_wrapped o epoch) = Some n ->
  increasing 0 idxs -> epoch_results o epoch seq_list idxs = Ok rs ->
  forall k i, nth_error idxs k = Some i ->
  match nth_error rs k with
  | Some (Ok (Some _)) => i < n
  | Some (Ok None) => n <= i
  | Some (Err _) => True
  | None => False
  end.
Proof.
  intros A R o epoch seq_list idxs rs n Hp Hn HI H k i Hk. pose proof (epoch_any o epoch seq_list idxs rs HI H) as G.
  destruct (nth_error rs k) as [r|] eqn:Hr; [|apply nth_error_None in Hr; apply Forall2_len in G; assert (k < length idxs) by (apply nth_error_Some; congruence); lia].
  pose proof (Forall2_nth _ _ _ k i r G Hk Hr) as Ho. rewrite Hn in Ho.
  assert (E : (match o_stream o with Some _ => if preserves_num_seqs o then Some n else None | None => Some n end) = Some n) by (destruct Hp as [->| ->]; [reflexivity|now destruct (o_stream o)]).
  rewrite E in Ho. destruct r as [[x|]|e]; [exact (proj2 Ho n eq_refl)|exact (Ho n eq_refl)|exact I].
Qed.
Print Assumptions C68_num_seqs.

(** With a given list of tags, the sequences that come have these tags; a stream function cannot be used with one. *)
Theorem C68_seq_list : forall (A R : Type) (o : options A R) epoch l idxs,
  (o_stream o <> None -> epoch_results o epoch (Some l) idxs = Err ValueError) /\
  forall f rs, o_stream o = None -> o_map_seq o = Some f -> epoch_results o epoch (Some l) idxs = Ok rs ->
  forall k i x, nth_error idxs k = Some i -> nth_error rs k = Some (Ok (Some x)) -> d_tag x = nth_error l i.
Proof.
  intros A R o epoch l idxs. split.
  - intros H. unfold epoch_results, init_seq_order. destruct (o_stream o); [reflexivity|congruence].
  - intros f rs Es Em H k i x Hk Hx. destruct (epoch_some o epoch (Some l) idxs rs H k i x Hk Hx) as (t&H1&->). exact (tags_any o epoch (Some l) f l Em Es eq_refl i t H1).
Qed.
Print Assumptions C68_seq_list.

(** Exactly one of the two kinds of function must be given. *)
Theorem C68_construct : forall (A R : Type) (o : options A R),
  construct o = Ok tt <-> (o_map_seq o <> None /\ o_stream o = None /\ o_preserves o = None) \/ (o_map_seq o = None /\ o_stream o <> None).
Proof.
  intros A R o. unfold construct. destruct (o_map_seq o), (o_stream o), (o_preserves o); split; intuition (discriminate || congruence).
Qed.
Print Assumptions C68_construct.

(** "for every dataset" is false: if the wrapped dataset does not know its fractions, then even a [map_seq] that changes nothing
    fails. *)
Theorem C68_unknown_fraction_refuted : forall (A R : Type) (o : options A R) f epoch x seqs,
  o_map_seq o = Some f -> o_stream o = None -> (forall r i t, f r i t = (r, Ok t)) ->
  w_seqs (o_wrapped o epoch) = x :: seqs -> snd x = None ->
  epoch_results o epoch None [0] = Ok [Err TypeError].
Proof.
  intros A R [m st p c sd w] f epoch [[tg dt] fr] seqs Em Es Hf Hs Hx. cbn in Em, Es, Hs, Hx. subst m st fr.
  unfold epoch_results, init_seq_order, collect_all, collect_single_seq, collect_loop, collect_step, iter_next, stream_of. cbn. rewrite Hs. cbn. rewrite Hf. cbn. reflexivity.
Qed.
Print Assumptions C68_unknown_fraction_refuted.

(** ** Examples *)
Definition ex_seqs : list (string * @dict string (list nat) * option Q) :=
  [("seq-0", [("data", [0; 0; 0])], Some (1 # 5)); ("seq-1", [("data", [1])], Some (2 # 5)); ("seq-2", [("data", [2; 2; 2; 2])], Some (3 # 5));
   ("seq-3", [("data", [3])], Some (4 # 5)); ("seq-4", [("data", [4; 4])], Some 1%Q)].
Definition ex_len (d : @dict string (list nat)) : res nat := match dget d "data" with Some l => Ok (length l) | None => Err KeyError end.
Definition ex_laplace := {| m_state := laplace (list nat); m_start := LInit; m_next := laplace_next 3 ex_len; m_preserves := Some true |}.
Definition ex_opts (m : option (map_seq_fun (list nat) nat)) (s : option (mapper (list nat))) : options (list nat) nat :=
  {| o_map_seq := m; o_stream := s; o_preserves := None; o_check := fun _ => Ok tt; o_seed := fun e => 42 + e;
     o_wrapped := fun _ => {| w_seqs := ex_seqs; w_num_seqs := Some 5 |} |}.
Definition ex_show (r : res (option (dataset_seq (list nat)))) := let* x := r in Ok (option_map (fun x => (d_tag x, d_frac x)) x).

(** The order of tests/test_Dataset.py, lines 1122-1151, with bins of 3: up, then down, and the fractions increase. *)
Example C67_example : laplace_ordering 3 ex_len = Ok ex_laplace.
Proof. reflexivity. Qed.
Example C68_laplace_example : (let* rs := epoch_results (ex_opts None (Some ex_laplace)) 1 None [0; 1; 2; 3; 4; 5] in Ok (map ex_show rs)) =
  Ok [Ok (Some (Some "seq-1", Some (1 # 5)%Q)); Ok (Some (Some "seq-0", Some (2 # 5)%Q)); Ok (Some (Some "seq-2", Some (3 # 5)%Q));
      Ok (Some (Some "seq-4", Some (4 # 5)%Q)); Ok (Some (Some "seq-3", Some 1%Q)); Ok None].
Proof. vm_compute. reflexivity. Qed.
Example C68_laplace_hyps : ex_seqs <> [] /\ Forall (fun x => is_ok (ex_len (snd (fst x))) = true /\ snd x <> None) ex_seqs /\ fracs_increase 0 (map snd ex_seqs).
Proof.
  split; [discriminate|]. split; [repeat constructor; discriminate|]. cbn. repeat split; vm_compute; discriminate.
Qed.
(** A random [map_seq]: the generator counts up. A gap in the indices is skipped. *)
Definition ex_map : map_seq_fun (list nat) nat := fun r i t => (S r, Ok {| t_data := [("data", [r; i])]; t_frac := None; t_tag := None |}).
Example C68_map_example : (let* rs := epoch_results (ex_opts (Some ex_map) None) 1 (Some ["seq-0"; "seq-1"; "seq-2"; "seq-3"; "seq-4"]) [1; 3; 7] in Ok rs) =
  Ok [Ok (Some {| d_tag := Some "seq-1"; d_data := [("data", [44; 1])]; d_frac := Some (2 # 5)%Q |});
      Ok (Some {| d_tag := Some "seq-3"; d_data := [("data", [46; 3])]; d_frac := Some (4 # 5)%Q |}); Ok None].
Proof. vm_compute. reflexivity. Qed.
Example C68_mapped_hyps : exists ts, mapped ex_map 43 0 ex_seqs ts /\ acceptable (ex_opts (Some ex_map) None) ts.
Proof.
  eexists. split; [unfold ex_seqs; repeat (eapply mapped_cons; [reflexivity|]); apply mapped_nil|]. split; [repeat constructor; discriminate|].
  cbn. repeat split; vm_compute; discriminate.
Qed.
(** Two Laplace orderings one after the other *)
Example C67_sequential_example :
  let F := fun xs ys => Forall (usable ex_len) xs /\ xs <> [] /\ laplace_ordered 3 (len_of ex_len) xs ys in
  Forall2 computes [ex_laplace; ex_laplace] [F; F].
Proof. intros F. assert (computes ex_laplace F) by (apply (C67_laplace_computes _ 3 ex_len); reflexivity). repeat constructor; assumption. Qed.
