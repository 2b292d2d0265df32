From Coq Require Import String.
From Verif Require Import Base PyDict ListLemmas SeqOrderModel SeqOrderSpec SeqOrderProofs DimModel MapDsModel MapDsSpec.
Local Open Scope nat_scope.

Section P.
Context {D : Type}.
Variable ds : map_ds D.

Lemma tag_fold n t : let d := fold_left (fun d i => dset d (md_tag ds i) i) (seq 0 n) [] in
  match dget d t with
  | Some i => i < n /\ md_tag ds i = t /\ forall j, i < j < n -> md_tag ds j <> t
  | None => forall j, j < n -> md_tag ds j <> t
  end.
Proof.
  cbn zeta. induction n as [|n IH]; [cbn; intros; lia|]. rewrite seq_S, fold_left_app. cbn [fold_left Nat.add]. rewrite dget_dset.
  destruct (keqb (md_tag ds n) t) eqn:E.
  - apply keqb_eq in E. split; [lia|]. split; [exact E|]. intros; lia.
  - apply keqb_neq in E. destruct (dget _ t) as [i|].
    + destruct IH as (H1 & H2 & H3). split; [lia|]. split; [exact H2|]. intros j Hj. destruct (Nat.eq_dec j n) as [->|]; [exact E|apply H3; lia].
    + intros j Hj. destruct (Nat.eq_dec j n) as [->|]; [exact E|apply IH; lia].
Qed.

Lemma mapM_ok {A B} (f : A -> res B) l : (forall x, In x l -> exists y, f x = Ok y) -> exists r, mapM f l = Ok r /\ List.length r = List.length l /\ forall k x, nth_error l k = Some x -> exists y, f x = Ok y /\ nth_error r k = Some y.
Proof.
  induction l as [|a l IH]; intros H; [exists []; split; [reflexivity|split; [reflexivity|]]; intros k x Hx; destruct k; discriminate|].
  destruct (H a (or_introl eq_refl)) as (y & E). destruct IH as (r & Er & El & Hr); [intros x Hx; apply H; right; exact Hx|].
  exists (y :: r). cbn [mapM]. rewrite E, Er. split; [reflexivity|]. split; [cbn; rewrite El; reflexivity|]. intros [|k] x Hx; cbn in Hx; [injection Hx as <-; exists y; split; [exact E|reflexivity]|apply Hr; exact Hx].
Qed.

Lemma mapM_err {A B} (f : A -> res B) l x e : In x l -> f x = Err e -> (forall y e', In y l -> f y = Err e' -> e' = e) -> mapM f l = Err e.
Proof.
  induction l as [|a l IH]; intros Hi E Ha; [destruct Hi|]. cbn [mapM]. destruct (f a) as [b|e'] eqn:Ea.
  - cbn [bind]. destruct Hi as [->|Hi]; [congruence|]. rewrite IH; [reflexivity|exact Hi|exact E|]. intros y e' Hy. apply Ha. right. exact Hy.
  - cbn [bind]. f_equal. apply (Ha a e' (or_introl eq_refl) Ea).
Qed.

Lemma seq_list_ok R py_int cfg epoch l : Forall (has_tag ds) l ->
  exists o, init_seq_order R py_int cfg ds epoch (Some l) None = Ok o /\ List.length o = List.length l /\
    forall k t, nth_error l k = Some t -> exists x, last_with_tag ds t x /\ collect ds (Some o) k = Ok (x, t) /\ get_tag ds (Some o) k = Ok t.
Proof.
  intros Hl. unfold init_seq_order. cbn [assert_ bind].
  destruct (mapM_ok (fun t => match dget (tag_to_idx ds) t with Some i => Ok i | None => Err KeyError end) l) as (o & E & El & Ho).
  { intros t Ht. rewrite Forall_forall in Hl. destruct (Hl t Ht) as (i & Hi & Hti). pose proof (tag_fold (size ds) t) as Hf. cbn zeta in Hf. fold (tag_to_idx ds) in Hf.
    destruct (dget (tag_to_idx ds) t) as [j|]; [eexists; reflexivity|]. exfalso. apply (Hf i Hi Hti). }
  exists o. rewrite E. split; [reflexivity|]. split; [exact El|]. intros k t Ht. destruct (Ho k t Ht) as (i & Hi & Hk).
  pose proof (tag_fold (size ds) t) as Hf. cbn zeta in Hf. fold (tag_to_idx ds) in Hf. destruct (dget (tag_to_idx ds) t) as [j|]; [|discriminate]. injection Hi as ->.
  destruct Hf as (H1 & H2 & H3). destruct (nth_error (md_seqs ds) i) as [x|] eqn:Ex; [|apply nth_error_None in Ex; unfold size in H1; lia].
  exists x. split; [exists i; split; [exact Ex|split; [exact H2|exact H3]]|]. unfold collect, get_tag, get_corpus_seq_idx, pyget. rewrite Hk. cbn [bind]. rewrite Ex. cbn [bind]. rewrite H2. split; reflexivity.
Qed.

Lemma seq_list_unknown R py_int cfg epoch l t : In t l -> ~ has_tag ds t -> init_seq_order R py_int cfg ds epoch (Some l) None = Err KeyError.
Proof.
  intros Ht Hn. unfold init_seq_order. cbn [assert_ bind]. rewrite (mapM_err _ l t KeyError); [reflexivity|exact Ht| |].
  - pose proof (tag_fold (size ds) t) as Hf. cbn zeta in Hf. fold (tag_to_idx ds) in Hf. destruct (dget (tag_to_idx ds) t) as [j|]; [|reflexivity]. exfalso. apply Hn. exists j. split; apply Hf.
  - intros y e' _. destruct (dget (tag_to_idx ds) y); congruence.
Qed.

Lemma read_order o : Forall (fun i => i < List.length (md_seqs ds)) o ->
  exists l, read_all ds o = Ok l /\ List.length l = List.length o /\
    forall k i, nth_error o k = Some i -> exists x, nth_error (md_seqs ds) i = Some x /\ nth_error l k = Some (x, md_tag ds i).
Proof.
  intros Ho. unfold read_all.
  assert (C : forall k i, nth_error o k = Some i -> exists x, nth_error (md_seqs ds) i = Some x /\ collect ds (Some o) k = Ok (x, md_tag ds i)).
  { intros k i Hk. rewrite Forall_forall in Ho. pose proof (Ho i (nth_error_In _ _ Hk)) as Hi. destruct (nth_error (md_seqs ds) i) as [x|] eqn:Ex; [|apply nth_error_None in Ex; lia].
    exists x. split; [reflexivity|]. unfold collect, get_corpus_seq_idx, pyget. rewrite Hk. cbn [bind]. rewrite Ex. reflexivity. }
  destruct (mapM_ok (collect ds (Some o)) (seq 0 (List.length o))) as (l & E & El & Hl).
  { intros k Hk. apply in_seq in Hk. destruct (nth_error o k) as [i|] eqn:Ek; [|apply nth_error_None in Ek; lia]. destruct (C k i Ek) as (x & _ & E). eexists; exact E. }
  exists l. split; [exact E|]. split; [rewrite El, seq_length; reflexivity|]. intros k i Hk. destruct (C k i Hk) as (x & Hx & Ec). exists x. split; [exact Hx|].
  assert (Hlt : k < List.length o) by (apply nth_error_Some; congruence).
  destruct (Hl k k) as (y & Ey & Hy); [rewrite (nth_error_nth' _ 0) by (rewrite seq_length; exact Hlt); rewrite seq_nth by exact Hlt; reflexivity|]. congruence.
Qed.

Lemma read_order_map o d : Forall (fun i => i < List.length (md_seqs ds)) o -> read_all ds o = Ok (map (fun i => nth i (whole ds) d) o).
Proof.
  intros Ho. destruct (read_order o Ho) as (l & E & El & Hl). rewrite E. f_equal. apply nth_error_ext. intros k.
  destruct (nth_error o k) as [i|] eqn:Ek.
  - destruct (Hl k i Ek) as (x & Hx & Hk). rewrite Hk. rewrite (map_nth_error _ _ _ Ek). f_equal. symmetry. apply nth_error_nth.
    assert (Hi : i < List.length (md_seqs ds)) by (apply nth_error_Some; congruence). unfold whole.
    clear - Hx Hi. assert (G : forall (l : list D) (f : nat -> string) a i x, nth_error l i = Some x -> nth_error (combine l (map f (seq a (List.length l)))) i = Some (x, f (a + i))).
    { induction l as [|y l IH]; intros f a j z Hz; [destruct j; discriminate|]. cbn [List.length seq map combine]. destruct j; cbn [nth_error] in *; [injection Hz as ->; rewrite Nat.add_0_r; reflexivity|]. rewrite (IH f (S a) j z Hz). do 3 f_equal. lia. }
    rewrite (G _ _ 0 _ _ Hx). reflexivity.
  - assert (N : nth_error l k = None) by (apply nth_error_None; apply nth_error_None in Ek; lia). rewrite N. symmetry. apply nth_error_None. rewrite map_length. apply nth_error_None. exact Ek.
Qed.

Lemma whole_length : List.length (whole ds) = List.length (md_seqs ds).
Proof. unfold whole. rewrite combine_length, map_length, seq_length. lia. Qed.

Lemma map_nth_seq {A} (l : list A) d : map (fun i => nth i l d) (seq 0 (List.length l)) = l.
Proof.
  apply nth_error_ext. intros k. destruct (Nat.lt_ge_cases k (List.length l)) as [H|H].
  - assert (Hs : nth_error (seq 0 (List.length l)) k = Some k) by (rewrite (nth_error_nth' _ 0) by (rewrite seq_length; exact H); rewrite seq_nth by exact H; reflexivity).
    rewrite (map_nth_error _ _ _ Hs). symmetry. apply nth_error_nth'. exact H.
  - rewrite (proj2 (nth_error_None _ _)) by (rewrite map_length, seq_length; exact H). symmetry. apply nth_error_None. exact H.
Qed.

Lemma read_perm o : Permutation o (seq 0 (List.length (md_seqs ds))) -> exists l, read_all ds o = Ok l /\ Permutation l (whole ds).
Proof.
  intros Hp. assert (Ho : Forall (fun i => i < List.length (md_seqs ds)) o).
  { apply Forall_forall. intros i Hi. apply (Permutation_in _ Hp) in Hi. apply in_seq in Hi. lia. }
  destruct (whole ds) as [|d w] eqn:Ew.
  - pose proof whole_length as Hl. rewrite Ew in Hl. cbn in Hl. rewrite <- Hl in Hp. cbn in Hp. apply Permutation_sym, Permutation_nil in Hp. subst o. exists []. split; [reflexivity|constructor].
  - exists (map (fun i => nth i (whole ds) d) o). split; [apply read_order_map; exact Ho|]. rewrite <- Ew. rewrite (Permutation_map _ Hp). rewrite <- whole_length, map_nth_seq. reflexivity.
Qed.

Lemma replay_ok R py_int cfg epoch o : distinct_tags ds -> Forall (fun i => i < List.length (md_seqs ds)) o ->
  init_seq_order R py_int cfg ds epoch (Some (map (md_tag ds) o)) None = Ok o.
Proof.
  intros Hd Ho. unfold init_seq_order. cbn [assert_ bind].
  assert (E : mapM (fun t => match dget (tag_to_idx ds) t with Some i => Ok i | None => Err KeyError end) (map (md_tag ds) o) = Ok o); [|rewrite E; reflexivity].
  induction o as [|i o IH]; [reflexivity|]. cbn [map mapM]. apply Forall_cons_iff in Ho as [Hi Ho]. rewrite (IH Ho).
  pose proof (tag_fold (size ds) (md_tag ds i)) as Hf. cbn zeta in Hf. fold (tag_to_idx ds) in Hf. destruct (dget (tag_to_idx ds) (md_tag ds i)) as [j|].
  - cbn [bind]. do 2 f_equal. apply Hd; [apply Hf|exact Hi|apply Hf].
  - exfalso. apply (Hf i Hi eq_refl).
Qed.

Lemma get_tags o : mapM (get_tag ds (Some o)) (seq 0 (List.length o)) = Ok (map (md_tag ds) o).
Proof.
  assert (G : forall p o', p ++ o' = o -> mapM (get_tag ds (Some o)) (seq (List.length p) (List.length o')) = Ok (map (md_tag ds) o')).
  { intros p o'. revert p. induction o' as [|i o' IH]; intros p E; [reflexivity|]. cbn [List.length seq mapM map]. unfold get_tag at 1, get_corpus_seq_idx, pyget.
    assert (En : nth_error o (List.length p) = Some i) by (rewrite <- E, nth_error_app2, Nat.sub_diag by lia; reflexivity). rewrite En. cbn [bind].
    specialize (IH (p ++ [i])). rewrite app_length, Nat.add_1_r in IH. rewrite IH; [reflexivity|]. rewrite <- app_assoc. exact E. }
  exact (G [] o eq_refl).
Qed.
End P.
