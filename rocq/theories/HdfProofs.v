(** Proofs about HDF files, part 1: the writer. *)
From Coq Require Import String Ascii Sorting.Sorted.
From Verif Require Import Base PyDict ListLemmas OptimModel OptimProofs HdfModel HdfSpec.
Local Open Scope string_scope.
Local Open Scope nat_scope.
Local Open Scope list_scope.
Local Notation length := List.length.

Lemma mem_str_In x l : mem_str x l = true <-> In x l.
Proof.
  unfold mem_str. rewrite existsb_exists. split.
  - intros (y&Hy&He). apply String.eqb_eq in He. now subst.
  - intros Hx. exists x. split; [exact Hx|apply String.eqb_refl].
Qed.
Lemma mem_str_not x l : mem_str x l = false <-> ~ In x l.
Proof. rewrite <- mem_str_In. destruct (mem_str x l); split; congruence. Qed.

Lemma index_str_spec x l i : index_str x l = Some i -> nth_error l i = Some x /\ ~ In x (firstn i l).
Proof.
  revert i. induction l as [|y l IH]; intros i; cbn [index_str]; [discriminate|].
  destruct (String.eqb x y) eqn:E.
  - apply String.eqb_eq in E. subst. intros [= <-]. split; [reflexivity|]. intros [].
  - destruct (index_str x l) as [j|] eqn:Ej; [|discriminate]. intros [= <-]. destruct (IH j eq_refl) as [H1 H2].
    split; [exact H1|]. cbn. intros [Hy|Hi]; [|exact (H2 Hi)]. subst. now rewrite String.eqb_refl in E.
Qed.
Lemma index_str_In x l : In x l -> exists i, index_str x l = Some i.
Proof.
  induction l as [|y l IH]; [intros []|]. intros Hx. cbn [index_str]. destruct (String.eqb x y) eqn:E; [eauto|].
  destruct Hx as [->|Hx]; [now rewrite String.eqb_refl in E|]. destruct (IH Hx) as (i&->). eauto.
Qed.

Lemma set_nth_app {T} (l r : list T) x y : set_nth (l ++ x :: r) (length l) y = Ok (l ++ y :: r).
Proof. induction l as [|z l IH]; cbn; [reflexivity|]. now rewrite IH. Qed.
Lemma set_nth_spec {T} (l l' : list T) i y : set_nth l i y = Ok l' ->
  exists a x b, l = a ++ x :: b /\ l' = a ++ y :: b /\ length a = i.
Proof.
  revert i l'. induction l as [|z l IH]; intros i l'; cbn [set_nth]; [discriminate|]. destruct i as [|i].
  - intros HH. apply Ok_inj in HH. subst. now exists [], z, l.
  - intros HH. apply bind_Ok in HH. destruct HH as (l2&H2&HH). apply Ok_inj in HH. subst.
    destruct (IH _ _ H2) as (a&x&b&->&->&<-). now exists (z :: a), x, b.
Qed.
Lemma set_nth_total {T} (l : list T) i y : i < length l -> exists l', set_nth l i y = Ok l'.
Proof.
  revert i. induction l as [|z l IH]; cbn; intros i Hi; [lia|]. destruct i as [|i]; [eauto|].
  destruct (IH i) as (l'&->); [lia|]. cbn. eauto.
Qed.
Lemma set_nth_len {T} (l l' : list T) i y : set_nth l i y = Ok l' -> length l' = length l.
Proof. intros H. apply set_nth_spec in H. destruct H as (a&x&b&->&->&_). rewrite !app_length. reflexivity. Qed.
Lemma set_nth_nth {T} (l l' : list T) i y : set_nth l i y = Ok l' ->
  forall j, nth_error l' j = if j =? i then Some y else nth_error l j.
Proof.
  intros H j. apply set_nth_spec in H. destruct H as (a&x&b&->&->&<-).
  destruct (Nat.eqb_spec j (length a)) as [->|Hj].
  - rewrite nth_error_app2, Nat.sub_diag by lia. reflexivity.
  - destruct (Nat.lt_ge_cases j (length a)); [now rewrite !nth_error_app1 by lia|]. rewrite !nth_error_app2 by lia.
    destruct (j - length a) eqn:E; [lia|]. reflexivity.
Qed.

Lemma app_tail_eq {T} (a b c d : list T) x y : a ++ x :: b = c ++ y :: d -> length a = length c -> a = c /\ x = y /\ b = d.
Proof.
  revert c. induction a as [|z a IH]; intros [|w c]; cbn; try discriminate; intros H1 H2.
  - now injection H1.
  - injection H1 as -> H1. injection H2 as H2. destruct (IH c H1 H2) as (->&->&->). easy.
Qed.

Lemma repeat_S {T} (x : T) n : repeat x (S n) = x :: repeat x n.
Proof. reflexivity. Qed.

Lemma resize_grow {T} (z : T) l n : resize z l (length l + n) = l ++ repeat z n.
Proof. unfold resize. rewrite firstn_all2 by lia. f_equal. f_equal. lia. Qed.

Lemma assign_end {T} (l raw : list T) (z : T) : assign_from (l ++ repeat z (length raw)) (length l) raw = Ok (l ++ raw).
Proof.
  unfold assign_from. rewrite app_length, repeat_length.
  replace (length l + length raw - length l) with (length raw) by lia. rewrite Nat.eqb_refl.
  now rewrite firstn_app, firstn_all, Nat.sub_diag, app_nil_r.
Qed.

Section W.
Context {A : Type} (zero : A) (of_size : nat -> A).
Notation hseq := (@hseq A).
Notation hfile := (@hfile A).
Notation writer := (@writer A).
Notation nd := (@nd A).

(** *** arrays *)
Lemma nd_frames_axis xs : nd_frames (Axis xs) = flat_map (@nd_frames A) xs.
Proof. cbn [nd_frames]. induction xs as [|x xs IH]; [reflexivity|]. cbn [flat_map]. now rewrite <- IH. Qed.

Lemma nd_frames_slice lens : forall dims (x : nd), has_shape dims x -> length lens = length dims ->
  nd_frames (nd_slice lens x) = frames_under lens x.
Proof.
  induction lens as [|l lens IH]; intros [|d dims] x Hx Hl; try discriminate.
  - destruct x; [reflexivity|destruct Hx].
  - destruct x as [|xs]; [destruct Hx|]. cbn [nd_slice frames_under]. rewrite nd_frames_axis. destruct Hx as [_ Hx].
    rewrite flat_map_concat_map, flat_map_concat_map, map_map. f_equal. apply map_ext_in. intros y Hy.
    apply IH with dims; [|now injection Hl]. exact (proj1 (Forall_forall _ _) Hx y (In_firstn _ _ _ Hy)).
Qed.

Lemma frames_under_len lens : forall dims (x : nd), has_shape dims x -> Forall2 le lens dims ->
  length (frames_under lens x) = prod lens.
Proof.
  induction lens as [|l lens IH]; intros dims x Hx Hl; inversion Hl as [|? d ? dims' Hle Hl']; subst.
  - destruct x; [reflexivity|destruct Hx].
  - destruct x as [|xs]; [destruct Hx|]. destruct Hx as [Hd Hx]. cbn [frames_under]. rewrite flat_map_concat_map.
    change (prod (l :: lens)) with (l * prod lens).
    assert (G : forall ys : list nd, Forall (has_shape dims') ys -> length (concat (map (frames_under lens) ys)) = length ys * prod lens).
    { induction 1 as [|y ys Hy Hys IHy]; [reflexivity|]. cbn [map concat]. rewrite app_length, IHy, (IH dims' y Hy Hl').
      cbn [length]. lia. }
    rewrite G by (apply Forall_forall; intros y Hy; exact (proj1 (Forall_forall _ _) Hx y (In_firstn _ _ _ Hy))).
    rewrite firstn_length, Hd. f_equal. lia.
Qed.

(** *** the state of the writer *)
Definition add_extra (s : hseq) (k : string) (l : list A) : hseq :=
  {| q_tag := q_tag s; q_data := q_data s; q_extra := q_extra s ++ [(k, l)] |}.

Lemma dget_app (d : @dict string (list A)) k l k' : ~ In k (dkeys d) ->
  dget (d ++ [(k, l)]) k' = if String.eqb k k' then Some l else dget d k'.
Proof.
  induction d as [|(a, v) d IH]; intros Hn.
  - cbn. destruct (String.eqb k k'); reflexivity.
  - cbn [app dget]. change (keqb a k') with (String.eqb a k'). destruct (String.eqb a k') eqn:E.
    + apply String.eqb_eq in E. subst a. destruct (String.eqb k k') eqn:E2; [|reflexivity].
      apply String.eqb_eq in E2. subst. exfalso. apply Hn. now left.
    + rewrite IH; [reflexivity|]. intros Hi. apply Hn. now right.
Qed.
Lemma target_add (s : hseq) k l k' : ~ In k (dkeys (q_extra s)) ->
  target (add_extra s k l) k' = if String.eqb k k' then l else target s k'.
Proof. intros Hn. unfold target, add_extra; cbn [q_extra]. rewrite dget_app by exact Hn. now destruct (String.eqb k k'). Qed.
Lemma target_None (s : hseq) k : ~ In k (dkeys (q_extra s)) -> target s k = [].
Proof. intros Hn. unfold target. apply dget_None in Hn. now rewrite Hn. Qed.

Definition cols (K : list string) : nat := match K with [] => 2 | _ => S (length K) end.
Definition row (K : list string) (s : hseq) : list nat :=
  length (q_data s) :: match K with [] => [0] | _ => map (fun k => length (target s k)) (sort_names K) end.

Lemma sort_names_len l : length (sort_names l) = length l.
Proof. apply Permutation_length, sort_names_perm. Qed.
Lemma sort_names_nil l : sort_names l = [] -> l = [].
Proof. intros H. apply length_zero_iff_nil. rewrite <- sort_names_len, H. reflexivity. Qed.
Lemma sort_names_In k l : In k (sort_names l) <-> In k l.
Proof. split; apply Permutation_in; [apply sort_names_perm|apply Permutation_sym, sort_names_perm]. Qed.

Lemma slt_irrefl x : ~ slt x x.
Proof. rewrite slt_spec. intros H. pose proof (String.compare_antisym x x) as E. rewrite H in E. discriminate. Qed.
Lemma slt_sorted_unique (l1 l2 : list string) : StronglySorted slt l1 -> StronglySorted slt l2 ->
  (forall x, In x l1 <-> In x l2) -> l1 = l2.
Proof.
  intros H1. revert l2. induction H1 as [|x l1 H1 IH F1]; intros l2 H2 He.
  - destruct l2 as [|y l2]; [reflexivity|]. exfalso. apply (He y). now left.
  - destruct H2 as [|y l2 H2 F2]; [exfalso; apply (He x); now left|].
    assert (x = y).
    { destruct (proj1 (He x)) as [E|Hx]; [now left|now symmetry|]. destruct (proj2 (He y)) as [E|Hy]; [now left|exact E|].
      pose proof (proj1 (Forall_forall _ _) F2 x Hx) as L1. pose proof (proj1 (Forall_forall _ _) F1 y Hy) as L2.
      exfalso. exact (slt_irrefl x (slt_trans _ _ _ L2 L1)). }
    subst y. f_equal. apply IH; [exact H2|]. intros z. split; intros Hz.
    + destruct (proj1 (He z)) as [E|Hz2]; [now right| |exact Hz2]. subst z. exfalso. exact (slt_irrefl _ (proj1 (Forall_forall _ _) F1 _ Hz)).
    + destruct (proj2 (He z)) as [E|Hz2]; [now right| |exact Hz2]. subst z. exfalso. exact (slt_irrefl _ (proj1 (Forall_forall _ _) F2 _ Hz)).
Qed.
Lemma sort_names_same l1 l2 : NoDup l1 -> NoDup l2 -> (forall x, In x l1 <-> In x l2) -> sort_names l1 = sort_names l2.
Proof.
  intros N1 N2 H. apply slt_sorted_unique; [now apply sort_names_sorted|now apply sort_names_sorted|].
  intros x. rewrite !sort_names_In. apply H.
Qed.

Record inv (w : writer) (K : list string) (S : list hseq) (p : nat) : Prop := {
  i_seqs : f_seqs (w_file w) = length S;
  i_steps : f_steps (w_file w) = length (flat_map q_data S);
  i_inputs : match S with
             | [] => f_inputs (w_file w) = None
             | _ => exists kind, f_inputs (w_file w) = Some (flat_map q_data S, kind) /\ 0 < fst kind
             end;
  i_lens : f_lens (w_file w) = map (row K) S ++ repeat (repeat 0 (cols K)) p;
  i_cols : f_cols (w_file w) = cols K;
  i_tags : f_tags (w_file w) = map q_tag S ++ repeat "" p;
  i_nodup : NoDup K;
  i_data : match f_data (w_file w) with
           | None => K = []
           | Some d => K <> [] /\ dkeys d = K /\ forall k, In k K -> dget d k = Some (flat_map (fun s => target s k) S)
           end;
  i_prep : Permutation (w_prepared w) K \/ (w_extend w = true /\ w_prepared w = [] /\ length K = 1);
  i_wsteps : forall k, In k (w_prepared w) -> dget (w_steps w) k = Some (length (flat_map (fun s => target s k) S));
  i_sizes : forall k, In k (dkeys (f_sizes (w_file w))) <-> In k K;
  i_keys : forall s, In s S -> incl (dkeys (q_extra s)) K
}.

Lemma row_len K s : length (row K s) = cols K.
Proof. unfold row, cols. cbn [length]. destruct K; [reflexivity|]. now rewrite map_length, sort_names_len. Qed.

Lemma reinit_spec : forall keys (f : hfile) steps i j f', reinit_lens f steps i j keys = Ok f' ->
  forall before h pre rest after, f_lens f = before ++ (h :: pre ++ rest) :: after -> length before = i -> length pre = j ->
  length rest = length keys ->
  exists vs, mapM (fun k => match dget steps k with Some n => Ok n | None => Err KeyError end) keys = Ok vs
    /\ f' = with_lens f (before ++ (h :: pre ++ vs) :: after) (f_cols f).
Proof.
  induction keys as [|k keys IH]; intros f steps i j f' H before h pre rest after Hf Hb Hp Hr.
  - cbn in H. apply Ok_inj in H. subst f'. exists []. split; [reflexivity|]. destruct rest; [|discriminate].
    rewrite <- Hf. destruct f; reflexivity.
  - cbn [reinit_lens] in H. destruct (dget steps k) as [n|] eqn:En; [|discriminate].
    apply bind_Ok in H. destruct H as (f1&H1&H). destruct rest as [|r rest]; [discriminate|].
    unfold set_len in H1. rewrite Hf in H1. unfold pyget in H1. rewrite nth_error_app2, Hb, Nat.sub_diag in H1 by lia.
    cbn [nth_error bind] in H1. change (h :: pre ++ r :: rest) with ((h :: pre) ++ r :: rest) in H1.
    replace (Datatypes.S j) with (length (h :: pre)) in H1 by (cbn; lia). rewrite set_nth_app in H1. cbn [bind] in H1.
    rewrite <- Hb, set_nth_app in H1. cbn [bind] in H1. apply Ok_inj in H1. subst f1.
    destruct (IH _ steps i (Datatypes.S j) f' H before h (pre ++ [n]) rest after) as (vs&Hvs&->).
    + cbn [f_lens with_lens]. now rewrite <- app_assoc.
    + exact Hb.
    + rewrite app_length. cbn. lia.
    + now injection Hr.
    + exists (n :: vs). cbn [mapM]. rewrite En. cbn [bind]. rewrite Hvs. cbn [bind]. split; [reflexivity|].
      rewrite <- app_assoc. reflexivity.
Qed.

Lemma mapM_steps (steps : @dict string nat) (g : string -> nat) keys vs :
  (forall k, In k keys -> dget steps k = Some (g k)) ->
  mapM (fun k => match dget steps k with Some n => Ok n | None => Err KeyError end) keys = Ok vs -> vs = map g keys.
Proof.
  intros Hg H. rewrite (mapM_ok_map _ g) in H; [now apply Ok_inj in H|]. intros k Hk. now rewrite (Hg k Hk).
Qed.

(** the cell of a key in its row *)
Lemma row_set K (s : hseq) key raw idx v : NoDup K -> K <> [] -> ~ In key (dkeys (q_extra s)) ->
  index_str key (sort_names K) = Some idx -> v = length raw ->
  forall r c, length r = idx -> map (fun k => length (target s k)) (sort_names K) = r ++ c :: skipn (Datatypes.S idx) (map (fun k => length (target s k)) (sort_names K)) ->
  row K (add_extra s key raw) = length (q_data s) :: r ++ v :: skipn (Datatypes.S idx) (map (fun k => length (target s k)) (sort_names K)).
Proof.
  intros Nd NK Hn Hi -> r c Hr He. unfold row. cbn [q_data add_extra]. f_equal. destruct K as [|k0 K]; [easy|].
  set (L := sort_names (k0 :: K)) in *. assert (NL : NoDup L).
  { eapply Permutation_NoDup; [apply Permutation_sym, sort_names_perm|exact Nd]. }
  destruct (index_str_spec _ _ _ Hi) as [Hnth Hbefore]. clearbody L. clear NK Nd.
  assert (EL : L = firstn idx L ++ key :: skipn (Datatypes.S idx) L).
  { clear - Hnth. revert idx Hnth. induction L as [|x L IH]; intros [|i]; cbn; try discriminate.
    - intros [= ->]. reflexivity.
    - intros H. f_equal. now apply IH. }
  assert (Hlen : length (firstn idx L) = idx).
  { rewrite firstn_length. assert (idx < length L) by (apply nth_error_Some; congruence). lia. }
  assert (Hr2 : r = map (fun k => length (target s k)) (firstn idx L)).
  { rewrite EL in He at 1. rewrite map_app in He. cbn [map] in He.
    destruct (app_tail_eq _ _ _ _ _ _ He) as (E&_); [rewrite map_length; lia|]. now symmetry. }
  subst r. rewrite skipn_map. rewrite EL at 1. rewrite map_app. cbn [map]. f_equal; [|f_equal].
  - apply map_ext_in. intros k Hk. rewrite target_add by exact Hn. destruct (String.eqb key k) eqn:E; [|reflexivity].
    apply String.eqb_eq in E. subst. easy.
  - rewrite target_add by exact Hn. now rewrite String.eqb_refl.
  - apply map_ext_in. intros k Hk. rewrite target_add by exact Hn. destruct (String.eqb key k) eqn:E; [|reflexivity].
    apply String.eqb_eq in E. subst. exfalso. rewrite EL in NL. apply NoDup_remove_2 in NL. apply NL. apply in_or_app. now right.
Qed.

(** before the frames of [key] are written: only the cell of [key] may be wrong *)
Definition almost_row (K : list string) (key : string) (s : hseq) (r : list nat) : Prop :=
  exists idx a x b c, index_str key (sort_names K) = Some idx /\ map (fun k => length (target s k)) (sort_names K) = a ++ x :: b
    /\ length a = idx /\ r = length (q_data s) :: a ++ c :: b.

Lemma almost_self K key s : K <> [] -> In key K -> almost_row K key s (row K s).
Proof.
  intros NK Hk. apply sort_names_In in Hk. destruct (index_str_In _ _ Hk) as (idx&Hi). destruct (index_str_spec _ _ _ Hi) as [Hn _].
  set (L := map (fun k => length (target s k)) (sort_names K)).
  assert (Hx : nth_error L idx = Some (length (target s key))) by (unfold L; now rewrite nth_error_map, Hn).
  destruct (nth_error_split _ _ Hx) as (a&b&He&Ha). exists idx, a, (length (target s key)), b, (length (target s key)).
  repeat split; [exact Hi|exact He|exact Ha|]. unfold row. destruct K; [easy|]. now rewrite <- He.
Qed.

Definition ready (w : writer) (K : list string) (S : list hseq) (s : hseq) (p : nat) (key : string) : Prop :=
  exists r, f_lens (w_file w) = map (row K) S ++ r :: repeat (repeat 0 (cols K)) p /\ almost_row K key s r
  /\ In key K /\ Permutation (w_prepared w) K
  /\ inv (with_file w (with_lens (w_file w) (map (row K) (S ++ [s]) ++ repeat (repeat 0 (cols K)) p) (f_cols (w_file w)))) K (S ++ [s]) p.

Lemma perm_nonempty {T} (l : list T) x K : In x l -> Permutation l K -> K <> [].
Proof. intros Hx Hp ->. apply Permutation_sym, Permutation_nil in Hp. subst. destruct Hx. Qed.

Lemma inv_same_lens (w : writer) K S p : inv w K S p ->
  inv (with_file w (with_lens (w_file w) (map (row K) S ++ repeat (repeat 0 (cols K)) p) (f_cols (w_file w)))) K S p.
Proof. intros I. destruct I. constructor; assumption || reflexivity. Qed.
Lemma inv_unlens (w : writer) K S p : 
  inv (with_file w (with_lens (w_file w) (map (row K) S ++ repeat (repeat 0 (cols K)) p) (f_cols (w_file w)))) K S p ->
  f_lens (w_file w) = map (row K) S ++ repeat (repeat 0 (cols K)) p -> inv w K S p.
Proof. intros I E. destruct I. constructor; assumption. Qed.

Lemma dget_dset_str {V} (d : @dict string V) k v k' : dget (dset d k v) k' = if String.eqb k k' then Some v else dget d k'.
Proof. exact (dget_dset d k v k'). Qed.
Lemma dkeys_dset_new {V} (d : @dict string V) k v : ~ In k (dkeys d) -> dkeys (dset d k v) = dkeys d ++ [k].
Proof. intros H. rewrite dkeys_dset. unfold dhas. apply dget_None in H. now rewrite H. Qed.
Lemma dkeys_dset_old {V} (d : @dict string V) k v : In k (dkeys d) -> dkeys (dset d k v) = dkeys d.
Proof. intros H. rewrite dkeys_dset. unfold dhas. apply dget_keys in H. now destruct (dget d k). Qed.

(** what [_prepare_extra] and the loop after it do *)
Lemma prepare_ready w K S s p key dim ndim w1 added w2 :
  inv w K (S ++ [s]) p -> ~ In key (dkeys (q_extra s)) ->
  prepare_extra w [(key, (Some dim, ndim))] [] = Ok (w1, added) ->
  (if added then
     let* _ := assert_ ((length S =? 0) || w_extend w1) in
     let* f := reinit_lens (w_file w1) (w_steps w1) (length S) 0 (sort_names (w_prepared w1)) in
     Ok (with_file w1 f)
   else Ok w1) = Ok w2 ->
  exists K', ready w2 K' S s p key /\ (K' = K \/ K' = K ++ [key] /\ w_extend w = false) /\ w_extend w2 = w_extend w
    /\ w_dim w2 = w_dim w /\ w_ndim w2 = w_ndim w.
Proof.
  intros I Hkey HP H2. unfold prepare_extra in HP. cbn [prepare_loop] in HP.
  apply bind_Ok in HP. destruct HP as ([w' n]&HP&HA). apply bind_Ok in HP. destruct HP as (u&_&HP).
  destruct (mem_str key (w_prepared w)) eqn:Em.
  - (* known *)
    apply Ok_inj in HP. injection HP as <- <-. apply Ok_inj in HA. injection HA as <- <-. apply Ok_inj in H2. subst w2.
    apply mem_str_In in Em. exists K. split; [|now auto].
    destruct (i_prep _ _ _ _ I) as [Hperm|(_&E&_)]; [|rewrite E in Em; destruct Em].
    assert (NK := perm_nonempty _ _ _ Em Hperm). assert (HK : In key K) by (eapply Permutation_in; eauto).
    exists (row K s). split; [rewrite (i_lens _ _ _ _ I), map_app; cbn; now rewrite <- app_assoc|].
    split; [now apply almost_self|]. split; [exact HK|]. split; [exact Hperm|]. now apply inv_same_lens.
  - apply bind_Ok in HP. destruct HP as (w0&HO&HP). apply Ok_inj in HP. injection HP as -> <-.
    apply mem_str_not in Em. unfold prepare_one in HO. cbn [dget bind] in HO.
    destruct (w_extend w) eqn:Ee.
    + (* extending *)
      destruct (f_data (w_file w)) as [d|] eqn:Ed; [|discriminate]. destruct (dget d key) as [frames|] eqn:Eg; [|discriminate].
      pose proof (i_data _ _ _ _ I) as HD. rewrite Ed in HD. destruct HD as (NK&Dk&Dg).
      assert (HK : In key K) by (rewrite <- Dk; apply dget_keys; congruence).
      destruct (i_prep _ _ _ _ I) as [Hperm|(_&Ep&El)].
      { exfalso. apply Em. exact (Permutation_in _ (Permutation_sym Hperm) HK). }
      destruct K as [|k [|? ?]]; try discriminate. destruct HK as [->|[]].
      apply Ok_inj in HO. subst w'. cbn [Nat.ltb Nat.leb w_extend negb andb] in HA. apply Ok_inj in HA. injection HA as <- <-.
      cbn [w_extend] in H2. apply bind_Ok in H2. destruct H2 as (u2&_&H2). apply bind_Ok in H2. destruct H2 as (f'&HR&H2).
      apply Ok_inj in H2. subst w2. cbn [w_file w_steps w_prepared] in HR. rewrite Ep in HR. cbn [app] in HR.
      exists [key]. split; [|cbn; auto].
      pose proof (i_lens _ _ _ _ I) as HL. rewrite map_app in HL. cbn [map] in HL. rewrite <- app_assoc in HL. cbn [app] in HL.
      destruct (reinit_spec _ _ _ _ _ _ HR (map (row [key]) S) (length (q_data s)) [] (map (fun k => length (target s k)) (sort_names [key])) (repeat (repeat 0 (cols [key])) p)) as (vs&Hvs&->).
      * cbn [f_lens]. exact HL.
      * apply map_length.
      * reflexivity.
      * now rewrite map_length.
      * cbn [sort_names insert_name mapM dget] in Hvs. rewrite dget_dset_str, String.eqb_refl in Hvs. cbn [bind] in Hvs.
        apply Ok_inj in Hvs. subst vs.
        eexists. split; [reflexivity|]. split.
        { exists 0, [], (length (target s key)), [], (length frames). cbn [sort_names insert_name index_str]. rewrite String.eqb_refl. repeat split. }
        split; [now left|]. split; [cbn; rewrite Ep; reflexivity|].
        destruct I. constructor; cbn [w_file with_file with_lens f_seqs f_steps f_inputs f_lens f_cols f_tags f_data f_sizes w_prepared w_steps w_extend]; try assumption.
        -- reflexivity.
        -- auto.
        -- left. rewrite Ep. reflexivity.
        -- rewrite Ep. intros k [<-|[]]. rewrite dget_dset_str, String.eqb_refl. rewrite (Dg key) in Eg by now left.
           injection Eg as <-. reflexivity.
    + (* new key *)
      destruct (i_prep _ _ _ _ I) as [Hperm|(E&_)]; [|congruence].
      apply Ok_inj in HO. subst w'. cbn [Nat.ltb Nat.leb w_extend negb andb] in HA. apply Ok_inj in HA. injection HA as <- <-.
      cbn [w_extend with_file] in H2. apply bind_Ok in H2. destruct H2 as (u2&HS&H2). apply bind_Ok in H2. destruct H2 as (f'&HR&H2).
      apply Ok_inj in H2. subst w2. apply assert_Ok in HS. rewrite orb_false_r in HS. apply Nat.eqb_eq in HS. apply length_zero_iff_nil in HS. subst S.
      cbn [app] in *.
      assert (HnK : ~ In key K) by (intros Hi; apply Em; exact (Permutation_in _ (Permutation_sym Hperm) Hi)).
      set (K' := K ++ [key]). assert (Nd' : NoDup K').
      { apply NoDup_app_intro2; [apply (i_nodup _ _ _ _ I)|repeat constructor; auto|]. intros x Hx [<-|[]]. easy. }
      assert (NK' : K' <> []) by (unfold K'; destruct K; discriminate).
      assert (EP : sort_names (w_prepared w ++ [key]) = sort_names K').
      { apply sort_names_same; [|exact Nd'|].
        - eapply Permutation_NoDup; [|exact Nd']. apply Permutation_sym, Permutation_app; [exact Hperm|reflexivity].
        - intros x. unfold K'. rewrite !in_app_iff. rewrite (Permutation_in' eq_refl Hperm). tauto. }
      cbn [w_file w_steps w_prepared resize_cols with_file with_lens f_lens f_cols] in HR. rewrite EP in HR.
      assert (Ecols : Datatypes.S (length (w_prepared w ++ [key])) = cols K').
      { unfold cols. destruct K' eqn:E; [easy|]. rewrite <- E. unfold K'. rewrite !app_length, (Permutation_length Hperm). reflexivity. }
      pose proof (i_lens _ _ _ _ I) as HL. cbn [map app] in HL.
      assert (Hcle : cols K <= cols K').
      { unfold K', cols. destruct K as [|k0 K0]; [cbn; lia|]. cbn [app length]. rewrite app_length. cbn. lia. }
      assert (Hres : map (fun r => resize 0 r (Datatypes.S (length (w_prepared w ++ [key])))) (f_lens (w_file w))
        = (length (q_data s) :: resize 0 (tl (row K s)) (length K')) :: repeat (repeat 0 (cols K')) p).
      { rewrite HL, Ecols. cbn [map]. f_equal.
        - unfold row. cbn [tl]. assert (Ec : cols K' = Datatypes.S (length K')) by (unfold cols; now destruct K'). rewrite Ec. unfold resize. cbn [firstn length Nat.sub app]. reflexivity.
        - clear - Hcle. induction p as [|p IH]; [reflexivity|]. cbn [repeat map]. rewrite IH. f_equal. unfold resize.
          rewrite firstn_all2 by (rewrite repeat_length; lia). rewrite repeat_length, <- repeat_app. f_equal. lia. }
      unfold resize_cols in HR; cbn [f_lens] in HR; rewrite Hres in HR.
      destruct (reinit_spec _ _ _ _ _ _ HR [] (length (q_data s)) [] (resize 0 (tl (row K s)) (length K')) (repeat (repeat 0 (cols K')) p)) as (vs&Hvs&->).
      * reflexivity.
      * reflexivity.
      * reflexivity.
      * rewrite sort_names_len. unfold resize. rewrite app_length, repeat_length, firstn_length. lia.
      * assert (Ht : target s key = []) by now apply target_None.
        apply (mapM_steps _ (fun k => length (target s k))) in Hvs.
        2:{ intros k Hk. rewrite dget_dset_str. destruct (String.eqb key k) eqn:E.
            - apply String.eqb_eq in E. subst k. now rewrite Ht.
            - rewrite sort_names_In in Hk. unfold K' in Hk. apply in_app_iff in Hk. destruct Hk as [Hk|[->|[]]]; [|now rewrite String.eqb_refl in E].
              rewrite (i_wsteps _ _ _ _ I) by exact (Permutation_in _ (Permutation_sym Hperm) Hk). cbn [flat_map]. now rewrite app_nil_r. }
        subst vs. exists K'. split; [|cbn; auto].
        assert (Erow : length (q_data s) :: map (fun k => length (target s k)) (sort_names K') = row K' s) by (unfold row; now destruct K').
        exists (row K' s). split; [cbn [w_file with_file with_lens f_lens app map]; now rewrite Erow|].
        split; [apply almost_self; [exact NK'|unfold K'; apply in_or_app; right; now left]|].
        split; [unfold K'; apply in_or_app; right; now left|]. split; [cbn; now apply Permutation_app|].
        destruct I. constructor; cbn [w_file with_file with_lens f_seqs f_steps f_inputs f_lens f_cols f_tags f_data f_sizes w_prepared w_steps w_extend app]; try assumption.
        -- reflexivity.
        -- split; [exact NK'|]. destruct (f_data (w_file w)) as [d|] eqn:Ed.
           ++ destruct i_data0 as (NK&Dk&Dg). split.
              ** rewrite dkeys_dset_new; [now rewrite Dk|]. now rewrite Dk.
              ** intros k Hk. rewrite dget_dset_str. destruct (String.eqb key k) eqn:E.
                 { apply String.eqb_eq in E. subst. cbn. now rewrite Ht. }
                 unfold K' in Hk. apply in_app_iff in Hk. destruct Hk as [Hk|[->|[]]]; [now apply Dg|now rewrite String.eqb_refl in E].
           ++ subst K. split; [reflexivity|]. intros k [<-|[]]. cbn. rewrite String.eqb_refl. now rewrite Ht.
        -- left. now apply Permutation_app.
        -- intros k Hk. rewrite dget_dset_str. destruct (String.eqb key k) eqn:E.
           ++ apply String.eqb_eq in E. subst. cbn. now rewrite Ht.
           ++ apply i_wsteps0. apply in_app_iff in Hk. destruct Hk as [Hk|[->|[]]]; [exact Hk|now rewrite String.eqb_refl in E].
        -- intros k. unfold K'. rewrite in_app_iff, <- i_sizes0, <- !dget_keys, dget_dset_str. destruct (String.eqb key k) eqn:E.
           ++ apply String.eqb_eq in E. subst. split; [intros _; right; now left|discriminate].
           ++ split; [now left|]. intros [Hk|[->|[]]]; [exact Hk|now rewrite String.eqb_refl in E].
        -- intros s' Hs' x Hx. unfold K'. apply in_or_app. left. exact (i_keys0 s' Hs' x Hx).
Qed.

Lemma flat_map_snoc {T U} (f : T -> list U) l x : flat_map f (l ++ [x]) = flat_map f l ++ f x.
Proof. rewrite flat_map_app. cbn. now rewrite app_nil_r. Qed.

Lemma ready_finish w K S s p key raw w' : ready w K S s p key -> ~ In key (dkeys (q_extra s)) ->
  match dget (w_steps w) key, f_data (w_file w), index_str key (sort_names (w_prepared w)) with
  | Some old, Some d, Some idx =>
      match dget d key with
      | None => Err KeyError
      | Some frames =>
          let steps := old + length raw in
          let frames := resize zero frames steps in
          let* f := set_len (w_file w) (length S) (Datatypes.S idx) (length raw) in
          let* frames := assign_from frames (steps - length raw) raw in
          Ok {| w_dim := w_dim w; w_ndim := w_ndim w; w_extend := w_extend w;
                w_file := {| f_inputs := f_inputs f; f_data := Some (dset d key frames); f_sizes := f_sizes f;
                             f_labels := f_labels f; f_tlabels := f_tlabels f; f_lens := f_lens f; f_cols := f_cols f;
                             f_tags := f_tags f; f_steps := f_steps f; f_seqs := f_seqs f |};
                w_steps := dset (w_steps w) key steps; w_prepared := w_prepared w |}
      end
  | _, _, _ => Err KeyError
  end = Ok w' ->
  inv w' K (S ++ [add_extra s key raw]) p /\ w_extend w' = w_extend w /\ w_dim w' = w_dim w /\ w_ndim w' = w_ndim w
  /\ w_prepared w' = w_prepared w.
Proof.
  intros (r&HL&(idx&a&x&b&c&Hidx&Hab&Ha&Hr)&HK&Hperm&I) Hn H.
  pose proof (i_data _ _ _ _ I) as HD. cbn [with_file with_lens w_file f_data] in HD.
  assert (EP : sort_names (w_prepared w) = sort_names K).
  { apply sort_names_same; [|apply (i_nodup _ _ _ _ I)|intros y; apply (Permutation_in' eq_refl Hperm)].
    eapply Permutation_NoDup; [apply Permutation_sym, Hperm|apply (i_nodup _ _ _ _ I)]. }
  rewrite EP, Hidx in H.
  destruct (f_data (w_file w)) as [d|] eqn:Ed; [|subst K; destruct HK]. destruct HD as (NK&Dk&Dg).
  pose proof (i_wsteps _ _ _ _ I key (Permutation_in _ (Permutation_sym Hperm) HK)) as Hst. cbn [with_file w_steps] in Hst.
  rewrite Hst in H. rewrite (Dg key HK) in H.
  set (old := flat_map (fun s => target s key) (S ++ [s])) in *. cbv zeta in H.
  rewrite (resize_grow zero old (length raw)) in H.
  replace (length old + length raw - length raw) with (length old) in H by lia. rewrite assign_end in H.
  assert (Eold : flat_map (fun s => target s key) (S ++ [add_extra s key raw]) = old ++ raw).
  { unfold old. rewrite !flat_map_app. cbn [flat_map]. rewrite !app_nil_r, target_add by exact Hn. rewrite String.eqb_refl.
    rewrite (target_None s key Hn), app_nil_r. reflexivity. }
  assert (Eoth : forall k, k <> key -> flat_map (fun s => target s k) (S ++ [add_extra s key raw]) = flat_map (fun s => target s k) (S ++ [s])).
  { intros k Hk. rewrite !flat_map_app. cbn [flat_map]. rewrite !app_nil_r, target_add by exact Hn. destruct (String.eqb key k) eqn:E; [|reflexivity].
    apply String.eqb_eq in E. congruence. }
  assert (Erow : row K (add_extra s key raw) = length (q_data s) :: a ++ length raw :: b).
  { assert (Eb : b = skipn (Datatypes.S idx) (map (fun k => length (target s k)) (sort_names K))).
    { rewrite Hab, <- Ha. clear. induction a as [|y a IH]; [reflexivity|exact IH]. }
    rewrite (row_set K s key raw idx (length raw) (i_nodup _ _ _ _ I) NK Hn Hidx eq_refl a x Ha); [now rewrite <- Eb|]. now rewrite <- Eb. }
  clearbody old. unfold set_len in H. rewrite HL in H. unfold pyget in H.
  rewrite nth_error_app2, map_length, Nat.sub_diag in H by (rewrite map_length; lia). cbn [nth_error bind] in H.
  rewrite Hr in H. change (length (q_data s) :: a ++ c :: b) with ((length (q_data s) :: a) ++ c :: b) in H.
  replace (Datatypes.S idx) with (length (length (q_data s) :: a)) in H by (cbn; lia). rewrite set_nth_app in H. cbn [bind] in H.
  replace (length S) with (length (map (row K) S)) in H by apply map_length. rewrite set_nth_app in H. cbn [bind] in H.
  apply Ok_inj in H. subst w'. cbn [app]. rewrite <- Erow. split; [|now auto].
  destruct I. cbn [with_file with_lens w_file f_seqs f_steps f_inputs f_lens f_cols f_tags f_data f_sizes w_prepared w_steps w_extend] in *.
  constructor; cbn [with_file with_lens w_file f_seqs f_steps f_inputs f_lens f_cols f_tags f_data f_sizes w_prepared w_steps w_extend].
  - rewrite i_seqs0, !app_length. reflexivity.
  - rewrite i_steps0. rewrite !flat_map_app. reflexivity.
  - destruct S; cbn [app flat_map] in *; [exact i_inputs0|]. destruct i_inputs0 as (kind&E&Hk). exists kind. split; [|exact Hk].
    rewrite E. rewrite !flat_map_app. reflexivity.
  - rewrite map_app. cbn [map]. now rewrite <- app_assoc.
  - exact i_cols0.
  - rewrite i_tags0. rewrite !map_app. reflexivity.
  - assumption.
  - split; [exact NK|]. split; [rewrite dkeys_dset_old; [exact Dk|now rewrite Dk]|]. intros k Hk. rewrite dget_dset_str.
    destruct (String.eqb key k) eqn:E; [apply String.eqb_eq in E; subst; now rewrite Eold|]. apply String.eqb_neq in E.
    rewrite Eoth by congruence. now apply Dg.
  - assumption.
  - intros k Hk. rewrite dget_dset_str. destruct (String.eqb key k) eqn:E.
    + apply String.eqb_eq in E. subst. rewrite Eold, app_length. reflexivity.
    + apply String.eqb_neq in E. rewrite Eoth by congruence. now apply i_wsteps0.
  - assumption.
  - intros s' Hs' y Hy. apply in_app_iff in Hs'. destruct Hs' as [Hs'|[<-|[]]].
    + apply (i_keys0 s'); [apply in_or_app; now left|exact Hy].
    + cbn [add_extra q_extra] in Hy. unfold dkeys in Hy. rewrite map_app in Hy. apply in_app_iff in Hy. destruct Hy as [Hy|[<-|[]]].
      * apply (i_keys0 s); [apply in_or_app; right; now left|exact Hy].
      * exact HK.
Qed.

Definition same_setup (w w' : writer) : Prop :=
  w_extend w' = w_extend w /\ w_dim w' = w_dim w /\ w_ndim w' = w_ndim w.

Lemma insert_other_spec w K S s p key raw dim ndim w' : inv w K (S ++ [s]) p -> ~ In key (dkeys (q_extra s)) ->
  insert_other zero w key raw dim ndim = Ok w' ->
  exists K', inv w' K' (S ++ [add_extra s key raw]) p /\ (K' = K \/ K' = K ++ [key] /\ w_extend w = false) /\ In key K' /\ same_setup w w'.
Proof.
  intros I Hn H. unfold insert_other in H. apply bind_Ok in H. destruct H as (u&_&H).
  rewrite (i_seqs _ _ _ _ I), app_length in H. cbn [length] in H. replace (length S + 1 - 1) with (length S) in H by lia.
  apply bind_Ok in H. destruct H as ([w1 added]&HP&H). apply bind_Ok in H. destruct H as (w2&H2&H).
  destruct (prepare_ready w K S s p key dim ndim w1 added w2 I Hn HP H2) as (K'&HR&HK'&E1&E2&E3).
  destruct (ready_finish w2 K' S s p key raw w' HR Hn H) as (I'&F1&F2&F3&_).
  exists K'. split; [exact I'|]. split; [exact HK'|]. split; [destruct HR as (r&_&_&HK&_); exact HK|]. repeat split; congruence.
Qed.

(** all the extra values of one sequence *)
Fixpoint add_extras (s : hseq) (i : nat) (extra : list (string * (nat * nat * list (list A)))) : hseq :=
  match extra with [] => s | e :: extra' => add_extras (add_extra s (fst e) (nth i (snd (snd e)) [])) i extra' end.

Lemma insert_extras_spec i : forall extra w K S s p w', inv w K (S ++ [s]) p ->
  NoDup (dkeys (q_extra s) ++ map fst extra) -> insert_extras zero w i extra = Ok w' ->
  exists K', inv w' K' (S ++ [add_extras s i extra]) p /\ (forall k, In k K' <-> In k K \/ In k (map fst extra)) /\ same_setup w w'
    /\ (w_extend w = true -> K' = K).
Proof.
  induction extra as [|[key [[dim ndim] vals]] extra IH]; intros w K S s p w' I Nd H.
  - cbn in H. apply Ok_inj in H. subst w'. exists K. split; [exact I|]. split; [cbn; tauto|]. repeat split.
  - cbn [insert_extras] in H. apply bind_Ok in H. destruct H as (v&Hv&H). apply bind_Ok in H. destruct H as (w1&H1&H).
    cbn [map fst] in Nd. assert (Hn : ~ In key (dkeys (q_extra s))).
    { intros Hi. apply (NoDup_disj _ _ Nd key Hi). now left. }
    destruct (insert_other_spec _ _ _ _ _ _ _ _ _ _ I Hn H1) as (K1&I1&HK1&Hin&(E1&E2&E3)).
    assert (Ev : nth i vals [] = v).
    { unfold pyget in Hv. destruct (nth_error vals i) eqn:E; [|discriminate]. apply Ok_inj in Hv. subst. now apply nth_error_nth. }
    destruct (IH w1 K1 S (add_extra s key v) p w' I1) as (K2&I2&HK2&(F1&F2&F3)&HKe).
    + cbn [add_extra q_extra]. unfold dkeys. rewrite map_app. cbn [map fst]. rewrite <- app_assoc. exact Nd.
    + exact H.
    + exists K2. cbn [add_extras fst snd]. rewrite Ev. split; [exact I2|]. split.
      * intros k. rewrite HK2. cbn [map fst In]. destruct HK1 as [->|[-> _]]; [|rewrite in_app_iff; cbn; tauto].
        split; [tauto|]. intros [?|[<-|?]]; auto.
      * split; [unfold same_setup; repeat split; congruence|]. intros He. rewrite HKe by congruence. destruct HK1 as [->|[_ Hf]]; [reflexivity|congruence].
Qed.

Lemma add_extras_eq i : forall extra s, add_extras s i extra =
  {| q_tag := q_tag s; q_data := q_data s; q_extra := q_extra s ++ map (fun e => (fst e, nth i (snd (snd e)) [])) extra |}.
Proof.
  induction extra as [|e extra IH]; intros s; cbn [add_extras map].
  - rewrite app_nil_r. now destruct s.
  - rewrite IH. cbn [add_extra q_tag q_data q_extra]. now rewrite <- app_assoc.
Qed.

Definition plain_seq (tag : string) (data : list A) : hseq := {| q_tag := tag; q_data := data; q_extra := [] |}.

Lemma row_plain K tag data : row K (plain_seq tag data) = length data :: repeat 0 (cols K - 1).
Proof.
  unfold row, plain_seq. cbn [q_data]. f_equal. unfold target. cbn [q_extra dget]. destruct K as [|k K]; [reflexivity|].
  unfold cols. cbn [length]. replace (Datatypes.S (Datatypes.S (length K)) - 1) with (length (sort_names (k :: K))) by (rewrite sort_names_len; cbn; lia).
  clear. generalize (sort_names (k :: K)). intros l. induction l as [|x l IH]; cbn; [reflexivity|]. now rewrite IH.
Qed.

Lemma start_seq w K S p tag data kind tags f w' : inv w K S (Datatypes.S p) -> 0 < fst kind ->
  set_nth (f_tags (w_file w)) (length S) tag = Ok tags ->
  set_len {| f_inputs := f_inputs (w_file w); f_data := f_data (w_file w); f_sizes := f_sizes (w_file w); f_labels := f_labels (w_file w);
             f_tlabels := f_tlabels (w_file w); f_lens := f_lens (w_file w); f_cols := f_cols (w_file w); f_tags := tags;
             f_steps := f_steps (w_file w); f_seqs := f_seqs (w_file w) |} (length S) 0 (length data) = Ok f ->
  insert_inputs zero (with_file w f) data kind = Ok w' ->
  inv w' K (S ++ [plain_seq tag data]) p /\ same_setup w w' /\ w_prepared w' = w_prepared w.
Proof.
  intros I Hk HT HS HI.
  rewrite (i_tags _ _ _ _ I) in HT. cbn [repeat] in HT. replace (length S) with (length (map q_tag S)) in HT by apply map_length.
  rewrite set_nth_app in HT. apply Ok_inj in HT. subst tags.
  unfold set_len in HS. cbn [f_lens] in HS. rewrite (i_lens _ _ _ _ I) in HS. unfold pyget in HS.
  rewrite nth_error_app2, map_length, Nat.sub_diag in HS by (rewrite map_length; lia). cbn [repeat nth_error bind] in HS.
  assert (Ec : exists c, cols K = Datatypes.S c) by (unfold cols; destruct K; eauto). destruct Ec as (c&Ec).
  rewrite Ec in HS. cbn [repeat set_nth bind] in HS. replace (length S) with (length (map (row K) S)) in HS by apply map_length.
  change (repeat (0 :: repeat 0 c) p) with (repeat (repeat 0 (Datatypes.S c)) p) in HS.
  rewrite set_nth_app in HS. cbn [bind] in HS. apply Ok_inj in HS. subst f.
  unfold insert_inputs in HI. cbn [with_file w_file with_lens f_inputs f_steps f_seqs f_data f_sizes f_labels f_tlabels f_lens f_cols f_tags w_extend] in HI.
  apply bind_Ok in HI. destruct HI as ([frames k]&Hf&HI). apply bind_Ok in HI. destruct HI as (fr&Ha&HI). apply Ok_inj in HI. subst w'.
  assert (E : frames = flat_map q_data S ++ repeat zero (length data) /\ 0 < fst k).
  { pose proof (i_inputs _ _ _ _ I) as HI. destruct S as [|s0 S].
    - rewrite HI in Hf. destruct (w_extend w); [discriminate|]. apply Ok_inj in Hf. now injection Hf as <- <-.
    - destruct HI as (kd&HI&Hkd). rewrite HI in Hf. destruct (_ && _); [|discriminate]. apply Ok_inj in Hf. injection Hf as <- <-.
      rewrite resize_grow. auto. }
  destruct E as [-> Hk']. rewrite (i_steps _ _ _ _ I), assign_end in Ha. apply Ok_inj in Ha. subst fr.
  assert (Erow : row K (plain_seq tag data) = length data :: repeat 0 c).
  { rewrite row_plain. f_equal. f_equal. lia. }
  assert (Et : forall k, flat_map (fun s => target s k) (S ++ [plain_seq tag data]) = flat_map (fun s => target s k) S).
  { intros kk. rewrite flat_map_app. cbn. now rewrite app_nil_r. }
  split; [|now repeat split].
  destruct I. constructor; cbn [with_file with_lens w_file f_seqs f_steps f_inputs f_lens f_cols f_tags f_data f_sizes w_prepared w_steps w_extend]; try assumption.
  - rewrite i_seqs0, app_length. cbn. lia.
  - rewrite i_steps0, flat_map_app, app_length. cbn. now rewrite app_nil_r.
  - rewrite flat_map_app. cbn [flat_map q_data plain_seq]. rewrite app_nil_r. destruct S; cbn [app]; eauto.
  - rewrite map_app. cbn [map]. rewrite <- app_assoc, Erow, Ec. reflexivity.
  - rewrite map_app. cbn [map]. rewrite <- app_assoc. reflexivity.
  - destruct (f_data (w_file w)) as [d|]; [|exact i_data0]. destruct i_data0 as (H1&H2&H3). split; [exact H1|]. split; [exact H2|].
    intros kk Hkk. rewrite Et. now apply H3.
  - intros kk Hkk. rewrite Et. now apply i_wsteps0.
  - intros s Hs. apply in_app_iff in Hs. destruct Hs as [Hs|[<-|[]]]; [now apply i_keys0|]. cbn. easy.
Qed.

(** the facts about a batch that the assertions establish *)
Record batch_facts (b : @batch A) (dims : list nat) : Prop := {
  bf_shape : b_shape b = length (b_tags b) :: dims;
  bf_axes : forall axis, axis < naxes b -> exists l, dget (b_lens b) axis = Some l /\ length l = length (b_tags b)
      /\ exists d, nth_error dims axis = Some d /\ Forall (fun x => x <= d) l;
  bf_extra : Forall (fun e => length (snd (snd e)) = length (b_tags b)) (b_extra b)
}.

Lemma axis_lens_le (b : @batch A) dims i : batch_facts b dims -> i < length (b_tags b) -> Forall2 le (axis_lens b i) (firstn (naxes b) dims).
Proof.
  intros F Hi. unfold axis_lens.
  assert (G : forall n, n <= naxes b -> Forall2 le (map (fun axis => match dget (b_lens b) axis with Some l => nth i l 0 | None => 0 end) (seq 0 n)) (firstn n dims)).
  { induction n as [|n IH]; intros Hn; [constructor|]. rewrite seq_S, map_app. destruct (bf_axes _ _ F n) as (l&El&Hl&d&Hd&Hle); [lia|].
    assert (Ef : firstn (Datatypes.S n) dims = firstn n dims ++ [d]).
    { clear - Hd. revert n Hd. induction dims as [|y dims IH]; intros [|n]; cbn; try discriminate; [now intros [= ->]|].
      intros H. f_equal. now apply IH. }
    rewrite Ef. apply Forall2_app; [apply IH; lia|]. cbn [map Nat.add]. rewrite El. constructor; [|constructor].
    assert (Hin : In (nth i l 0) l) by (apply nth_In; lia). exact (proj1 (Forall_forall _ _) Hle _ Hin). }
  now apply G.
Qed.

Lemma axis_lens_len (b : @batch A) i : length (axis_lens b i) = naxes b.
Proof. unfold axis_lens. now rewrite map_length, seq_length. Qed.

Lemma insert_seq_spec w K S p b dims offset i w' : inv w K S (Datatypes.S p) -> batch_python b -> keys_distinct b -> batch_facts b dims ->
  i < length (b_tags b) -> offset + i = length S -> insert_seq zero of_size w b offset (naxes b) i = Ok w' ->
  exists K', inv w' K' (S ++ [seq_of of_size b i]) p /\ (forall k, In k K' <-> In k K \/ In k (batch_keys b)) /\ same_setup w w'
    /\ (w_extend w = true -> K' = K).
Proof.
  intros I (PB&_&PE) KD F Hi Ho H. unfold insert_seq in H. rewrite (bf_shape _ _ F) in PB. destruct PB as [PL PS].
  apply bind_Ok in H. destruct H as (tag&Htag&H). apply bind_Ok in H. destruct H as (tags&HT&H). rewrite Ho in HT.
  apply bind_Ok in H. destruct H as (lens&Hlens&H). apply bind_Ok in H. destruct H as (f&HS&H). rewrite Ho in HS.
  apply bind_Ok in H. destruct H as (x&Hx&H). apply bind_Ok in H. destruct H as (u&_&H). apply bind_Ok in H. destruct H as (w1&HI&H).
  apply bind_Ok in H. destruct H as (w2&H2&H).
  assert (El : lens = axis_lens b i).
  { unfold axis_lens. rewrite (mapM_ok_map _ (fun axis => match dget (b_lens b) axis with Some l => nth i l 0 | None => 0 end)) in Hlens.
    - apply Ok_inj in Hlens. now symmetry.
    - intros axis Ha. apply in_seq in Ha. destruct (bf_axes _ _ F axis) as (l&E1&E2&_); [lia|]. rewrite E1. unfold pyget.
      destruct (nth_error l i) eqn:En; [now rewrite (nth_error_nth _ _ _ En)|]. apply nth_error_None in En. lia. }
  subst lens.
  assert (Etag : tag = nth i (b_tags b) "").
  { unfold pyget in Htag. destruct (nth_error (b_tags b) i) eqn:E; [|discriminate]. apply Ok_inj in Htag. subst. symmetry. now apply nth_error_nth. }
  assert (Ex : x = nth i (b_inputs b) (Axis []) /\ In x (b_inputs b)).
  { unfold pyget in Hx. destruct (nth_error (b_inputs b) i) eqn:E; [|discriminate]. apply Ok_inj in Hx. subst. split; [symmetry; now apply nth_error_nth|].
    now apply nth_error_In in E. }
  destruct Ex as [Ex Hin]. pose proof (proj1 (Forall_forall _ _) PS x Hin) as Hshape.
  pose proof (axis_lens_le b dims i F Hi) as Hle.
  assert (Edata : nd_frames (nd_slice (axis_lens b i) x) = frames_under (axis_lens b i) x).
  { apply nd_frames_slice with (firstn (naxes b) dims); [exact Hshape|]. exact (Forall2_len _ _ _ Hle). }
  rewrite Edata in HI. set (data := frames_under (axis_lens b i) x) in *.
  assert (Elen : prod (axis_lens b i) = length data).
  { unfold data. symmetry. now apply frames_under_len with (firstn (naxes b) dims). }
  rewrite Elen in HS. cbn [with_file w_file] in HS.
  match type of HI with insert_inputs _ (with_file (with_file _ _) _) _ ?k = _ => set (kind := k) in HI end.
  assert (Hk : 0 < fst kind).
  { unfold kind. cbn [w_dim with_file]. destruct (w_dim w) as [[|n]|]; [cbn; lia| |cbn; lia]. destruct (_ =? _); cbn; lia. }
  clearbody kind. change (insert_inputs zero (with_file w f) data kind = Ok w1) in HI.
  destruct (start_seq w K S p tag data kind tags f w1 I Hk HT HS HI) as (I1&(E1&E2&E3)&EP1).
  assert (Eseq : seq_of of_size b i = add_extras {| q_tag := tag; q_data := data; q_extra := map (fun k => (k, map of_size (axis_lens b i))) (own_keys b) |} i (b_extra b)).
  { rewrite add_extras_eq. cbn [q_tag q_data q_extra]. unfold seq_of. rewrite <- Etag, <- Ex. reflexivity. }
  rewrite Eseq. unfold keys_distinct, batch_keys in KD. unfold batch_keys. unfold own_keys in *. unfold naxes in *.
  destruct (1 <? length (b_lens b)) eqn:En; cbn [map app] in *.
  - destruct (insert_other_spec w1 K S (plain_seq tag data) p "sizes" (map of_size (axis_lens b i)) 1 1 w2 I1 (fun x => x) H2) as (K2&I2&HK2&Hin2&(F1&F2&F3)).
    destruct (insert_extras_spec i (b_extra b) w2 K2 S _ p w' I2 KD H) as (K3&I3&HK3&(G1&G2&G3)&HKe).
    exists K3. split; [exact I3|]. split.
    + intros k. rewrite HK3. cbn [In]. destruct HK2 as [->|[-> _]]; [|rewrite in_app_iff; cbn; tauto].
      split; [tauto|]. intros [?|[<-|?]]; auto.
    + split; [unfold same_setup; repeat split; congruence|]. intros He. rewrite HKe by congruence. destruct HK2 as [->|[_ Hf]]; [reflexivity|congruence].
  - apply Ok_inj in H2. subst w2.
    destruct (insert_extras_spec i (b_extra b) w1 K S _ p w' I1 KD H) as (K3&I3&HK3&(G1&G2&G3)&HKe).
    exists K3. split; [exact I3|]. split; [exact HK3|]. split; [unfold same_setup; repeat split; congruence|]. intros He. apply HKe. congruence.
Qed.


Lemma insert_seqs_spec b dims : batch_python b -> keys_distinct b -> batch_facts b dims ->
  forall n i w K S offset w', inv w K S n -> i + n = length (b_tags b) -> offset + i = length S ->
  insert_seqs zero of_size w b offset (naxes b) i n = Ok w' ->
  exists K', inv w' K' (S ++ map (seq_of of_size b) (seq i n)) 0 /\ (forall k, In k K' <-> In k K \/ (0 < n /\ In k (batch_keys b)))
    /\ same_setup w w' /\ (w_extend w = true -> K' = K).
Proof.
  intros PB KD F. induction n as [|n IH]; intros i w K S offset w' I Hn Ho H.
  - cbn in H. apply Ok_inj in H. subst w'. exists K. cbn [seq map]. rewrite app_nil_r. split; [exact I|].
    split; [intros k; split; [now left|intros [?|[? _]]; [assumption|lia]]|]. repeat split.
  - cbn [insert_seqs] in H. apply bind_Ok in H. destruct H as (w1&H1&H).
    destruct (insert_seq_spec w K S n b dims offset i w1 I PB KD F ltac:(lia) Ho H1) as (K1&I1&HK1&(E1&E2&E3)&He1).
    destruct (IH (Datatypes.S i) w1 K1 (S ++ [seq_of of_size b i]) offset w' I1) as (K2&I2&HK2&(F1&F2&F3)&He2).
    + lia.
    + rewrite app_length. cbn. lia.
    + exact H.
    + exists K2. rewrite <- app_assoc in I2. split; [exact I2|]. split.
      * intros k. rewrite HK2, HK1. split; [intros [[?|?]|[? ?]]; auto; right; split; auto; lia|]. intros [?|[? ?]]; auto.
      * split; [unfold same_setup; repeat split; congruence|]. intros He. rewrite He2 by congruence. now apply He1.
Qed.

Lemma max_list_spec l m : max_list l = Ok m -> Forall (fun x => x <= m) l /\ In m l.
Proof.
  revert m. induction l as [|x l IH]; intros m; [discriminate|]. cbn [max_list]. destruct l as [|y l].
  - intros H. apply Ok_inj in H. subst. split; [repeat constructor|now left].
  - intros H. apply bind_Ok in H. destruct H as (m'&Hm&H). apply Ok_inj in H. subst m. destruct (IH m' Hm) as [H1 H2].
    split.
    + constructor; [lia|]. eapply Forall_impl; [|exact H1]. intros z Hz. cbn in Hz. lia.
    + destruct (Nat.max_spec x m') as [[_ ->]|[_ ->]]; [now right|now left].
Qed.

Lemma forallb_eqb_Forall {T} (f : T -> nat) n l : forallb (fun x => n =? f x) l = true -> Forall (fun x => f x = n) l.
Proof. intros H. apply Forall_forall. intros x Hx. rewrite forallb_forall in H. specialize (H x Hx). apply Nat.eqb_eq in H. now symmetry. Qed.

Lemma insert_batch_facts w b w' : insert_batch zero of_size w b = Ok w' -> dict_ok (b_lens b) ->
  exists dims, batch_facts b dims /\ length dims = w_ndim w /\ naxes b <= w_ndim w /\
   insert_seqs zero of_size (with_file w {| f_inputs := f_inputs (w_file w); f_data := f_data (w_file w); f_sizes := f_sizes (w_file w);
       f_labels := f_labels (w_file w); f_tlabels := f_tlabels (w_file w);
       f_lens := resize (repeat 0 (f_cols (w_file w))) (f_lens (w_file w)) (length (f_lens (w_file w)) + length (b_tags b));
       f_cols := f_cols (w_file w); f_tags := resize "" (f_tags (w_file w)) (length (f_lens (w_file w)) + length (b_tags b));
       f_steps := f_steps (w_file w); f_seqs := f_seqs (w_file w) |}) b (length (f_lens (w_file w))) (naxes b) 0 (length (b_tags b)) = Ok w'.
Proof.
  intros H Dok. unfold insert_batch in H. apply bind_Ok in H. destruct H as (s0&Hs0&H). apply bind_Ok in H. destruct H as (u1&HA1&H).
  apply bind_Ok in H. destruct H as (u2&HA2&H). apply bind_Ok in H. destruct H as (na&Hna&H). apply bind_Ok in H. destruct H as (u3&HA3&H).
  apply bind_Ok in H. destruct H as (u4&HA4&H). apply bind_Ok in H. destruct H as (u5&HA5&H). apply bind_Ok in H. destruct H as (u6&HA6&H).
  apply bind_Ok in H. destruct H as (ok&Hok&H). apply bind_Ok in H. destruct H as (u7&HA7&H). apply bind_Ok in H. destruct H as (u8&_&H).
  apply bind_Ok in H. destruct H as (u9&HA9&H).
  apply assert_Ok in HA1, HA2, HA3, HA4, HA5, HA6, HA7, HA9. subst ok.
  apply Nat.eqb_eq in HA1, HA2, HA5. apply Nat.leb_le in HA3. change (naxes b = na) in HA5. subst na.
  destruct (b_shape b) as [|n dims] eqn:Eshape; [discriminate|]. cbn in Hs0. apply Ok_inj in Hs0. subst s0. cbn [length] in HA2. 
  exists dims. split.
  - constructor.
    + now rewrite Eshape, HA1.
    + intros axis Hax.
      assert (Hin : In axis (dkeys (b_lens b))).
      { rewrite forallb_forall in HA4.
        assert (P : Permutation (dkeys (b_lens b)) (seq 0 (naxes b))).
        { apply NoDup_Permutation_bis; [exact Dok| |].
          - unfold dkeys. rewrite seq_length, map_length. unfold naxes. lia.
          - intros k Hk. apply in_seq. specialize (HA4 k Hk). apply Nat.ltb_lt in HA4. lia. }
        apply (Permutation_in _ (Permutation_sym P)). apply in_seq. lia. }
      apply dget_keys in Hin. destruct (dget (b_lens b) axis) as [l|] eqn:El; [|easy]. exists l. split; [reflexivity|].
      apply dget_In in El. apply forallb_eqb_Forall in HA6. pose proof (proj1 (Forall_forall _ _) HA6 _ El) as Hlen. cbn in Hlen.
      split; [exact Hlen|]. unfold all_res in Hok. apply bind_Ok in Hok. destruct Hok as (bs&Hbs&Hok). apply Ok_inj in Hok.
      apply mapM_Ok_Forall2 in Hbs. rewrite forallb_forall in Hok.
      assert (Hb : exists bb, In bb bs /\ (let* m := max_list (snd (axis, l)) in let* s1 := pyget (n :: dims) (Datatypes.S (fst (axis, l))) in Ok (m =? s1)) = Ok bb).
      { clear - Hbs El. induction Hbs as [|x y xs ys Hxy F IH]; [destruct El|]. destruct El as [->|El]; [exists y; split; [now left|exact Hxy]|].
        destruct (IH El) as (bb&H1&H2). exists bb. split; [now right|exact H2]. }
      destruct Hb as (bb&Hbb&Hm). specialize (Hok bb Hbb). subst bb. cbn [fst snd] in Hm. apply bind_Ok in Hm. destruct Hm as (m&Hmax&Hm).
      apply bind_Ok in Hm. destruct Hm as (s1&Hs1&Hm). apply Ok_inj in Hm. apply Nat.eqb_eq in Hm. subst s1.
      unfold pyget in Hs1. cbn [nth_error] in Hs1. destruct (nth_error dims axis) as [d|] eqn:Ed; [|discriminate]. apply Ok_inj in Hs1. subst d.
      exists m. split; [reflexivity|]. apply (max_list_spec _ _ Hmax).
    + now apply forallb_eqb_Forall in HA9.
  - split; [lia|]. split; [exact HA3|]. exact H.
Qed.

Lemma insert_batch_spec w K S b w' : inv w K S 0 -> batch_python b -> keys_distinct b -> insert_batch zero of_size w b = Ok w' ->
  exists K', inv w' K' (S ++ seqs_of of_size b) 0 /\ (forall k, In k K' <-> In k K \/ (b_tags b <> [] /\ In k (batch_keys b)))
    /\ same_setup w w' /\ (w_extend w = true -> K' = K).
Proof.
  intros I PB KD H. destruct (insert_batch_facts w b w' H) as (dims&F&_&_&H1); [apply PB|].
  assert (EL : length (f_lens (w_file w)) = length S) by (rewrite (i_lens _ _ _ _ I); cbn; now rewrite app_nil_r, map_length).
  assert (ET : length (f_tags (w_file w)) = length S) by (rewrite (i_tags _ _ _ _ I); cbn; now rewrite app_nil_r, map_length).
  match type of H1 with insert_seqs _ _ ?w1 _ _ _ _ _ = _ => set (w1' := w1) in H1 end.
  assert (I1 : inv w1' K S (length (b_tags b))).
  { unfold w1'. destruct I. constructor; cbn [with_file w_file f_seqs f_steps f_inputs f_lens f_cols f_tags f_data f_sizes w_prepared w_steps w_extend]; try assumption.
    - rewrite resize_grow, i_lens0, i_cols0. cbn [repeat]. now rewrite app_nil_r.
    - rewrite EL, <- ET, resize_grow, i_tags0. cbn [repeat]. now rewrite app_nil_r. }
  rewrite EL in H1.
  destruct (insert_seqs_spec b dims PB KD F (length (b_tags b)) 0 w1' K S (length S) w' I1) as (K'&I'&HK'&HS&He).
  - lia.
  - lia.
  - exact H1.
  - exists K'. split; [exact I'|]. split.
    + intros k. rewrite HK'. destruct (b_tags b); cbn [length]; [|intuition (try easy); lia]. intuition (try lia).
    + split; [exact HS|exact He].
Qed.

Lemma insert_batches_spec : forall bs w K S w', inv w K S 0 -> Forall batch_python bs -> Forall keys_distinct bs ->
  insert_batches zero of_size w bs = Ok w' ->
  exists K', inv w' K' (S ++ all_seqs of_size bs) 0
    /\ (forall k, In k K' <-> In k K \/ exists b, In b bs /\ b_tags b <> [] /\ In k (batch_keys b)) /\ same_setup w w'
    /\ (w_extend w = true -> K' = K).
Proof.
  induction bs as [|b bs IH]; intros w K S w' I PB KD H.
  - cbn in H. apply Ok_inj in H. subst w'. exists K. cbn. rewrite app_nil_r. split; [exact I|]. split; [|repeat split].
    intros k. split; [now left|]. intros [?|(b&[]&_)]; assumption.
  - cbn [insert_batches] in H. apply bind_Ok in H. destruct H as (w1&H1&H). inversion PB; subst. inversion KD; subst.
    destruct (insert_batch_spec w K S b w1) as (K1&I1&HK1&(E1&E2&E3)&He1); try assumption.
    destruct (IH w1 K1 (S ++ seqs_of of_size b) w' I1) as (K2&I2&HK2&(F1&F2&F3)&He2); try assumption.
    exists K2. unfold all_seqs. cbn [flat_map]. rewrite app_assoc. split; [exact I2|]. split.
    + intros k. rewrite HK2, HK1. split.
      * intros [[?|[? ?]]|(b'&?&?&?)]; [now left|right; exists b; split; [now left|auto]|right; exists b'; split; [now right|auto]].
      * intros [?|(b'&[<-|?]&?&?)]; [tauto|left; right; auto|right; exists b'; auto].
    + split; [unfold same_setup; repeat split; congruence|]. intros He. rewrite He2 by congruence. now apply He1.
Qed.

(** a new file *)
Definition fresh_file (labels : list string) : hfile :=
  {| f_inputs := None; f_data := None; f_sizes := []; f_labels := Some labels; f_tlabels := [];
     f_lens := []; f_cols := 2; f_tags := []; f_steps := 0; f_seqs := 0 |}.

(** during [_prepare_extra] the columns are not right yet *)
Definition cols_fixed (w : writer) (K : list string) : writer := with_file w (with_lens (w_file w) (f_lens (w_file w)) (cols K)).
Lemma prepare_loop_fresh els : forall types w K added w' n, inv (cols_fixed w K) K [] 0 -> w_extend w = false ->
  w_prepared w = K -> NoDup (K ++ map fst types) ->
  prepare_loop w types els added = Ok (w', n) ->
  inv (cols_fixed w' (K ++ map fst types)) (K ++ map fst types) [] 0 /\ n = Some (added + length types) /\ same_setup w w' /\ w_prepared w' = K ++ map fst types
   /\ f_lens (w_file w') = f_lens (w_file w).
Proof.
  induction types as [|[key [dim ndim]] types IH]; intros w K added w' n I He HP Nd H.
  - cbn in H. apply Ok_inj in H. injection H as <- <-. cbn. rewrite app_nil_r. split; [exact I|]. rewrite Nat.add_0_r. repeat split. exact HP.
  - cbn [prepare_loop] in H. apply bind_Ok in H. destruct H as (u&_&H). cbn [map fst] in *.
    assert (HnK : ~ In key K) by (intros Hi; apply (NoDup_disj _ _ Nd key Hi); now left).
    rewrite HP in H. rewrite (proj2 (mem_str_not key K) HnK) in H. apply bind_Ok in H. destruct H as (w1&H1&H).
    unfold prepare_one in H1. rewrite He in H1. apply bind_Ok in H1. destruct H1 as (labels&_&H1). apply Ok_inj in H1.
    assert (E : K ++ key :: map fst types = (K ++ [key]) ++ map fst types) by now rewrite <- app_assoc.
    destruct (IH w1 (K ++ [key]) (Datatypes.S added) w' n) as (I'&En&(S1&S2&S3)&EP&EL).
    + subst w1. destruct I. unfold cols_fixed in *. cbn [with_file with_lens w_file f_seqs f_steps f_inputs f_lens f_cols f_tags f_data f_sizes w_prepared w_steps w_extend] in *.
      constructor; cbn [with_file with_lens w_file f_seqs f_steps f_inputs f_lens f_cols f_tags f_data f_sizes w_prepared w_steps w_extend]; try assumption.
      * reflexivity.
      * rewrite E in Nd. now apply NoDup_app_l in Nd.
      * split; [destruct K; discriminate|]. destruct (f_data (w_file w)) as [d|] eqn:Ed.
        -- destruct i_data0 as (NK&Dk&Dg). split; [rewrite dkeys_dset_new; [now rewrite Dk|now rewrite Dk]|]. intros k Hk.
           rewrite dget_dset_str. destruct (String.eqb key k) eqn:Ek; [reflexivity|]. apply in_app_iff in Hk. destruct Hk as [Hk|[->|[]]]; [now apply Dg|now rewrite String.eqb_refl in Ek].
        -- rewrite i_data0. split; [reflexivity|]. intros k [<-|[]]. cbn. now rewrite String.eqb_refl.
      * left. now rewrite HP.
      * rewrite HP. intros k Hk. rewrite dget_dset_str. destruct (String.eqb key k) eqn:Ek; [reflexivity|]. apply in_app_iff in Hk. destruct Hk as [Hk|[->|[]]]; [|now rewrite String.eqb_refl in Ek].
        apply i_wsteps0. now rewrite HP.
      * intros k. rewrite in_app_iff, <- i_sizes0, <- !dget_keys, dget_dset_str. destruct (String.eqb key k) eqn:Ek.
        -- apply String.eqb_eq in Ek. subst. split; [intros _; right; now left|discriminate].
        -- split; [now left|]. intros [Hk|[->|[]]]; [exact Hk|now rewrite String.eqb_refl in Ek].
      * intros s0 [].
    + subst w1. reflexivity.
    + subst w1. cbn. now rewrite HP.
    + now rewrite <- E.
    + exact H.
    + rewrite E. split; [exact I'|]. split; [rewrite En; f_equal; cbn; lia|]. subst w1. cbn in *. repeat split; congruence.
Qed.

Lemma new_writer_fresh dim ndim labels types els w : NoDup (map fst types) ->
  new_writer None dim ndim labels types els = Ok w -> inv w (map fst types) [] 0 /\ w_extend w = false
  /\ w_dim w = dim /\ w_ndim w = match ndim with Some n => n | None => match dim with None => 1 | Some _ => 2 end end.
Proof.
  intros Nd H. unfold new_writer in H. apply bind_Ok in H. destruct H as (u&_&H).
  set (w0 := {| w_dim := dim; w_ndim := _; w_extend := false; w_file := _; w_steps := []; w_prepared := [] |}) in H.
  assert (I0 : inv w0 [] [] 0).
  { constructor; try reflexivity; try (constructor; reflexivity); try (intros; contradiction). }
  destruct types as [|t types].
  - apply Ok_inj in H. subst w. repeat split; try reflexivity; apply I0.
  - apply bind_Ok in H. destruct H as ([w1 a]&HP&H). apply Ok_inj in H. subst w1. unfold prepare_extra in HP.
    apply bind_Ok in HP. destruct HP as ([w1 n]&HL&HP).
    destruct (prepare_loop_fresh els (t :: types) w0 [] 0 w1 n) as (I1&En&(S1&S2&S3)&EP&EL); try reflexivity.
    + exact I0.
    + exact Nd.
    + exact HL.
    + cbn [app] in I1, EP. subst n. cbn [Nat.add length Nat.ltb Nat.leb andb] in HP. rewrite S1 in HP. cbn [negb] in HP.
      replace (w_extend w0) with false in HP by reflexivity. cbn [negb] in HP. apply Ok_inj in HP. injection HP as <- _.
      split; [|cbn [with_file w_extend w_dim w_ndim]; rewrite S1, S2, S3; repeat split].
      assert (Ew : with_file w1 (resize_cols (w_file w1) (Datatypes.S (length (w_prepared w1)))) = cols_fixed w1 (map fst (t :: types))).
      { unfold cols_fixed, resize_cols. rewrite EL. cbn [w_file w0 f_lens map]. rewrite EP. reflexivity. }
      rewrite Ew. exact I1.
Qed.
End W.
