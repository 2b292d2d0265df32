(** Proofs about HDF files, part 2: the reader. *)
From Coq Require Import String Ascii Sorting.Sorted.
From Verif Require Import Base PyDict ListLemmas OptimModel OptimProofs HdfModel HdfSpec HdfProofs.
Local Open Scope string_scope.
Local Open Scope nat_scope.
Local Open Scope list_scope.
Local Notation length := List.length.

Section R.
Context {A : Type}.
Notation hseq := (@hseq A).
Notation hfile := (@hfile A).
Notation reader := (@reader A).

(** the columns of the table of lengths, as functions *)
Definition columns (inp : bool) (RK : list string) : list (hseq -> list A) :=
  (if inp then [q_data] else []) ++ map (fun k s => target s k) RK.
Definition rrow (hs : list (hseq -> list A)) (s : hseq) : list nat := map (fun h => length (h s)) hs.
Definition sums (hs : list (hseq -> list A)) (S : list hseq) : list nat := map (fun h => length (flat_map h S)) hs.

Lemma sums_nil hs : sums hs [] = repeat 0 (length hs).
Proof. unfold sums. induction hs as [|h hs IH]; [reflexivity|]. cbn [map length repeat]. rewrite IH. reflexivity. Qed.
Lemma sums_snoc hs S s : vec_add (sums hs S) (rrow hs s) = sums hs (S ++ [s]).
Proof.
  unfold sums, rrow. induction hs as [|h hs IH]; cbn [map vec_add]; [reflexivity|]. f_equal; [|exact IH].
  rewrite flat_map_app, app_length. cbn. now rewrite app_nil_r.
Qed.
Lemma cumsum_nth hs : forall S P i, i <= length S ->
  nth_error (cumsum (sums hs P) (map (rrow hs) S)) i = Some (sums hs (P ++ firstn i S)).
Proof.
  induction S as [|s S IH]; intros P i Hi; cbn [map cumsum].
  - destruct i; [|cbn in Hi; lia]. cbn. now rewrite app_nil_r.
  - rewrite sums_snoc. destruct i as [|i]; [cbn; now rewrite app_nil_r|]. cbn [nth_error firstn]. rewrite IH by (cbn in Hi; lia).
    now rewrite <- app_assoc.
Qed.
Lemma cumsum_len : forall rows st, length (cumsum st rows) = S (length rows).
Proof. induction rows as [|r rows IH]; intros st; cbn; [reflexivity|]. now rewrite IH. Qed.

Lemma firstn_at {T} (a : list T) x b :
  firstn (length a) (a ++ x :: b) = a /\ firstn (Datatypes.S (length a)) (a ++ x :: b) = a ++ [x].
Proof. induction a as [|y a [IH1 IH2]]; [split; reflexivity|]. split.
  - cbn. now rewrite IH1.
  - cbn in IH2 |- *. now rewrite IH2.
Qed.

Lemma slice_seq (h : hseq -> list A) S k s : nth_error S k = Some s ->
  pyslice (flat_map h S) (length (flat_map h (firstn k S))) (length (flat_map h (firstn (Datatypes.S k) S))) = h s.
Proof.
  intros H. destruct (nth_error_split _ _ H) as (a&b&->&<-). unfold pyslice.
  destruct (firstn_at a s b) as [-> ->].
  rewrite !flat_map_app, app_length. cbn [flat_map]. rewrite app_nil_r.
  replace (length (flat_map h a) + length (h s) - length (flat_map h a)) with (length (h s)) by lia.
  rewrite skipn_app, skipn_all, Nat.sub_diag. cbn [skipn app]. now rewrite firstn_app, firstn_all, Nat.sub_diag, app_nil_r.
Qed.
Lemma sums_diff (h : hseq -> list A) S k s : nth_error S k = Some s ->
  length (flat_map h (firstn (Datatypes.S k) S)) - length (flat_map h (firstn k S)) = length (h s).
Proof.
  intros H. destruct (nth_error_split _ _ H) as (a&b&->&<-).
  destruct (firstn_at a s b) as [-> ->].
  rewrite flat_map_app, app_length. cbn. rewrite app_nil_r. lia.
Qed.
Lemma vec_sub_sums hs S k s : nth_error S k = Some s ->
  vec_sub (sums hs (firstn (Datatypes.S k) S)) (sums hs (firstn k S)) = rrow hs s.
Proof.
  intros H. unfold sums, rrow. induction hs as [|h hs IH]; cbn [map vec_sub]; [reflexivity|]. rewrite IH. f_equal. now apply sums_diff.
Qed.

(** *** files one after the other *)
Fixpoint psums (off : nat) (ns : list nat) : list nat := match ns with [] => [off] | n :: ns' => off :: psums (off + n) ns' end.
Lemma psums_ge off ns x : In x (psums off ns) -> off <= x.
Proof. revert off. induction ns as [|n ns IH]; cbn; intros off [<-|H]; try lia. apply IH in H. lia. Qed.
Lemma psums_last off ns d : last (psums off ns) d = off + list_sum ns.
Proof.
  revert off. induction ns as [|n ns IH]; intros off; cbn [psums]; [cbn; lia|].
  change (list_sum (n :: ns)) with (n + list_sum ns). specialize (IH (off + n)).
  destruct (psums (off + n) ns) eqn:E; [destruct ns; discriminate|]. change (last (off :: n0 :: l) d) with (last (n0 :: l) d). rewrite IH. lia.
Qed.
Lemma psums_snoc off ns n : psums off (ns ++ [n]) = psums off ns ++ [last (psums off ns) 0 + n].
Proof.
  revert off. induction ns as [|m ns IH]; intros off; cbn [psums app]; [reflexivity|]. rewrite IH.
  assert (E : last (off :: psums (off + m) ns) 0 = last (psums (off + m) ns) 0) by (destruct ns; reflexivity). now rewrite E.
Qed.
Lemma file_index_spec : forall (Ss : list (list hseq)) off j s, nth_error (concat Ss) j = Some s ->
  exists fi k S, length (filter (fun x => x <=? off + j) (psums off (map (@length hseq) Ss))) = Datatypes.S fi
    /\ nth_error Ss fi = Some S /\ nth_error S k = Some s
    /\ exists st, nth_error (psums off (map (@length hseq) Ss)) fi = Some st /\ off + j = st + k.
Proof.
  induction Ss as [|S Ss IH]; intros off j s H; [destruct j; discriminate|]. cbn [concat] in H. cbn [map psums filter].
  replace (off <=? off + j) with true by (symmetry; apply Nat.leb_le; lia). cbn [length].
  destruct (Nat.lt_ge_cases j (length S)) as [Hj|Hj].
  - rewrite nth_error_app1 in H by exact Hj. exists 0, j, S.
    assert (E : filter (fun x => x <=? off + j) (psums (off + length S) (map (@length hseq) Ss)) = []).
    { assert (G : forall l : list nat, (forall x, In x l -> off + length S <= x) -> filter (fun x => x <=? off + j) l = []).
      { induction l as [|x l IHl]; intros Hl; [reflexivity|]. cbn [filter]. replace (x <=? off + j) with false.
        - apply IHl. intros y Hy. apply Hl. now right.
        - symmetry. apply Nat.leb_gt. specialize (Hl x (or_introl eq_refl)). lia. }
      apply G. intros x Hx. exact (psums_ge _ _ _ Hx). }
    rewrite E. repeat split; [exact H|]. exists off. cbn. split; [reflexivity|lia].
  - rewrite nth_error_app2 in H by exact Hj. destruct (IH (off + length S) (j - length S) s H) as (fi&k&S'&H1&H2&H3&st&H4&H5).
    replace (off + length S + (j - length S)) with (off + j) in H1, H5 by lia.
    exists (Datatypes.S fi), k, S'. rewrite H1. repeat split; [exact H2|exact H3|]. exists st. cbn. auto.
Qed.

(** *** what is known about a file *)
Record stores (f : hfile) (inp has : bool) (RK : list string) (S : list hseq) : Prop := {
  st_inputs : if inp then exists kind, f_inputs f = Some (flat_map q_data S, kind) /\ 0 < fst kind else f_inputs f = None;
  st_data : if has then exists d, f_data f = Some d
              /\ sort_names (dkeys d ++ filter (fun k => negb (mem_str k (dkeys d))) (dkeys (f_sizes f))) = RK
              /\ (forall k, In k RK -> dget d k = Some (flat_map (fun s => target s k) S))
              /\ (forall k, In k RK -> exists sz, dget (f_sizes f) k = Some sz)
            else f_data f = None /\ RK = ["classes"];
  st_lens : f_lens f = map (rrow (columns inp RK)) S;
  st_cols : f_cols f = length (columns inp RK);
  st_tags : map cut_nul (f_tags f) = map q_tag S;
  st_ne : S <> [];
  st_nodup : NoDup RK
}.

Definition file_has (f : hfile) (inp has : bool) (RK : list string) (S : list hseq) : Prop :=
  (inp = true -> exists kind, f_inputs f = Some (flat_map q_data S, kind))
  /\ (has = true -> forall k, In k RK -> exists d, f_data f = Some d /\ dget d k = Some (flat_map (fun s => target s k) S))
  /\ map cut_nul (f_tags f) = map q_tag S.

Record rinv (r : reader) (inp has : bool) (RK : list string) (fs : list hfile) (Ss : list (list hseq)) : Prop := {
  ri_files : r_files r = fs;
  ri_ne : fs <> [];
  ri_keys : r_keys r = RK;
  ri_starts : r_file_start r = psums 0 (map (@length hseq) Ss);
  ri_seqs : r_seq_start r = map (fun S => cumsum (sums (columns inp RK) []) (map (rrow (columns inp RK)) S)) Ss;
  ri_inputs : (0 <? r_num_inputs r) = inp;
  ri_num : r_num_seqs r = length (concat Ss);
  ri_targets : r_targets r = if has then RK else [];
  ri_tag : r_tag_idx r = [];
  ri_has : Forall2 (fun f S => file_has f inp has RK S) fs Ss;
  ri_classes : has = false -> RK = ["classes"];
  ri_nodup : NoDup RK;
  ri_data : inp = true -> ~ In "data" RK;
  ri_outs : forall k, In k (dkeys (r_outputs r)) <-> (has = true /\ In k RK) \/ (inp = true /\ k = "data")
}.

Lemma columns_len inp RK : length (columns inp RK) = (if inp then 1 else 0) + length RK.
Proof. unfold columns. rewrite app_length, map_length. now destruct inp. Qed.

Lemma fold_dset_keys {V} (l : list (string * V)) d k :
  In k (dkeys (fold_left (fun d kv => dset d (fst kv) (snd kv)) l d)) <-> In k (dkeys d) \/ In k (map fst l).
Proof.
  revert d. induction l as [|[x v] l IH]; intros d; cbn [fold_left map fst snd]; [cbn; tauto|]. rewrite IH, <- !dget_keys, dget_dset_str.
  cbn [In]. destruct (String.eqb x k) eqn:E.
  - apply String.eqb_eq in E. subst. split; [auto|]. intros _. left. discriminate.
  - apply String.eqb_neq in E. tauto.
Qed.

Lemma mapM_sizes (sizes : @dict string (nat * nat)) RK outs :
  mapM (fun k => match dget sizes k with Some s => Ok (k, s) | None => Err KeyError end) RK = Ok outs -> map fst outs = RK.
Proof.
  revert outs. induction RK as [|k RK IH]; intros outs; cbn [mapM].
  - intros H. apply Ok_inj in H. now subst.
  - destruct (dget sizes k) as [sz|]; [|discriminate]. cbn [bind]. intros H. apply bind_Ok in H. destruct H as (ys&Hys&H). apply Ok_inj in H. subst. cbn. now rewrite (IH _ Hys).
Qed.

Lemma dict_same_keys a b : dict_same a b = true -> forall k, In k (dkeys a) <-> In k (dkeys b).
Proof.
  unfold dict_same. rewrite andb_true_iff. intros [H1 H2] k. rewrite forallb_forall in H1, H2. split; intros Hk.
  - unfold dkeys in Hk. apply in_map_iff in Hk. destruct Hk as ((k'&v)&<-&Hin). specialize (H1 _ Hin). cbn [fst snd] in *.
    apply dget_keys. destruct (dget b k'); [discriminate|]. discriminate.
  - unfold dkeys in Hk. apply in_map_iff in Hk. destruct Hk as ((k'&v)&<-&Hin). specialize (H2 _ Hin). cbn [fst] in *.
    apply dget_keys. unfold dhas in H2. destruct (dget a k'); [discriminate|]. discriminate.
Qed.

Lemma strs_eqb_eq a b : strs_eqb a b = true <-> a = b.
Proof.
  unfold strs_eqb. revert b. induction a as [|x a IH]; intros [|y b]; cbn; try (split; [discriminate|easy]); [tauto|].
  specialize (IH b). rewrite andb_true_iff in *. rewrite andb_true_iff. split.
  - intros (H1&H2&H3). apply String.eqb_eq in H2. subst. f_equal. now apply IH.
  - intros [= -> ->]. rewrite String.eqb_refl. destruct (proj2 IH eq_refl). auto.
Qed.

Lemma forallb_mem p l : forallb (fun k => mem_str k l) p = true -> incl p l.
Proof. rewrite forallb_forall. intros H k Hk. apply mem_str_In. now apply H. Qed.

Lemma rrow_len hs (s : hseq) : length (rrow hs s) = length hs.
Proof. unfold rrow. apply map_length. Qed.

(** picking the columns of the keys [p] *)
Lemma pick_cols (keys p : list string) idxs (s : hseq) : mapM (fun k => opt_index (index_str k keys)) p = Ok idxs ->
  map (fun c => nth c (rrow (columns true keys) s) 0) (0 :: map Datatypes.S idxs) = rrow (columns true p) s
  /\ length idxs = length p.
Proof.
  revert idxs. induction p as [|k p IH]; intros idxs; cbn [mapM].
  - intros H. apply Ok_inj in H. subst. split; reflexivity.
  - destruct (index_str k keys) as [i|] eqn:Ei; [|discriminate]. cbn [opt_index bind]. intros H. apply bind_Ok in H.
    destruct H as (ys&Hys&H). apply Ok_inj in H. subst. destruct (IH _ Hys) as [E L]. split; [|cbn; now rewrite L].
    cbn [map] in E |- *. unfold rrow at 3 in E. unfold rrow at 4. unfold columns in *. cbn [app map] in *. apply (f_equal (@tl nat)) in E. cbn [tl] in E.
    cbn [app map]. f_equal. f_equal; [|exact E].
    apply index_str_spec in Ei. destruct Ei as [Ei _]. unfold rrow. cbn [map app nth].
    rewrite map_map. erewrite nth_indep.
    2:{ rewrite map_length. apply nth_error_Some. congruence. }
    rewrite (map_nth (fun k0 => length (target s k0)) keys k i). f_equal. f_equal. now apply nth_error_nth.
Qed.

Lemma add_file_first (f : hfile) r' inp has RK S : stores f inp has RK S -> inp || has = true -> add_file empty_reader f = Ok r' ->
  rinv r' inp has RK [f] [S].
Proof.
  intros [Hin Hdata Hlens Hcols Htags Hne Hnd] Hih H. unfold add_file in H. cbn [r_files empty_reader] in H.
  assert (Ek : match f_data f with Some d => sort_names (dkeys d ++ filter (fun k => negb (mem_str k (dkeys d))) (dkeys (f_sizes f))) | None => ["classes"] end = RK).
  { destruct has; [destruct Hdata as (d&->&E&_); exact E|]. destruct Hdata as [-> E]. auto. }
  rewrite Ek in H. clear Ek. apply bind_Ok in H. destruct H as (_&_&H). cbn [bind] in H.
  apply bind_Ok in H. destruct H as (_&_&H). apply bind_Ok in H. destruct H as ([]&Had&H).
  apply bind_Ok in H. destruct H as ([]&Hnum&H). apply bind_Ok in H. destruct H as (outs&Houts&H).
  apply bind_Ok in H. destruct H as ([]&_&H). apply bind_Ok in H. destruct H as (tg&Htg&H).
  apply bind_Ok in H. destruct H as (first&_&H). apply bind_Ok in H. destruct H as (row&_&H). apply bind_Ok in H. destruct H as ([]&_&H).
  apply Ok_inj in H. cbn [empty_reader r_num_inputs r_outputs r_targets r_seq_start r_file_start r_num_seqs r_tag_idx app last] in *.
  change (0 =? 0) with true in H. cbn iota in H.
  assert (Ec : cumsum (repeat 0 (f_cols f)) (f_lens f) = cumsum (sums (columns inp RK) []) (map (rrow (columns inp RK)) S)).
  { now rewrite sums_nil, Hcols, Hlens. }
  rewrite Ec in H. rewrite cumsum_len, map_length in H. replace (Datatypes.S (length S) - 1) with (length S) in H by lia.
  assert (Etg : tg = if has then RK else []).
  { destruct has.
    - destruct Hdata as (d&Ed&_). rewrite Ed in Htg. apply bind_Ok in Htg. destruct Htg as (_&_&Htg). apply Ok_inj in Htg. subst tg.
      apply filter_all. intros k _. reflexivity.
    - destruct Hdata as [Ed _]. rewrite Ed in Htg. now apply Ok_inj in Htg. }
  assert (Eo : forall k, In k (map fst outs) <-> has = true /\ In k RK).
  { intros k. destruct has.
    - destruct Hdata as (d&Ed&_). rewrite Ed in Houts. rewrite (mapM_sizes _ _ _ Houts). tauto.
    - destruct Hdata as [Ed _]. rewrite Ed in Houts. apply Ok_inj in Houts. subst. cbn. split; [easy|intros [? _]; discriminate]. }
  subst r'. constructor; cbn [r_files r_keys r_file_start r_seq_start r_num_inputs r_outputs r_targets r_num_seqs r_tag_idx].
  - reflexivity.
  - discriminate.
  - reflexivity.
  - cbn. reflexivity.
  - reflexivity.
  - destruct inp; [destruct Hin as (kind&->&Hk); now apply Nat.ltb_lt|now rewrite Hin].
  - cbn. now rewrite app_nil_r.
  - exact Etg.
  - reflexivity.
  - constructor; [|constructor]. split; [|split; [|exact Htags]].
    + intros ->. destruct Hin as (kind&E&_). eauto.
    + intros -> k Hk. destruct Hdata as (d&Ed&_&Hd&_). exists d. split; [exact Ed|now apply Hd].
  - intros ->. now destruct Hdata.
  - exact Hnd.
  - intros ->. destruct Hin as (kind&E&_). rewrite E in Had. apply assert_Ok in Had. apply negb_true_iff in Had. now apply mem_str_not in Had.
  - intros k.
    set (outs' := match f_inputs f with Some _ => _ | None => _ end).
    assert (E : In k (dkeys outs') <-> has = true /\ In k RK \/ inp = true /\ k = "data").
    { unfold outs'. destruct inp.
      - destruct Hin as ((k0&v0)&E&_). rewrite E. rewrite <- dget_keys, dget_dset_str, <- Eo.
        destruct (String.eqb "data" k) eqn:Ek.
        + apply String.eqb_eq in Ek. subst k. split; [auto|discriminate].
        + apply String.eqb_neq in Ek. rewrite dget_keys, fold_dset_keys. cbn. intuition congruence.
      - rewrite Hin. rewrite fold_dset_keys, Eo. cbn. intuition congruence. }
    exact E.
Qed.

Lemma add_file_next (f : hfile) r r' inp has RK fs Ss has' RK' S : rinv r inp has RK fs Ss -> stores f inp has' RK' S ->
  inp || has = true -> inp || has' = true -> inp = true \/ RK' = RK -> add_file r f = Ok r' ->
  rinv r' inp has RK (fs ++ [f]) (Ss ++ [S]).
Proof.
  intros [Gf Gne Gk Gst Gsq Gin Gnum Gt Gtag Ghas Gcl Gnd Gd Go] [Hin Hdata Hlens Hcols Htags Hne Hnd] Hih Hih' Hsame H.
  unfold add_file in H.
  assert (Ek : match f_data f with Some d => sort_names (dkeys d ++ filter (fun k => negb (mem_str k (dkeys d))) (dkeys (f_sizes f))) | None => ["classes"] end = RK').
  { destruct has'; [destruct Hdata as (d&->&E&_); exact E|]. destruct Hdata as [-> E]. auto. }
  rewrite Ek in H. clear Ek. apply bind_Ok in H. destruct H as (_&_&H).
  assert (Ep : match r_files r with [] => None | _ => Some (r_keys r) end = Some RK).
  { rewrite Gf, Gk. destruct fs; [congruence|reflexivity]. }
  rewrite Ep in H. clear Ep.
  assert (Hproj : exists lens cols, (if strs_eqb RK RK' then Ok (f_lens f, f_cols f, RK')
        else let* _ := assert_ (forallb (fun k => mem_str k RK') RK) in
             let* idxs := mapM (fun k => opt_index (index_str k RK')) RK in
             let cs := 0 :: map Datatypes.S idxs in
             let* _ := if forallb (fun c => c <? f_cols f) cs then Ok tt else Err IndexError in
             Ok (map (fun row => map (fun c => nth c row 0) cs) (f_lens f), length cs, RK)) = Ok (lens, cols, RK)
       /\ cumsum (repeat 0 cols) lens = cumsum (sums (columns inp RK) []) (map (rrow (columns inp RK)) S) /\ incl RK RK').
  { destruct (strs_eqb RK RK') eqn:Es.
    - apply strs_eqb_eq in Es. subst RK'. exists (f_lens f), (f_cols f). split; [reflexivity|]. split; [now rewrite sums_nil, Hcols, Hlens|apply incl_refl].
    - destruct Hsame as [->| ->]; [|exfalso; assert (strs_eqb RK RK = true) by (now apply strs_eqb_eq); congruence].
      cbn [bind] in H. apply bind_Ok in H. destruct H as (((lens&cols)&keys)&H&_). apply bind_Ok in H. destruct H as ([]&Ha&H).
      apply bind_Ok in H. destruct H as (idxs&Hi&H). cbv zeta in H. apply bind_Ok in H. destruct H as ([]&Hc&H).
      rewrite Ha. cbn [bind]. rewrite Hi. cbn [bind]. cbv zeta. rewrite Hc. cbn [bind]. eexists _, _. split; [reflexivity|].
      split; [|apply assert_Ok in Ha; now apply forallb_mem].
      rewrite Hlens, map_map, sums_nil. f_equal.
      + rewrite columns_len. cbn [length]. rewrite map_length. destruct S as [|s0 S']; [congruence|].
        destruct (pick_cols RK' RK idxs s0 Hi) as [_ ->]. reflexivity.
      + apply map_ext. intros s0. now destruct (pick_cols RK' RK idxs s0 Hi) as [-> _]. }
  destruct Hproj as (lens&cols&Ep&Ecum&Hincl). cbn [bind] in H, Ep. rewrite Ep in H. cbn [bind] in H. clear Ep.
  apply bind_Ok in H. destruct H as (_&_&H). apply bind_Ok in H. destruct H as ([]&Had&H).
  apply bind_Ok in H. destruct H as ([]&Hnum&H). apply bind_Ok in H. destruct H as (outs&Houts&H).
  apply bind_Ok in H. destruct H as ([]&Hsm&H). apply bind_Ok in H. destruct H as (tg&Htg&H).
  apply bind_Ok in H. destruct H as (first&_&H). apply bind_Ok in H. destruct H as (row&_&H). apply bind_Ok in H. destruct H as ([]&_&H).
  apply Ok_inj in H. rewrite Ecum in H. rewrite cumsum_len, map_length in H. replace (Datatypes.S (length S) - 1) with (length S) in H by lia.
  apply assert_Ok in Hnum, Hsm.
  assert (Eo : forall k, In k (map fst outs) <-> has' = true /\ In k RK).
  { intros k. destruct has'.
    - destruct Hdata as (d&Ed&_). rewrite Ed in Houts. rewrite (mapM_sizes _ _ _ Houts). tauto.
    - destruct Hdata as [Ed _]. rewrite Ed in Houts. apply Ok_inj in Houts. subst. cbn. split; [easy|intros [? _]; discriminate]. }
  set (outs' := match f_inputs f with Some _ => dset _ "data" _ | None => _ end) in *.
  assert (Eo' : forall k, In k (dkeys outs') <-> has' = true /\ In k RK \/ inp = true /\ k = "data").
  { intros k. unfold outs'. destruct inp.
    - destruct Hin as ((k0&v0)&E&_). rewrite E. rewrite <- dget_keys, dget_dset_str, <- Eo.
      destruct (String.eqb "data" k) eqn:Ek.
      + apply String.eqb_eq in Ek. subst k. split; [auto|discriminate].
      + apply String.eqb_neq in Ek. rewrite dget_keys, fold_dset_keys. cbn. intuition congruence.
    - rewrite Hin. rewrite fold_dset_keys, Eo. cbn. intuition congruence. }
  set (ro := match r_outputs r with [] => outs' | _ => _ end) in *.
  assert (Ero : ro = r_outputs r \/ (r_outputs r = [] /\ ro = outs')) by (unfold ro; destruct (r_outputs r); auto).
  assert (Ehas : has' = has \/ RK = []).
  { destruct RK as [|k0 RK0]; [now right|left]. pose proof (dict_same_keys _ _ Hsm k0) as Hk. rewrite Eo' in Hk.
    assert (Hd : inp = true -> k0 <> "data") by (intros Hi ->; apply (Gd Hi); now left).
    assert (Hro : In k0 (dkeys ro) <-> has = true /\ In k0 (k0 :: RK0) \/ inp = true /\ k0 = "data").
    { destruct Ero as [->|[E0 E1]]; [apply Go|]. exfalso.
      assert (Hx : exists x, In x (dkeys (r_outputs r))).
      { destruct has; [exists k0; apply Go; left; split; [reflexivity|now left]|]. destruct inp; [|discriminate]. exists "data". apply Go. auto. }
      destruct Hx as (x&Hx). rewrite E0 in Hx. exact Hx. }
    rewrite Hro in Hk. destruct has, has'; try reflexivity; exfalso.
    - destruct (proj1 Hk) as [[? _]|[? ?]]; [left; split; [reflexivity|now left]|discriminate|now apply Hd].
    - destruct (proj2 Hk) as [[? _]|[? ?]]; [left; split; [reflexivity|now left]|discriminate|now apply Hd]. }
  subst r'. constructor; cbn [r_files r_keys r_file_start r_seq_start r_num_inputs r_outputs r_targets r_num_seqs r_tag_idx].
  - now rewrite Gf.
  - destruct fs; discriminate.
  - reflexivity.
  - rewrite Gst, map_app. cbn [map]. now rewrite psums_snoc.
  - now rewrite Gsq, map_app.
  - destruct inp.
    + apply Nat.ltb_lt in Gin. destruct (r_num_inputs r); [lia|]. reflexivity.
    + rewrite Hin in Hnum |- *. apply Nat.ltb_ge in Gin. replace (r_num_inputs r) with 0 by lia. reflexivity.
  - rewrite Gnum, concat_app, app_length. cbn. now rewrite app_nil_r.
  - destruct has'.
    + destruct Hdata as (d&Ed&_). rewrite Ed in Htg. apply bind_Ok in Htg. destruct Htg as (_&_&Htg). apply Ok_inj in Htg. subst tg.
      rewrite Gt. destruct Ehas as [<-| ->]; [|destruct has; reflexivity].
      assert (E : forall l l0 : list string, incl l l0 -> filter (fun k => negb (mem_str k l0)) l = []).
      { induction l as [|x l IH]; intros l0 Hl; [reflexivity|]. cbn [filter].
        replace (mem_str x l0) with true by (symmetry; apply mem_str_In, Hl; now left). cbn. apply IH. intros y Hy. apply Hl. now right. }
      rewrite E by apply incl_refl. now rewrite app_nil_r.
    + destruct Hdata as [Ed _]. rewrite Ed in Htg. apply Ok_inj in Htg. now subst.
  - exact Gtag.
  - apply Forall2_app; [exact Ghas|]. constructor; [|constructor]. split; [|split; [|exact Htags]].
    + intros ->. destruct Hin as (kind&E&_). eauto.
    + intros Hh k Hk. destruct Ehas as [->| ->]; [|destruct Hk]. subst has.
      destruct Hdata as (d&Ed&_&Hd&_). exists d. split; [exact Ed|]. apply Hd. now apply Hincl.
  - exact Gcl.
  - exact Gnd.
  - exact Gd.
  - destruct Ero as [->|[E0 E1]]; [exact Go|]. intros k. rewrite E1, Eo'. destruct Ehas as [->| ->]; [tauto|]. cbn. tauto.
Qed.

(** *** reading *)
Section Reading.
Variables (r : reader) (inp has : bool) (RK : list string) (fs : list hfile) (Ss : list (list hseq)).
Hypothesis G : rinv r inp has RK fs Ss.

Lemma positions_spec j s : nth_error (concat Ss) j = Some s -> exists fi k S f,
  positions r j = Ok (fi, k, sums (columns inp RK) (firstn k S), sums (columns inp RK) (firstn (Datatypes.S k) S))
  /\ nth_error S k = Some s /\ pyget (r_files r) fi = Ok f /\ file_has f inp has RK S.
Proof.
  intros Hj. destruct (file_index_spec Ss 0 j s Hj) as (fi&k&S&H1&H2&H3&st&H4&H5). cbn [plus] in H1, H5.
  destruct G as [Gf Gne Gk Gst Gsq Gin Gnum Gt Gtag Ghas Gcl Gnd Gd Go].
  assert (Hx : exists f, nth_error fs fi = Some f).
  { destruct (nth_error fs fi) eqn:E; [eauto|]. exfalso. apply nth_error_None in E. rewrite (Forall2_len _ _ _ Ghas) in E.
    apply nth_error_None in E. congruence. }
  destruct Hx as (f&Hf). pose proof (Forall2_nth _ _ _ _ _ _ Ghas Hf H2) as Hh. exists fi, k, S, f.
  split; [|split; [exact H3|split; [unfold pyget; now rewrite Gf, Hf|exact Hh]]].
  unfold positions, file_index. rewrite Gst, H1. replace (Datatypes.S fi - 1) with fi by lia.
  unfold pyget at 1. rewrite Gsq, nth_error_map, H2. cbn [option_map bind]. unfold pyget at 1. rewrite H4. cbn [bind].
  replace (j - st) with k by lia.
  assert (Hk : k < length S) by (apply nth_error_Some; congruence).
  unfold pyget. rewrite cumsum_nth by lia. cbn [bind]. rewrite cumsum_nth by lia. reflexivity.
Qed.

Lemma sums_nth hs S c h : nth_error hs c = Some h -> pyget (sums hs S) c = Ok (length (flat_map h S)).
Proof. intros H. unfold pyget, sums. now rewrite nth_error_map, H. Qed.

Lemma real_data_spec j s : nth_error (concat Ss) j = Some s ->
  (inp = true -> real_data r j "data" = Ok (q_data s))
  /\ (has = true -> forall k, In k RK -> real_data r j k = Ok (target s k)).
Proof.
  intros Hj. destruct (positions_spec j s Hj) as (fi&k&S&f&Hp&Hk&Hf&Hh1&Hh2&_). unfold real_data. rewrite Hp. cbn [bind]. rewrite Hf. cbn [bind].
  rewrite (ri_inputs _ _ _ _ _ _ G). split.
  - intros ->. destruct (Hh1 eq_refl) as (kind&E). change (String.eqb "data" "data" && true) with true. cbn iota. rewrite E.
    rewrite !(sums_nth _ _ 0 q_data) by reflexivity. cbn [bind]. now rewrite slice_seq with (s := s).
  - intros -> key Hkey. destruct (Hh2 eq_refl key Hkey) as (d&Ed&Hd).
    assert (E : String.eqb key "data" && inp = false).
    { destruct inp eqn:Ei; [|now rewrite andb_false_r]. rewrite andb_true_r. apply String.eqb_neq. intros ->. exact (ri_data _ _ _ _ _ _ G eq_refl Hkey). }
    rewrite E, Ed, Hd. rewrite (ri_keys _ _ _ _ _ _ G). destruct (index_str_In key RK Hkey) as (i&Hi). rewrite Hi. cbn [opt_index bind].
    apply index_str_spec in Hi. destruct Hi as [Hi _].
    assert (Ec : nth_error (columns inp RK) ((if inp then 1 else 0) + i) = Some (fun s => target s key)).
    { unfold columns. destruct inp; cbn [app plus nth_error]; now rewrite nth_error_map, Hi. }
    rewrite !(sums_nth _ _ _ _ Ec). cbn [bind]. now rewrite (slice_seq (fun s => target s key)) with (s := s).
Qed.

Lemma real_tag_spec j s : nth_error (concat Ss) j = Some s -> real_tag r j = Ok (q_tag s).
Proof.
  intros Hj. destruct (positions_spec j s Hj) as (fi&k&S&f&Hp&Hk&Hf&_&_&Ht). unfold real_tag. rewrite Hp. cbn [bind]. rewrite Hf. cbn [bind].
  apply (f_equal (fun l => nth_error l k)) in Ht. rewrite !nth_error_map, Hk in Ht. unfold pyget.
  destruct (nth_error (f_tags f) k); [|discriminate]. cbn in Ht |- *. congruence.
Qed.

Lemma fold_zip (g : string -> nat) : forall l d k,
  dget (fold_left (fun d kl => dset d (fst kl) (snd kl)) (combine l (map g l)) d) k = if mem_str k l then Some (g k) else dget d k.
Proof.
  induction l as [|x l IH]; intros d k; cbn [map combine fold_left]; [reflexivity|]. rewrite IH. unfold mem_str. cbn [existsb fst snd].
  fold (mem_str k l). rewrite dget_dset_str. destruct (mem_str k l); [now rewrite orb_true_r|]. rewrite orb_false_r, String.eqb_sym.
  destruct (String.eqb k x) eqn:E; [|reflexivity]. apply String.eqb_eq in E. now subst.
Qed.

Lemma real_seq_length_spec j s : nth_error (concat Ss) j = Some s -> exists d, real_seq_length r j = Ok d
  /\ (inp = true -> dget d "data" = Some (length (q_data s)))
  /\ (forall k, In k RK -> dget d k = Some (length (target s k))).
Proof.
  intros Hj. destruct (positions_spec j s Hj) as (fi&k&S&f&Hp&Hk&_&_). unfold real_seq_length, real_lens. rewrite Hp. cbn [bind].
  rewrite (vec_sub_sums _ _ _ _ Hk), (ri_inputs _ _ _ _ _ _ G), (ri_keys _ _ _ _ _ _ G).
  destruct inp eqn:Ei.
  - cbn [rrow columns app map pyget nth_error bind skipn]. eexists. split; [reflexivity|].
    rewrite map_map. split.
    + intros _. rewrite (fold_zip (fun k0 => length (target s k0))). destruct (mem_str "data" RK) eqn:Em; [|reflexivity].
      apply mem_str_In in Em. exfalso. exact (ri_data _ _ _ _ _ _ G eq_refl Em).
    + intros key Hkey. rewrite (fold_zip (fun k0 => length (target s k0))). apply mem_str_In in Hkey. now rewrite Hkey.
  - eexists. split; [reflexivity|]. split; [discriminate|]. intros key Hkey. unfold rrow, columns. cbn [app]. rewrite map_map.
    rewrite (fold_zip (fun k0 => length (target s k0))). apply mem_str_In in Hkey. now rewrite Hkey.
Qed.

Lemma all_tags_spec : get_all_tags r = map q_tag (concat Ss).
Proof.
  unfold get_all_tags. rewrite (ri_files _ _ _ _ _ _ G). pose proof (ri_has _ _ _ _ _ _ G) as H. revert H. generalize fs Ss.
  induction 1 as [|f S fs' Ss' (_&_&Ht) _ IH]; [reflexivity|]. cbn [flat_map concat]. now rewrite !map_app, IH, Ht.
Qed.

Definition tag_dict (Q : list hseq) : @dict string nat :=
  fold_left (fun d ti => dset d (fst ti) (snd ti)) (combine (map q_tag Q) (seq 0 (length Q))) [].
Lemma combine_snoc {T U} (a : list T) (b : list U) x y : length a = length b -> combine (a ++ [x]) (b ++ [y]) = combine a b ++ [(x, y)].
Proof. revert b. induction a as [|u a IH]; intros [|v b] H; try discriminate; [reflexivity|]. cbn. rewrite IH by (now injection H). reflexivity. Qed.
Lemma tag_dict_snoc Q s : tag_dict (Q ++ [s]) = dset (tag_dict Q) (q_tag s) (length Q).
Proof.
  unfold tag_dict. rewrite map_app, app_length. cbn [map length]. rewrite seq_app. cbn [seq].
  rewrite combine_snoc by (now rewrite map_length, seq_length). rewrite fold_left_app. reflexivity.
Qed.
Lemma tag_dict_spec Q :
  (forall t, In t (map q_tag Q) -> exists before s after, Q = before ++ s :: after /\ q_tag s = t /\ ~ In t (map q_tag after)
     /\ dget (tag_dict Q) t = Some (length before))
  /\ (forall t, ~ In t (map q_tag Q) -> dget (tag_dict Q) t = None).
Proof.
  induction Q as [|s Q [IH1 IH2]] using rev_ind; [split; [intros t []|reflexivity]|].
  rewrite tag_dict_snoc. split.
  - intros t Ht. rewrite dget_dset_str. destruct (String.eqb (q_tag s) t) eqn:E.
    + apply String.eqb_eq in E. exists Q, s, []. auto.
    + apply String.eqb_neq in E. rewrite map_app, in_app_iff in Ht. destruct Ht as [Ht|[Ht|[]]]; [|now elim E].
      destruct (IH1 t Ht) as (b&x&a&EQ&Hx&Hn&Hd). exists b, x, (a ++ [s]). split; [rewrite EQ; now rewrite <- app_assoc|].
      split; [exact Hx|]. split; [|exact Hd]. rewrite map_app, in_app_iff. intros [Hi|[Hi|[]]]; auto.
  - intros t Ht. rewrite map_app, in_app_iff in Ht. cbn in Ht. rewrite dget_dset_str.
    destruct (String.eqb (q_tag s) t) eqn:E; [apply String.eqb_eq in E; tauto|]. apply IH2. tauto.
Qed.

Lemma tags_read : mapM (fun i => let* t := real_tag r i in Ok (t, i)) (seq 0 (r_num_seqs r))
  = Ok (combine (map q_tag (concat Ss)) (seq 0 (length (concat Ss)))).
Proof.
  rewrite (ri_num _ _ _ _ _ _ G). pose proof real_tag_spec as HT. revert HT. generalize (concat Ss). intros Q HT.
  assert (E : forall Q1 Q2, Q = Q1 ++ Q2 -> mapM (fun i => let* t := real_tag r i in Ok (t, i)) (seq (length Q1) (length Q2))
    = Ok (combine (map q_tag Q2) (seq (length Q1) (length Q2)))).
  { intros Q1 Q2. revert Q1. induction Q2 as [|s Q2 IH]; intros Q1 HQ; [reflexivity|]. cbn [length seq mapM map combine].
    rewrite (HT (length Q1) s) by (rewrite HQ, nth_error_app2, Nat.sub_diag by lia; reflexivity). cbn [bind].
    specialize (IH (Q1 ++ [s])). rewrite app_length in IH. cbn [length] in IH. rewrite Nat.add_1_r in IH. rewrite IH by (rewrite HQ, <- app_assoc; reflexivity).
    reflexivity. }
  exact (E [] Q eq_refl).
Qed.

Definition with_index (r0 : reader) (tags : @dict string nat) (l : list nat) : reader :=
  {| r_files := r_files r0; r_keys := r_keys r0; r_file_start := r_file_start r0; r_seq_start := r_seq_start r0;
     r_num_inputs := r_num_inputs r0; r_outputs := r_outputs r0; r_targets := r_targets r0; r_labels := r_labels r0;
     r_num_seqs := r_num_seqs r0; r_tag_idx := tags; r_index := l |}.

Lemma shows_at tags l i j s : nth_error l i = Some j -> nth_error (concat Ss) j = Some s ->
  shows (with_index r tags l) i inp (if has then RK else []) s.
Proof.
  intros Hi Hj. unfold shows, get_tag, get_data, get_seq_length. cbn [r_index with_index]. unfold pyget at 1 2 3 4. rewrite Hi. cbn [bind].
  change (real_tag (with_index r tags l) j) with (real_tag r j).
  change (real_data (with_index r tags l) j "data") with (real_data r j "data").
  change (real_seq_length (with_index r tags l) j) with (real_seq_length r j).
  destruct (real_data_spec j s Hj) as [D1 D2]. split; [now apply real_tag_spec|]. split; [exact D1|]. split.
  - intros k Hk. change (real_data (with_index r tags l) j k) with (real_data r j k). destruct has; [now apply D2|destruct Hk].
  - destruct (real_seq_length_spec j s Hj) as (d&Hd&L1&L2). exists d. split; [exact Hd|]. split; [exact L1|].
    intros k Hk. apply L2. destruct has; [exact Hk|destruct Hk].
Qed.

Lemma rinv_dataset : is_dataset r inp (if has then RK else []) (concat Ss).
Proof.
  assert (Upd : update_tag_idx r = Ok (with_index r (tag_dict (concat Ss)) (r_index r))).
  { unfold update_tag_idx. rewrite (ri_tag _ _ _ _ _ _ G), tags_read. reflexivity. }
  destruct (tag_dict_spec (concat Ss)) as [T1 T2].
  split; [exact (ri_num _ _ _ _ _ _ G)|]. split; [apply all_tags_spec|]. split; [|split; [|split]].
  - intros k. unfold data_keys. rewrite (ri_inputs _ _ _ _ _ _ G), (ri_targets _ _ _ _ _ _ G), in_app_iff.
    destruct inp; cbn; intuition congruence.
  - intros o l Ho. exists (with_index r (r_tag_idx r) l). split; [destruct Ho as [->| ->]; reflexivity|]. split; [reflexivity|].
    intros i j s Hi Hj. exact (shows_at _ _ _ _ _ Hi Hj).
  - intros tags Hincl.
    assert (HM : exists l, mapM (fun t => match dget (tag_dict (concat Ss)) t with Some i => Ok i | None => Err KeyError end) tags = Ok l
      /\ Forall2 (fun t i => dget (tag_dict (concat Ss)) t = Some i) tags l).
    { induction tags as [|t tags IH]; [exists []; split; [reflexivity|constructor]|].
      destruct IH as (l&Hl&Fl); [intros x Hx; apply Hincl; now right|].
      destruct (T1 t) as (b&s&a&_&_&_&Hd); [apply Hincl; now left|]. exists (length b :: l). cbn [mapM]. rewrite Hd. cbn [bind]. rewrite Hl. cbn [bind].
      split; [reflexivity|constructor; auto]. }
    destruct HM as (l&Hl&Fl). exists (with_index r (tag_dict (concat Ss)) l). split.
    + unfold init_seq_order. rewrite Upd. cbn [bind]. change (r_tag_idx (with_index r (tag_dict (concat Ss)) (r_index r))) with (tag_dict (concat Ss)).
      rewrite Hl. reflexivity.
    + split; [unfold num_seqs; cbn; symmetry; exact (Forall2_len _ _ _ Fl)|]. intros i t Hi.
      assert (Hx : exists j, nth_error l i = Some j).
      { destruct (nth_error l i) eqn:E; [eauto|]. apply nth_error_None in E. rewrite <- (Forall2_len _ _ _ Fl) in E. apply nth_error_None in E. congruence. }
      destruct Hx as (j&Hj). pose proof (Forall2_nth _ _ _ _ _ _ Fl Hi Hj) as Hd. cbn beta in Hd.
      destruct (T1 t) as (b&s&a&EQ&Hs&Hn&Hd'); [apply Hincl; exact (nth_error_In _ _ Hi)|]. exists s, b, a.
      split; [exact EQ|]. split; [exact Hs|]. split; [exact Hn|]. apply (shows_at _ _ _ j); [exact Hj|].
      rewrite Hd in Hd'. injection Hd' as ->. rewrite EQ, nth_error_app2, Nat.sub_diag by lia. reflexivity.
  - intros tags t Ht Hno. exists KeyError. unfold init_seq_order. rewrite Upd. cbn [bind]. change (r_tag_idx (with_index r (tag_dict (concat Ss)) (r_index r))) with (tag_dict (concat Ss)).
    assert (E : mapM (fun t => match dget (tag_dict (concat Ss)) t with Some i => Ok i | None => Err KeyError end) tags = Err KeyError); [|now rewrite E].
    clear Upd. induction tags as [|x tags IH]; [destruct Ht|]. cbn [mapM]. destruct Ht as [->|Ht].
    + now rewrite T2.
    + destruct (dget (tag_dict (concat Ss)) x); [|reflexivity]. cbn [bind]. now rewrite IH.
Qed.
End Reading.

(** *** a file of [SimpleHDFWriter] *)
Lemma cut_nul_id t : no_nul t -> cut_nul t = t.
Proof.
  induction t as [|c t IH]; [reflexivity|]. cbn. intros [Hc Ht]. destruct (c =? "000")%char eqn:E; [apply Ascii.eqb_eq in E; congruence|]. now rewrite IH.
Qed.

Lemma inv_stores (w : @writer A) K S : inv w K S 0 -> S <> [] -> Forall (fun s => no_nul (q_tag s)) S ->
  stores (w_file w) true (negb (match K with [] => true | _ => false end)) (match K with [] => ["classes"] | _ => sort_names K end) S.
Proof.
  intros I Hne Htags. constructor.
  - pose proof (i_inputs _ _ _ _ I) as H. destruct S; [congruence|exact H].
  - pose proof (i_data _ _ _ _ I) as H. destruct (f_data (w_file w)) as [d|] eqn:Ed.
    + destruct H as (HK&Hd&Hg).       assert (EN : negb (match K with [] => true | _ => false end) = true) by (destruct K; [congruence|reflexivity]).
      assert (ER : match K with [] => ["classes"] | _ => sort_names K end = sort_names K) by (destruct K; [congruence|reflexivity]).
      rewrite EN, ER.
      exists d. split; [reflexivity|]. split; [|split].
      * assert (E : filter (fun k => negb (mem_str k (dkeys d))) (dkeys (f_sizes (w_file w))) = []).
        { pose proof (i_sizes _ _ _ _ I) as Hs.
          assert (G : forall l, incl l K -> filter (fun k => negb (mem_str k (dkeys d))) l = []).
          { induction l as [|x l IH]; intros Hl; [reflexivity|]. cbn [filter]. replace (mem_str x (dkeys d)) with true.
            - cbn. apply IH. intros y Hy. apply Hl. right. exact Hy.
            - symmetry. apply mem_str_In. rewrite Hd. apply Hl. left. reflexivity. }
          apply G. intros x Hx. apply Hs in Hx. exact Hx. }
        now rewrite E, app_nil_r, Hd.
      * intros k Hk. rewrite sort_names_In in Hk. now apply Hg.
      * intros k Hk. rewrite sort_names_In in Hk. apply (proj2 (i_sizes _ _ _ _ I k)), (proj2 (dget_keys _ _)) in Hk. destruct (dget (f_sizes (w_file w)) k); [eauto|congruence].
    + subst K. cbn. auto.
  - rewrite (i_lens _ _ _ _ I). cbn [repeat]. rewrite app_nil_r. apply map_ext_in. intros s Hs.
    pose proof (i_keys _ _ _ _ I s Hs) as Hk. unfold row, rrow, columns. cbn [app map]. f_equal. destruct K as [|k0 K0] eqn:EK.
    + cbn. unfold target. destruct (dget (q_extra s) "classes") eqn:E; [|reflexivity]. exfalso.
      assert (Hi : In "classes" (dkeys (q_extra s))) by (apply dget_keys; congruence). exact (Hk _ Hi).
    + rewrite map_map. reflexivity.
  - rewrite (i_cols _ _ _ _ I), columns_len. unfold cols. destruct K as [|k0 K0] eqn:EK; [reflexivity|]. rewrite sort_names_len. reflexivity.
  - rewrite (i_tags _ _ _ _ I). cbn [repeat]. rewrite app_nil_r, map_map. apply map_ext_in. intros s Hs.
    apply cut_nul_id. exact (proj1 (Forall_forall _ _) Htags s Hs).
  - exact Hne.
  - pose proof (i_nodup _ _ _ _ I) as Hn. destruct K as [|k0 K0] eqn:EK; [repeat constructor; easy|].
    eapply Permutation_NoDup; [apply Permutation_sym, sort_names_perm|exact Hn].
Qed.

Lemma first_accepts (f : hfile) inp has RK S : stores f inp has RK S -> (inp = true -> ~ In "data" RK) -> inp = true \/ RK <> [] ->
  (inp || has = true) -> exists r, add_file empty_reader f = Ok r.
Proof.
  intros [Hin Hdata Hlens Hcols Htags Hne Hnd] Hd HRK Hih. unfold add_file. cbn [r_files empty_reader].
  assert (Ek : match f_data f with Some d => sort_names (dkeys d ++ filter (fun k => negb (mem_str k (dkeys d))) (dkeys (f_sizes f))) | None => ["classes"] end = RK).
  { destruct has; [destruct Hdata as (d&->&E&_); exact E|]. destruct Hdata as [-> E]. auto. }
  rewrite Ek. clear Ek. rewrite columns_len in Hcols.
  assert (Ei : match f_inputs f with Some _ => 1 | None => 0 end = if inp then 1 else 0).
  { destruct inp; [destruct Hin as (kd&->&_)|rewrite Hin]; reflexivity. }
  rewrite Ei. cbv zeta. rewrite Hcols, Nat.eqb_refl. cbn [assert_ bind].
  assert (Ec : ((if inp then 1 else 0) + length RK =? 0) || (length (f_lens f) =? 0) = false).
  { apply orb_false_iff. split; apply Nat.eqb_neq; [destruct HRK as [->|HRK]; [discriminate|]; destruct RK; [congruence|]; cbn; lia|]. rewrite Hlens, map_length. destruct S; [congruence|discriminate]. }
  rewrite Ec. cbn [bind].
  assert (Ea : match f_inputs f with Some _ => assert_ (negb (mem_str "data" RK)) | None => Ok tt end = Ok tt).
  { destruct inp; [|now rewrite Hin]. destruct Hin as (kd&->&_). rewrite (proj2 (mem_str_not "data" RK)) by (now apply Hd). reflexivity. }
  rewrite Ea. cbn [bind r_num_inputs empty_reader]. change (0 =? 0) with true. cbn iota. rewrite Nat.eqb_refl. cbn [assert_ bind].
  assert (Eo : exists outs, match f_data f with None => Ok [] | Some _ =>
     mapM (fun k => match dget (f_sizes f) k with Some s => Ok (k, s) | None => Err KeyError end) RK end = Ok outs).
  { destruct has; [|destruct Hdata as [-> _]; eauto]. destruct Hdata as (d&->&_&_&Hs). clear - Hs.
    induction RK as [|k RK IH]; [eexists; reflexivity|]. cbn [mapM]. destruct (Hs k) as (sz&->); [now left|]. cbn [bind].
    destruct IH as (o&->); [intros x Hx; apply Hs; now right|]. eexists. reflexivity. }
  destruct Eo as (outs&Eo). rewrite Eo. cbn [bind r_outputs empty_reader].
  assert (Self : forall d : @dict string (nat * nat), dict_ok d -> dict_same d d = true).
  { intros d Hok. unfold dict_same. apply andb_true_iff. rewrite !forallb_forall. split; intros [k v] Hkv; cbn [fst snd].
    - rewrite (In_dget d k v Hok Hkv). now rewrite !Nat.eqb_refl.
    - unfold dhas. now rewrite (In_dget d k v Hok Hkv). }
  assert (Fok : forall (l : list (string * (nat * nat))) d, dict_ok d -> dict_ok (fold_left (fun d kv => dset d (fst kv) (snd kv)) l d)).
  { induction l as [|x l IH]; intros d Hok; [exact Hok|]. cbn. apply IH. now apply dict_ok_dset. }
  rewrite Self.
  2:{ destruct (f_inputs f); [apply dict_ok_dset|]; apply Fok; constructor. }
  cbn [assert_ bind].
  assert (Et : exists tg, match f_data f with
                  | None => Ok (r_targets (@empty_reader A))
                  | Some d =>
                      let* _ := if forallb (fun k => dhas d k) RK then Ok tt else Err KeyError in
                      Ok (r_targets (@empty_reader A) ++ filter (fun k => negb (mem_str k (r_targets (@empty_reader A)))) RK)
                  end = Ok tg).
  { destruct has; [|destruct Hdata as [-> _]; eauto]. destruct Hdata as (d&->&_&Hg&_).
    replace (forallb (fun k => dhas d k) RK) with true; [eexists; reflexivity|]. symmetry. apply forallb_forall. intros k Hk. unfold dhas. now rewrite Hg. }
  destruct Et as (tg&Et). rewrite Et. cbn [bind r_seq_start empty_reader app pyget nth_error].
  assert (Er : nth_error (cumsum (repeat 0 ((if inp then 1 else 0) + length RK)) (f_lens f)) 0 = Some (repeat 0 ((if inp then 1 else 0) + length RK))).
  { destruct (f_lens f); reflexivity. }
  unfold pyget. rewrite Er. cbn [bind]. rewrite repeat_length, Nat.eqb_refl. cbn [assert_ bind]. eexists. reflexivity.
Qed.
End R.
