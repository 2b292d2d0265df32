(** Proofs about HDF files, part 3: what the writer accepts. *)
From Coq Require Import String Ascii.
From Verif Require Import Base PyDict ListLemmas OptimModel OptimProofs HdfModel HdfSpec HdfProofs.
Local Open Scope string_scope.
Local Open Scope nat_scope.
Local Open Scope list_scope.
Local Notation length := List.length.

Section O.
Context {A : Type} (zero : A) (of_size : nat -> A).
Notation hseq := (@hseq A).
Notation hfile := (@hfile A).
Notation writer := (@writer A).

Lemma resize_len {T} (z : T) l n : length (resize z l n) = n.
Proof. unfold resize. rewrite app_length, firstn_length, repeat_length. lia. Qed.

Lemma set_len_ok (f : hfile) i j v row : nth_error (f_lens f) i = Some row -> j < length row ->
  exists lens row', set_len f i j v = Ok (with_lens f lens (f_cols f)) /\ nth_error lens i = Some row' /\ length row' = length row.
Proof.
  intros Hr Hj. unfold set_len, pyget. rewrite Hr. cbn [bind]. destruct (set_nth_total row j v Hj) as (row'&E1). rewrite E1. cbn [bind].
  destruct (set_nth_total (f_lens f) i row') as (lens&E2); [apply nth_error_Some; congruence|]. rewrite E2. cbn [bind].
  exists lens, row'. split; [reflexivity|]. split; [|exact (set_nth_len _ _ _ _ E1)].
  rewrite (set_nth_nth _ _ _ _ E2). now rewrite Nat.eqb_refl.
Qed.

Lemma reinit_ok steps i : forall keys (f : hfile) j row, nth_error (f_lens f) i = Some row -> j + length keys < length row ->
  (forall k, In k keys -> exists n, dget steps k = Some n) -> exists lens, reinit_lens f steps i j keys = Ok (with_lens f lens (f_cols f)).
Proof.
  induction keys as [|k keys IH]; intros f j row Hr Hl Hs; cbn [reinit_lens].
  - exists (f_lens f). now destruct f.
  - destruct (Hs k) as (n&->); [now left|]. cbn [length] in Hl. destruct (set_len_ok f i (S j) n row Hr) as (lens&row'&E&Hr'&Hl'); [lia|].
    rewrite E. cbn [bind]. destruct (IH (with_lens f lens (f_cols f)) (S j) row') as (lens2&E2); [exact Hr'|lia|intros x Hx; apply Hs; now right|].
    exists lens2. exact E2.
Qed.

Lemma ready_ok w K (S : list hseq) s p key raw : ready w K S s p key -> exists w',
  match dget (w_steps w) key, f_data (w_file w), index_str key (sort_names (w_prepared w)) with
  | Some old, Some d, Some idx =>
      match dget d key with
      | None => Err KeyError
      | Some frames =>
          let steps := old + length raw in
          let frames := resize zero frames steps in
          let* f := set_len (w_file w) (length S) (Datatypes.S idx) (length raw) in
          let* frames := assign_from frames (steps - length raw) raw in
          Ok {| w_dim := w_dim w; w_ndim := w_ndim w; w_extend := w_extend w;
                w_file := {| f_inputs := f_inputs f; f_data := Some (dset d key frames); f_sizes := f_sizes f;
                             f_labels := f_labels f; f_tlabels := f_tlabels f; f_lens := f_lens f; f_cols := f_cols f;
                             f_tags := f_tags f; f_steps := f_steps f; f_seqs := f_seqs f |};
                w_steps := dset (w_steps w) key steps; w_prepared := w_prepared w |}
      end
  | _, _, _ => Err KeyError
  end = Ok w' /\ f_inputs (w_file w') = f_inputs (w_file w) /\ w_extend w' = w_extend w.
Proof.
  intros (r&HL&(idx&a&x&b&c&Hi&Ha&Hla&Er)&HK&Hperm&I).
  assert (Hp : In key (w_prepared w)) by (apply (Permutation_in _ (Permutation_sym Hperm)); exact HK).
  pose proof (i_wsteps _ _ _ _ I key Hp) as HS. cbn [with_file w_steps] in HS. rewrite HS.
  pose proof (i_data _ _ _ _ I) as HD. cbn [with_file w_file with_lens f_data] in HD.
  destruct (f_data (w_file w)) as [d|]; [|subst K; destruct HK]. destruct HD as (_&_&HD). specialize (HD key HK).
  assert (ES : sort_names (w_prepared w) = sort_names K).
  { apply sort_names_same; [eapply Permutation_NoDup; [apply Permutation_sym; exact Hperm|]| |]; try exact (i_nodup _ _ _ _ I).
    intros y. split; apply Permutation_in; [exact Hperm|now apply Permutation_sym]. }
  rewrite ES, Hi, HD. cbv zeta.
  destruct (set_len_ok (w_file w) (length S) (Datatypes.S idx) (length raw) r) as (lens&row'&E&_).
  - rewrite HL, nth_error_app2, map_length, Nat.sub_diag by (rewrite map_length; lia). reflexivity.
  - rewrite Er. cbn [length]. rewrite app_length. cbn [length]. lia.
  - rewrite E. cbn [bind]. set (fr := flat_map (fun s0 => target s0 key) (S ++ [s])). rewrite resize_grow.
    replace (length fr + length raw - length raw) with (length fr) by lia. rewrite assign_end. cbn [bind].
    eexists. split; [reflexivity|]. split; reflexivity.
Qed.

Lemma prepare_one_inputs (w : writer) key dim ndim els w' : prepare_one w key dim ndim els = Ok w' -> f_inputs (w_file w') = f_inputs (w_file w) .
Proof.
  unfold prepare_one. intros H. apply bind_Ok in H. destruct H as (ls&_&H). destruct (w_extend w).
  - destruct (f_data (w_file w)); [|discriminate]. destruct (dget d key); [|discriminate]. apply Ok_inj in H. now subst.
  - apply Ok_inj in H. now subst.
Qed.

Lemma insert_other_ok (w : writer) K S s p key raw dim ndim : inv w K (S ++ [s]) p -> w_extend w = false -> ~ In key (dkeys (q_extra s)) ->
  key <> "inputs" -> In key K \/ S = [] ->
  exists w', insert_other zero w key raw dim ndim = Ok w' /\ f_inputs (w_file w') = f_inputs (w_file w).
Proof.
  intros I He Hn Hin HK. unfold insert_other.
  assert (HA : (0 <? f_seqs (w_file w)) && (0 <? length (f_lens (w_file w))) = true).
  { rewrite (i_seqs _ _ _ _ I), (i_lens _ _ _ _ I), !app_length, map_length, app_length. cbn [length].
    apply andb_true_iff. split; apply Nat.ltb_lt; lia. }
  rewrite HA. cbn [assert_ bind]. rewrite (i_seqs _ _ _ _ I), app_length. cbn [length]. replace (length S + 1 - 1) with (length S) by lia.
  destruct (i_prep _ _ _ _ I) as [Hperm|(E&_)]; [|congruence].
  assert (Hx : exists w1 added w2, prepare_extra w [(key, (Some dim, ndim))] [] = Ok (w1, added) /\
     (if added then
       let* _ := assert_ ((length S =? 0) || w_extend w1) in
       let* f := reinit_lens (w_file w1) (w_steps w1) (length S) 0 (sort_names (w_prepared w1)) in
       Ok (with_file w1 f)
     else Ok w1) = Ok w2 /\ f_inputs (w_file w2) = f_inputs (w_file w)).
  { unfold prepare_extra. cbn [prepare_loop]. rewrite (proj2 (String.eqb_neq key "inputs") Hin). cbn [negb assert_ bind].
    destruct (mem_str key (w_prepared w)) eqn:Em.
    - cbn [bind]. exists w, false, w. auto.
    - assert (HS : S = []).
      { destruct HK as [HK|HK]; [|exact HK]. apply mem_str_not in Em. exfalso. apply Em. exact (Permutation_in _ (Permutation_sym Hperm) HK). }
      subst S. unfold prepare_one. cbn [dget bind]. rewrite He. cbn [bind Nat.ltb Nat.leb w_extend negb andb].
      eexists _, _. cbv beta iota.
      cbn [w_file w_steps w_prepared resize_cols with_file with_lens f_lens f_cols length].
      destruct (reinit_ok (dset (w_steps w) key 0) 0 (sort_names (w_prepared w ++ [key]))
         (resize_cols {| f_inputs := f_inputs (w_file w); f_data := Some (dset match f_data (w_file w) with Some d => d | None => [] end key []);
              f_sizes := dset (f_sizes (w_file w)) key (or_one (Some dim), if ndim =? 0 then 1 else ndim); f_labels := f_labels (w_file w);
              f_tlabels := dset (f_tlabels (w_file w)) key ["dummy-label"]; f_lens := f_lens (w_file w); f_cols := f_cols (w_file w);
              f_tags := f_tags (w_file w); f_steps := f_steps (w_file w); f_seqs := f_seqs (w_file w) |} (1 + length (w_prepared w ++ [key])))
          0 (resize 0 (row K s) (1 + length (w_prepared w ++ [key])))) as (lens&E).
      + unfold resize_cols. cbn [with_lens f_lens]. rewrite (i_lens _ _ _ _ I). reflexivity.
      + rewrite sort_names_len, resize_len. lia.
      + intros k Hk. rewrite dget_dset_str. destruct (String.eqb key k) eqn:Ek; [eauto|]. rewrite sort_names_In in Hk. apply in_app_iff in Hk.
        destruct Hk as [Hk|[->|[]]]; [|now rewrite String.eqb_refl in Ek]. rewrite (i_wsteps _ _ _ _ I k Hk). eauto.
      + eexists. split; [reflexivity|]. cbn [Nat.eqb orb assert_ bind]. cbn [with_file w_file w_steps w_prepared].
        rewrite E. cbn [bind]. split; reflexivity. }
  destruct Hx as (w1&added&w2&HP&H2&HI). rewrite HP. cbn [bind].
  destruct (prepare_ready of_size w K S s p key dim ndim w1 added w2 I Hn HP H2) as (K'&HR&_&_).
  destruct (ready_ok w2 K' S s p key raw HR) as (w'&Hw'&HI'&_).
  exists w'. split; [rewrite H2; cbn [bind]; exact Hw'|congruence].
Qed.

Lemma insert_extras_ok i : forall extra (w : writer) K S s p, inv w K (S ++ [s]) p -> w_extend w = false ->
  NoDup (dkeys (q_extra s) ++ map fst extra) -> ~ In "inputs" (map fst extra) -> incl (map fst extra) K \/ S = [] ->
  Forall (fun e => i < length (snd (snd e))) extra ->
  exists w', insert_extras zero w i extra = Ok w' /\ f_inputs (w_file w') = f_inputs (w_file w).
Proof.
  induction extra as [|[key [[dim ndim] vals]] extra IH]; intros w K S s p I He Nd Hin HK HF.
  - exists w. split; reflexivity.
  - cbn [insert_extras]. inversion HF as [|? ? H1 H2]; subst. cbn [snd] in H1. cbn [map fst] in *.
    unfold pyget. destruct (nth_error vals i) as [v|] eqn:Ev; [|apply nth_error_None in Ev; lia]. cbn [bind].
    assert (Hn : ~ In key (dkeys (q_extra s))) by (intros Hi; apply (NoDup_disj _ _ Nd key Hi); now left).
    destruct (insert_other_ok w K S s p key v dim ndim I He Hn) as (w1&E1&EI1).
    + intros ->. apply Hin. now left.
    + destruct HK as [HK|HK]; [left; apply HK; now left|now right].
    + rewrite E1. cbn [bind]. destruct (insert_other_spec zero of_size _ _ _ _ _ _ _ _ _ _ I Hn E1) as (K1&I1&HK1&_&(F1&F2&F3)).
      destruct (IH w1 K1 S (add_extra s key v) p I1) as (w'&E2&EI2).
      * congruence.
      * cbn [add_extra q_extra]. unfold dkeys. rewrite map_app. cbn [map fst]. rewrite <- app_assoc. exact Nd.
      * intros Hi. apply Hin. now right.
      * destruct HK as [HK|HK]; [left|now right]. intros x Hx. destruct HK1 as [->|[-> _]]; [|apply in_or_app; left]; apply HK; now right.
      * exact H2.
      * exists w'. split; [exact E2|congruence].
Qed.

(** what the reader will see as dim and number of axes *)
Definition kind_of (dim : option nat) (ndim : nat) (b : @batch A) : nat * nat :=
  match dim with Some (Datatypes.S n) => if naxes b =? ndim then (Datatypes.S n, 1) else (Datatypes.S n, 2) | _ => (1, 1) end.
Definition kind_fits (f : hfile) (kind : nat * nat) : Prop := match f_inputs f with Some (_, k) => k = kind | None => True end.

Lemma insert_inputs_ok (w : writer) K S p tag data kind tags f :
  inv w K S (Datatypes.S p) -> w_extend w = false -> kind_fits (w_file w) kind ->
  f_inputs f = f_inputs (w_file w) -> f_steps f = f_steps (w_file w) ->
  tags = tag :> string -> exists w', insert_inputs zero (with_file w f) data kind = Ok w' /\ (exists l, f_inputs (w_file w') = Some (l, kind)) /\ w_extend w' = false.
Proof.
  intros I He Hk Ef Es _. unfold insert_inputs. cbn [with_file w_file w_extend]. rewrite Ef, Es, He. unfold kind_fits in Hk.
  pose proof (i_inputs _ _ _ _ I) as HI. destruct S as [|s0 S'].
  - rewrite HI. cbn [bind]. rewrite (i_steps _ _ _ _ I). cbn [flat_map length].
    pose proof (assign_end [] data zero) as Ea. cbn [app length] in Ea. rewrite Ea. cbn [bind]. eexists. split; [reflexivity|]. split; [eexists; reflexivity|exact He].
  - destruct HI as (kd&HI&_). rewrite HI in Hk |- *. subst kd. rewrite !Nat.eqb_refl. cbn [andb bind].
    rewrite resize_grow, (i_steps _ _ _ _ I), assign_end. cbn [bind]. eexists. split; [reflexivity|]. split; [eexists; reflexivity|exact He].
Qed.

Lemma prod_skip (b : @batch A) (dim : option nat) ndim : batch_valid dim ndim b ->
  prod (skipn (Datatypes.S (naxes b)) (b_shape b)) = match dim with Some (Datatypes.S n) => if naxes b =? ndim then 1 else Datatypes.S n | _ => 1 end.
Proof.
  intros (dims&Es&Hd&Hna&_&_&Hst&_). rewrite Es. cbn [skipn]. cbv zeta in Hst.
  assert (Hlen : length (skipn (naxes b) dims) = ndim - naxes b) by (rewrite skipn_length; lia).
  destruct dim as [[|n]|]; [now rewrite Hst| |now rewrite Hst].
  destruct Hst as [E|E]; rewrite E in *; cbn [length prod fold_right] in *.
  - replace (naxes b =? ndim) with true; [reflexivity|]. symmetry. apply Nat.eqb_eq. lia.
  - replace (naxes b =? ndim) with false; [cbn; lia|]. symmetry. apply Nat.eqb_neq. lia.
Qed.

Lemma insert_seq_ok (w : writer) K S p b dims offset i : inv w K S (Datatypes.S p) -> w_extend w = false ->
  batch_python b -> keys_distinct b -> batch_facts b dims -> batch_valid (w_dim w) (w_ndim w) b ->
  ~ In "inputs" (batch_keys b) -> incl (batch_keys b) K \/ S = [] -> kind_fits (w_file w) (kind_of (w_dim w) (w_ndim w) b) ->
  i < length (b_tags b) -> offset + i = length S ->
  exists w', insert_seq zero of_size w b offset (naxes b) i = Ok w' /\ kind_fits (w_file w') (kind_of (w_dim w) (w_ndim w) b).
Proof.
  intros I He PB KD F BV Hin HK Hkind Hi Ho. unfold insert_seq. cbv zeta. destruct PB as (PB&_&PE). rewrite (bf_shape _ _ F) in PB. destruct PB as [PL PS].
  unfold pyget at 1. destruct (nth_error (b_tags b) i) as [tag|] eqn:Etag; [|apply nth_error_None in Etag; lia]. cbn [bind].
  rewrite Ho. destruct (set_nth_total (f_tags (w_file w)) (length S) tag) as (tags&HT).
  { rewrite (i_tags _ _ _ _ I), app_length, map_length, repeat_length. lia. }
  rewrite HT. cbn [bind].
  assert (El : mapM (fun axis => match dget (b_lens b) axis with Some l => pyget l i | None => Err KeyError end) (seq 0 (naxes b)) = Ok (axis_lens b i)).
  { unfold axis_lens. apply (mapM_ok_map _ (fun axis => match dget (b_lens b) axis with Some l => nth i l 0 | None => 0 end)).
    intros axis Ha. apply in_seq in Ha. destruct (bf_axes _ _ F axis) as (l&E1&E2&_); [lia|]. rewrite E1. unfold pyget.
    destruct (nth_error l i) eqn:En; [now rewrite (nth_error_nth _ _ _ En)|]. apply nth_error_None in En. lia. }
  rewrite El. cbn [bind].
  set (w1 := with_file w _).
  assert (Hrow : nth_error (f_lens (w_file w1)) (length S) = Some (repeat 0 (cols K))).
  { cbn [w1 with_file w_file f_lens]. rewrite (i_lens _ _ _ _ I), nth_error_app2, map_length, Nat.sub_diag by (rewrite map_length; lia). reflexivity. }
  destruct (set_len_ok (w_file w1) (length S) 0 (prod (axis_lens b i)) _ Hrow) as (lens&row'&HS&_).
  { rewrite repeat_length. unfold cols. destruct K; lia. }
  rewrite HS. cbn [bind]. unfold pyget. destruct (nth_error (b_inputs b) i) as [x|] eqn:Ex; [|apply nth_error_None in Ex; lia]. cbn [bind].
  pose proof (proj1 (Forall_forall _ _) PS x (nth_error_In _ _ Ex)) as Hshape.
  pose proof (axis_lens_le of_size b dims i F Hi) as Hle.
  assert (Edata : nd_frames (nd_slice (axis_lens b i) x) = frames_under (axis_lens b i) x).
  { apply nd_frames_slice with (firstn (naxes b) dims); [exact Hshape|]. exact (Forall2_len _ _ _ Hle). }
  rewrite Edata. set (data := frames_under (axis_lens b i) x).
  assert (Elen : prod (axis_lens b i) = length data).
  { unfold data. symmetry. now apply (frames_under_len of_size) with (firstn (naxes b) dims). }
  rewrite (prod_skip _ _ _ BV). cbn [w1 with_file w_dim w_file].
  assert (Ec : length data * match w_dim w with Some (Datatypes.S n) => if naxes b =? w_ndim w then 1 else Datatypes.S n | _ => 1 end
     = prod (axis_lens b i) * match w_dim w with Some (Datatypes.S n) => if naxes b =? w_ndim w then 1 else Datatypes.S n | _ => 1 end) by now rewrite Elen.
  rewrite Ec, Nat.eqb_refl. cbn [bind].
  change (insert_inputs zero _ data _) with (insert_inputs zero (with_file w (with_lens (w_file w1) lens (f_cols (w_file w1)))) data (kind_of (w_dim w) (w_ndim w) b)).
  assert (Hk0 : 0 < fst (kind_of (w_dim w) (w_ndim w) b)).
  { unfold kind_of. destruct (w_dim w) as [[|n]|]; [cbn; lia| |cbn; lia]. destruct (_ =? _); cbn; lia. }
  destruct (insert_inputs_ok w K S p tag data (kind_of (w_dim w) (w_ndim w) b) tag (with_lens (w_file w1) lens (f_cols (w_file w1)))) as (w2&E2&(l2&HI2)&He2);
    try assumption; try reflexivity.
  rewrite E2. cbn [bind].
  rewrite Elen in HS.
  destruct (start_seq zero of_size w K S p tag data _ tags _ w2 I Hk0 HT HS E2) as (I1&(E1'&E2'&E3')&EP1).
  assert (HF : Forall (fun e => i < length (snd (snd e))) (b_extra b)).
  { eapply Forall_impl; [|exact (bf_extra _ _ F)]. intros e Hel. cbn in Hel. lia. }
  unfold keys_distinct, batch_keys in KD, Hin, HK. unfold own_keys in *. unfold naxes in *.
  destruct (1 <? length (b_lens b)) eqn:En; cbn [app] in *.
  - destruct (insert_other_ok w2 K S (plain_seq tag data) p "sizes" (map of_size (axis_lens b i)) 1 1 I1) as (w3&E3&EI3); try assumption.
    + exact (fun x => x).
    + discriminate.
    + destruct HK as [HK|HK]; [left; apply HK; now left|now right].
    + rewrite E3. cbn [bind].
      destruct (insert_other_spec zero of_size w2 K S (plain_seq tag data) p "sizes" (map of_size (axis_lens b i)) 1 1 w3 I1 (fun x => x) E3) as (K3&I3&HK3&_&(F1&F2&F3)).
      destruct (insert_extras_ok i (b_extra b) w3 K3 S _ p I3) as (w4&E4&EI4).
      * congruence.
      * exact KD.
      * intros Hi'. apply Hin. now right.
      * destruct HK as [HK|HK]; [left|now right]. intros y Hy. destruct HK3 as [->|[-> _]]; [|apply in_or_app; left]; apply HK; now right.
      * exact HF.
      * exists w4. split; [exact E4|]. unfold kind_fits. now rewrite EI4, EI3, HI2.
  - cbn [bind]. destruct (insert_extras_ok i (b_extra b) w2 K S _ p I1) as (w4&E4&EI4); try assumption.
    exists w4. split; [exact E4|]. unfold kind_fits. now rewrite EI4, HI2.
Qed.

Lemma insert_seqs_ok b dims : batch_python b -> keys_distinct b -> batch_facts b dims -> ~ In "inputs" (batch_keys b) ->
  forall n i (w : writer) K S offset, inv w K S n -> w_extend w = false -> batch_valid (w_dim w) (w_ndim w) b ->
  incl (batch_keys b) K \/ S = [] -> kind_fits (w_file w) (kind_of (w_dim w) (w_ndim w) b) ->
  i + n = length (b_tags b) -> offset + i = length S ->
  exists w', insert_seqs zero of_size w b offset (naxes b) i n = Ok w' /\ kind_fits (w_file w') (kind_of (w_dim w) (w_ndim w) b).
Proof.
  intros PB KD F Hin. induction n as [|n IH]; intros i w K S offset I He BV HK Hk Hn Ho.
  - exists w. split; [reflexivity|exact Hk].
  - cbn [insert_seqs].
    destruct (insert_seq_ok w K S n b dims offset i I He PB KD F BV Hin HK Hk) as (w1&E1&Hk1); [lia|exact Ho|].
    rewrite E1. cbn [bind].
    destruct (insert_seq_spec zero of_size w K S n b dims offset i w1 I PB KD F ltac:(lia) Ho E1) as (K1&I1&HK1&(F1&F2&F3)&_).
    rewrite <- F2, <- F3 in *.
    apply (IH (Datatypes.S i) w1 K1 (S ++ [seq_of of_size b i]) offset I1); try assumption.
    + congruence.
    + left. intros y Hy. apply HK1. now right.
    + lia.
    + rewrite app_length. cbn. lia.
Qed.

Lemma max_list_ok l : l <> [] -> exists m, max_list l = Ok m.
Proof. induction l as [|x [|y l] IH]; [congruence| |]; intros _; [eexists; reflexivity|]. destruct IH as (m&E); [discriminate|]. cbn [max_list] in *. rewrite E. eexists. reflexivity. Qed.
Lemma max_list_eq l m : In m l -> Forall (fun x => x <= m) l -> max_list l = Ok m.
Proof.
  intros Hin HF. destruct (max_list_ok l) as (m'&E); [intros ->; destruct Hin|]. destruct (max_list_spec of_size _ _ E) as [H1 H2].
  pose proof (proj1 (Forall_forall _ _) HF m' H2). pose proof (proj1 (Forall_forall _ _) H1 m Hin). cbn in *. rewrite E. f_equal. lia.
Qed.

Lemma batch_valid_facts dim ndim (b : @batch A) : dict_ok (b_lens b) -> batch_valid dim ndim b -> exists dims, batch_facts b dims /\ length dims = ndim.
Proof.
  intros Dok (dims&Es&Hd&Hna&Hax&Hl&_&He). exists dims. split; [|exact Hd]. constructor; [exact Es| |exact He].
  intros axis Ha. apply Hax, dget_keys in Ha. destruct (dget (b_lens b) axis) as [l|] eqn:El; [|congruence]. exists l. split; [reflexivity|].
  apply dget_In in El as Hin. destruct (proj1 (Forall_forall _ _) Hl _ Hin) as (H1&H2&H3). cbn [fst snd] in *. split; [exact H1|].
  exists (nth axis dims 0). split; [|exact H2]. apply nth_error_nth'. 
  assert (Ha' : axis < naxes b) by (apply Hax, dget_keys; congruence). lia.
Qed.

Lemma insert_batch_ok (w : writer) K S b : inv w K S 0 -> w_extend w = false -> batch_python b -> keys_distinct b ->
  batch_valid (w_dim w) (w_ndim w) b -> ~ In "inputs" (batch_keys b) -> incl (batch_keys b) K \/ S = [] ->
  kind_fits (w_file w) (kind_of (w_dim w) (w_ndim w) b) ->
  exists w', insert_batch zero of_size w b = Ok w' /\ kind_fits (w_file w') (kind_of (w_dim w) (w_ndim w) b).
Proof.
  intros I He PB KD BV Hin HK Hk. destruct PB as (PB1&Dok&PE). destruct (batch_valid_facts _ _ _ Dok BV) as (dims&F&Hd).
  pose proof BV as (dims'&Es&Hd'&Hna&Hax&Hl&Hst&Hex). assert (dims' = dims) by (rewrite (bf_shape _ _ F) in Es; congruence). subst dims'.
  unfold insert_batch. rewrite Es. unfold pyget at 1. cbn [nth_error bind]. rewrite Nat.eqb_refl. cbn [assert_ bind length].
  replace (Datatypes.S (length dims) =? w_ndim w + 1) with true by (symmetry; apply Nat.eqb_eq; lia). cbn [assert_ bind].
  assert (En : match b_lens b with [] => Ok 0 | l => let* m := max_list (dkeys l) in Ok (Datatypes.S m) end = Ok (naxes b)).
  { unfold naxes in *. destruct (b_lens b) as [|kv rest] eqn:El; [reflexivity|]. rewrite <- El in *.
    assert (Hp : 0 < length (b_lens b)) by (rewrite El; cbn; lia).
    rewrite (max_list_eq _ (length (b_lens b) - 1)).
    - cbn [bind]. f_equal. lia.
    - apply Hax. lia.
    - apply Forall_forall. intros x Hx. apply Hax in Hx. lia. }
  rewrite En. cbn [bind]. rewrite (proj2 (Nat.leb_le _ _) Hna). cbn [assert_ bind].
  replace (forallb (fun k => k <? naxes b) (dkeys (b_lens b))) with true.
  2:{ symmetry. apply forallb_forall. intros k Hk'. apply Nat.ltb_lt. now apply Hax. }
  cbn [assert_ bind]. unfold naxes at 1. rewrite Nat.eqb_refl. cbn [assert_ bind].
  replace (forallb (fun kv => length (b_tags b) =? length (snd kv)) (b_lens b)) with true.
  2:{ symmetry. apply forallb_forall. intros kv Hkv. apply Nat.eqb_eq. symmetry. exact (proj1 (proj1 (Forall_forall _ _) Hl kv Hkv)). }
  cbn [assert_ bind].
  assert (Ea : all_res (fun kv => let* m := max_list (snd kv) in let* s := pyget (length (b_tags b) :: dims) (Datatypes.S (fst kv)) in Ok (m =? s)) (b_lens b) = Ok true).
  { unfold all_res. rewrite (mapM_ok_map _ (fun _ => true)).
    - cbn [bind]. f_equal. clear. induction (b_lens b) as [|x l IH]; [reflexivity|]. exact IH.
    - intros kv Hkv. destruct (proj1 (Forall_forall _ _) Hl kv Hkv) as (H1&H2&H3). rewrite (max_list_eq _ _ H3 H2). cbn [bind].
      unfold pyget. cbn [nth_error].
      assert (Ha' : fst kv < naxes b) by (apply Hax; unfold dkeys; apply in_map; exact Hkv).
      rewrite (nth_error_nth' dims 0) by lia. cbn [bind]. now rewrite Nat.eqb_refl. }
  rewrite Ea. cbn [assert_ bind].
  assert (Ed : match w_dim w with
            | Some (Datatypes.S n) => if naxes b =? w_ndim w then Ok tt else assert_ (Datatypes.S n =? last (length (b_tags b) :: dims) 0)
            | _ => Ok tt end = Ok tt).
  { destruct (w_dim w) as [[|n]|]; try reflexivity. destruct (naxes b =? w_ndim w) eqn:Eq; [reflexivity|]. apply Nat.eqb_neq in Eq.
    cbv zeta in Hst. destruct Hst as [E|E].
    - exfalso. apply (f_equal (@length nat)) in E. rewrite skipn_length in E. cbn in E. lia.
    - rewrite <- (firstn_skipn (naxes b) dims), E. rewrite app_comm_cons, last_last. rewrite Nat.eqb_refl. reflexivity. }
  rewrite Ed. cbn [bind].
  replace (forallb (fun e => length (b_tags b) =? length (snd (snd e))) (b_extra b)) with true.
  2:{ symmetry. apply forallb_forall. intros e Hee. apply Nat.eqb_eq. symmetry. exact (proj1 (Forall_forall _ _) Hex e Hee). }
  cbn [assert_ bind]. cbv zeta.
  assert (EL : length (f_lens (w_file w)) = length S) by (rewrite (i_lens _ _ _ _ I); cbn; now rewrite app_nil_r, map_length).
  assert (ET : length (f_tags (w_file w)) = length S) by (rewrite (i_tags _ _ _ _ I); cbn; now rewrite app_nil_r, map_length).
  match goal with |- context [insert_seqs _ _ ?w1 _ _ _ _ _] => set (w1' := w1) end.
  assert (I1 : inv w1' K S (length (b_tags b))).
  { unfold w1'. pose proof (i_lens _ _ _ _ I) as i_lens0. pose proof (i_cols _ _ _ _ I) as i_cols0. pose proof (i_tags _ _ _ _ I) as i_tags0. destruct I. constructor; cbn [with_file w_file f_seqs f_steps f_inputs f_lens f_cols f_tags f_data f_sizes w_prepared w_steps w_extend]; try assumption.
    - rewrite resize_grow, i_lens0, i_cols0. cbn [repeat]. now rewrite app_nil_r.
    - rewrite EL, <- ET, resize_grow, i_tags0. cbn [repeat]. now rewrite app_nil_r. }
  rewrite EL.
  destruct (insert_seqs_ok b dims (conj PB1 (conj Dok PE)) KD F Hin (length (b_tags b)) 0 w1' K S (length S) I1) as (w'&E&Hk'); try assumption; try lia.
  exists w'. split; [exact E|exact Hk'].
Qed.
End O.
