(** Proofs about HDF files, part 4: whole files. *)
From Coq Require Import String Ascii Sorting.Sorted.
From Verif Require Import Base PyDict ListLemmas OptimModel OptimProofs HdfModel HdfSpec HdfProofs HdfReadProofs HdfOkProofs.
Local Open Scope string_scope.
Local Open Scope nat_scope.
Local Open Scope list_scope.
Local Notation length := List.length.

Section F.
Context {A : Type} (zero : A) (of_size : nat -> A).
Notation hseq := (@hseq A).
Notation hfile := (@hfile A).
Notation writer := (@writer A).
Notation reader := (@reader A).

(** *** acceptance *)
Lemma insert_batches_ok kind : forall bs (w : writer) K S, inv w K S 0 -> w_extend w = false -> Forall batch_python bs -> Forall keys_distinct bs ->
  Forall (batch_valid (w_dim w) (w_ndim w)) bs -> Forall (fun b => ~ In "inputs" (batch_keys b)) bs ->
  (S <> [] -> Forall (fun b => incl (batch_keys b) K) bs) -> (S = [] -> Forall (fun b => incl (batch_keys b) (K ++ first_keys bs)) bs) ->
  Forall (fun b => kind_of (w_dim w) (w_ndim w) b = kind) bs -> kind_fits (w_file w) kind ->
  exists w', insert_batches zero of_size w bs = Ok w'.
Proof.
  induction bs as [|b bs IH]; intros w K S I He PB KD BV Hin HK1 HK2 Hkinds Hk.
  - eexists. reflexivity.
  - inversion PB; subst. inversion KD; subst. inversion BV; subst. inversion Hin; subst. inversion Hkinds; subst.
    cbn [insert_batches].
    destruct (insert_batch_ok zero of_size w K S b I He) as (w1&E1&Hk1); try assumption.
    { destruct S; [now right|left]. assert (HF : h :: S <> []) by discriminate. specialize (HK1 HF). now inversion HK1. }
    rewrite E1. cbn [bind]. destruct (insert_batch_spec zero of_size w K S b w1 I) as (K1&I1&HKs&(S1&S2&S3)&_); try assumption.
    assert (El : length (seqs_of of_size b) = length (b_tags b)) by (unfold seqs_of; now rewrite map_length, seq_length).
    apply (IH w1 K1 (S ++ seqs_of of_size b) I1); try assumption; try congruence; rewrite ?S2, ?S3; try assumption.
    + intros Hne. destruct S as [|s0 S'].
      * cbn [app] in Hne. assert (Ht : b_tags b <> []) by (intros E; rewrite E in El; destruct (seqs_of of_size b); [congruence|discriminate]).
        specialize (HK2 eq_refl). inversion HK2; subst. cbn [first_keys] in *. destruct (b_tags b) eqn:Et; [congruence|].
        eapply Forall_impl; [|eassumption]. intros b' Hb' k Hkk. apply HKs. specialize (Hb' k Hkk). apply in_app_iff in Hb'. destruct Hb' as [?|?]; [now left|right; split; [discriminate|assumption]].
      * assert (HF : s0 :: S' <> []) by discriminate. specialize (HK1 HF). inversion HK1; subst.
        eapply Forall_impl; [|eassumption]. intros b' Hb' k Hkk. apply HKs. left. now apply Hb'.
    + intros He0. apply app_eq_nil in He0. destruct He0 as [-> E0]. rewrite E0 in El. destruct (b_tags b) eqn:Et; [|discriminate].
      specialize (HK2 eq_refl). inversion HK2; subst. cbn [first_keys] in *. rewrite Et in *.
      eapply Forall_impl; [|eassumption]. intros b' Hb' k Hkk. specialize (Hb' k Hkk). apply in_app_iff in Hb'. apply in_or_app. destruct Hb' as [?|?]; [left; apply HKs; now left|now right].
Qed.

Lemma same_sparseness_kind dim ndim (bs : list (@batch A)) : same_sparseness dim ndim bs -> exists kind, Forall (fun b => kind_of dim ndim b = kind) bs.
Proof.
  unfold same_sparseness, kind_of. destruct dim as [[|n]|]; [exists (1, 1); now apply Forall_forall| |exists (1, 1); now apply Forall_forall].
  intros [H|H]; [exists (Datatypes.S n, 1)|exists (Datatypes.S n, 2)]; (eapply Forall_impl; [|exact H]); intros b Hb; cbn in Hb.
  - apply Nat.eqb_eq in Hb. now rewrite Hb.
  - apply Nat.eqb_neq in Hb. now rewrite Hb.
Qed.

Lemma prepare_loop_ok (els : @dict string (list string)) : forall types (w : writer) added, w_extend w = false -> ~ In "inputs" (map fst types) ->
  (forall k d n ls, In (k, (d, n)) types -> dget els k = Some ls -> d = Some (length ls)) ->
  exists w' o, prepare_loop w types els added = Ok (w', o).
Proof.
  induction types as [|[key [dim ndim]] types IH]; intros w added He Hin Hl; [eexists _, _; reflexivity|].
  cbn [prepare_loop]. cbn [map fst] in Hin. rewrite (proj2 (String.eqb_neq key "inputs")) by (intros ->; apply Hin; now left). cbn [negb assert_ bind].
  destruct (mem_str key (w_prepared w)); [eexists _, _; reflexivity|].
  assert (Hx : exists w1, prepare_one w key dim ndim els = Ok w1 /\ w_extend w1 = false).
  { unfold prepare_one. rewrite He. destruct (dget els key) as [ls|] eqn:El.
    - rewrite (Hl key dim ndim ls (or_introl eq_refl) El). rewrite Nat.eqb_refl. cbn [assert_ bind]. eexists. split; reflexivity.
    - cbn [bind]. eexists. split; reflexivity. }
  destruct Hx as (w1&E1&He1). rewrite E1. cbn [bind]. apply IH; [exact He1|intros H; apply Hin; now right|].
  intros k d n ls Hk Hd. apply (Hl k d n ls); [now right|exact Hd].
Qed.

Lemma new_writer_ok dim ndim labels types (els : @dict string (list string)) : labels = [] \/ dim = Some (length labels) -> ~ In "inputs" (map fst types) ->
  (forall k d n ls, In (k, (d, n)) types -> dget els k = Some ls -> d = Some (length ls)) ->
  exists w : writer, new_writer None dim ndim labels types els = Ok w.
Proof.
  intros HL Hin Hl. unfold new_writer.
  assert (E : match labels with [] => Ok tt | _ => assert_ (match dim with Some d => length labels =? d | None => false end) end = Ok tt).
  { destruct HL as [->| ->]; [reflexivity|]. destruct labels; [reflexivity|]. rewrite Nat.eqb_refl. reflexivity. }
  rewrite E. cbn [bind]. destruct types as [|t types]; [eexists; reflexivity|]. unfold prepare_extra.
  match goal with |- context [prepare_loop ?w0 _ _ _] => destruct (prepare_loop_ok els (t :: types) w0 0 eq_refl Hin Hl) as (w'&o&Ew) end.
  rewrite Ew. cbn [bind]. destruct o as [n|]; [|eexists; reflexivity]. destruct (_ && _); eexists; reflexivity.
Qed.

Lemma prepare_loop_inputs (els : @dict string (list string)) : forall types (w : writer) added w' o,
  prepare_loop w types els added = Ok (w', o) -> f_inputs (w_file w') = f_inputs (w_file w).
Proof.
  induction types as [|[key [dim ndim]] types IH]; intros w added w' o H; cbn [prepare_loop] in H.
  - apply Ok_inj in H. injection H as <- _. reflexivity.
  - apply bind_Ok in H. destruct H as (_&_&H). destruct (mem_str key (w_prepared w)); [apply Ok_inj in H; injection H as <- _; reflexivity|].
    apply bind_Ok in H. destruct H as (w1&H1&H). apply IH in H. rewrite H. clear - H1. unfold prepare_one in H1. apply bind_Ok in H1. destruct H1 as (ls&_&H1).
    destruct (w_extend w); [destruct (f_data (w_file w)) as [d|]; [destruct (dget d key)|]|]; try discriminate; apply Ok_inj in H1; subst; reflexivity.
Qed.
Lemma new_writer_inputs dim ndim labels types (els : @dict string (list string)) (w : writer) :
  new_writer None dim ndim labels types els = Ok w -> f_inputs (w_file w) = None.
Proof.
  intros H. unfold new_writer in H. apply bind_Ok in H. destruct H as (_&_&H). destruct types as [|t types]; [apply Ok_inj in H; now subst|].
  apply bind_Ok in H. destruct H as ([w1 a]&H1&H). apply Ok_inj in H. subst w1. unfold prepare_extra in H1.
  apply bind_Ok in H1. destruct H1 as ([w2 o]&H2&H1). apply prepare_loop_inputs in H2. cbn [w_file f_inputs] in H2.
  destruct o as [n|]; [destruct (_ && _)|]; apply Ok_inj in H1; injection H1 as <- _; exact H2.
Qed.

(** *** extending *)
Lemma prepare_loop_extend els : forall types (w : writer) K S added w' n,
  w_extend w = true -> inv (with_file w (w_file w)) K S 0 \/ True ->
  NoDup (w_prepared w ++ map fst types) ->
  prepare_loop w types els added = Ok (w', n) ->
  n = Some (added + length types) /\ w_extend w' = true /\ w_prepared w' = w_prepared w ++ map fst types
  /\ w_file w' = {| f_inputs := f_inputs (w_file w); f_data := f_data (w_file w); f_sizes := f_sizes (w_file w); f_labels := f_labels (w_file w);
                    f_tlabels := f_tlabels (w_file w'); f_lens := f_lens (w_file w); f_cols := f_cols (w_file w); f_tags := f_tags (w_file w);
                    f_steps := f_steps (w_file w); f_seqs := f_seqs (w_file w) |}
  /\ (forall k, In k (map fst types) -> exists d fr, f_data (w_file w) = Some d /\ dget d k = Some fr /\ dget (w_steps w') k = Some (length fr))
  /\ (forall k, ~ In k (map fst types) -> dget (w_steps w') k = dget (w_steps w) k).
Proof.
  induction types as [|[key [dim ndim]] types IH]; intros w K S added w' n He _ Nd H.
  - cbn in H. apply Ok_inj in H. injection H as <- <-. cbn. rewrite Nat.add_0_r, app_nil_r. repeat split; try assumption; [now destruct (w_file w)|intros k []].
  - cbn [prepare_loop] in H. apply bind_Ok in H. destruct H as (u&_&H). cbn [map fst] in *.
    assert (HnK : ~ In key (w_prepared w)) by (intros Hi; apply (NoDup_disj _ _ Nd key Hi); now left).
    rewrite (proj2 (mem_str_not key _) HnK) in H. apply bind_Ok in H. destruct H as (w1&H1&H).
    unfold prepare_one in H1. rewrite He in H1. apply bind_Ok in H1. destruct H1 as (labels&_&H1).
    destruct (f_data (w_file w)) as [d|] eqn:Ed; [|discriminate]. destruct (dget d key) as [fr|] eqn:Eg; [|discriminate]. apply Ok_inj in H1.
    assert (E : w_prepared w ++ key :: map fst types = (w_prepared w ++ [key]) ++ map fst types) by now rewrite <- app_assoc.
    assert (Nk : ~ In key (map fst types)).
    { rewrite E in Nd. intros Hi. apply (NoDup_disj _ _ Nd key); [apply in_or_app; right; now left|exact Hi]. }
    destruct (IH w1 K S (Datatypes.S added) w' n) as (En&He'&EP&EF&HS&HO).
    + now subst w1.
    + now right.
    + subst w1. cbn [w_prepared]. now rewrite <- E.
    + exact H.
    + subst w1. cbn [w_file w_prepared w_steps f_inputs f_data f_sizes f_labels f_lens f_cols f_tags f_steps f_seqs] in *.
      split; [rewrite En; f_equal; cbn; lia|]. split; [exact He'|]. split; [now rewrite E|]. split; [exact EF|]. split.
      * intros k [<-|Hk]; [|now apply HS]. exists d, fr. split; [reflexivity|]. split; [exact Eg|]. rewrite HO by exact Nk. rewrite dget_dset_str. now rewrite String.eqb_refl.
      * intros k Hk. rewrite HO by (intros Hi; apply Hk; now right). rewrite dget_dset_str. destruct (String.eqb key k) eqn:Ek; [|reflexivity]. apply String.eqb_eq in Ek. subst. exfalso. apply Hk. now left.
Qed.

Lemma new_writer_extend (w0 : writer) K S dim ndim labels types els w : inv w0 K S 0 -> NoDup (map fst types) ->
  (forall k, In k (map fst types) <-> In k K) \/ (types = [] /\ forall k k', In k K -> In k' K -> k = k') ->
  new_writer (Some (w_file w0)) dim ndim labels types els = Ok w -> inv w K S 0 /\ w_extend w = true.
Proof.
  intros I Nd HK H. unfold new_writer in H. apply bind_Ok in H. destruct H as (u&_&H).
  set (w1 := {| w_dim := dim; w_ndim := _; w_extend := true; w_file := _; w_steps := []; w_prepared := [] |}) in H.
  assert (I1 : types = [] -> inv w1 K S 0).
  { intros ->. pose proof (i_nodup _ _ _ _ I) as NdK. destruct I. constructor; try assumption.
    - cbn [w_prepared w1 w_extend]. destruct K as [|k [|k' K']]; [left; constructor|right; auto|]. exfalso. destruct HK as [HK|[_ HK]].
      + apply (proj2 (HK k)). now left.
      + inversion NdK as [|? ? Hn _]; subst. apply Hn. rewrite (HK k k'); [now left|now left|right; now left].
    - intros k []. }
  destruct types as [|t types]; [apply Ok_inj in H; subst w; split; [now apply I1|reflexivity]|]. clear I1.
  destruct HK as [HK|[? _]]; [|discriminate].
  apply bind_Ok in H. destruct H as ([w2 a]&HP&H). apply Ok_inj in H. subst w2. unfold prepare_extra in HP.
  apply bind_Ok in HP. destruct HP as ([w2 n]&HL&HP).
  destruct (prepare_loop_extend els (t :: types) w1 K S 0 w2 n eq_refl (or_intror Logic.I) Nd HL) as (En&He&EP&EF&HS&_).
  rewrite En, He in HP. rewrite andb_false_r in HP. apply Ok_inj in HP. injection HP as <- _. split; [|exact He].
  assert (EPerm : Permutation (map fst (t :: types)) K).
  { apply NoDup_Permutation; [exact Nd|exact (i_nodup _ _ _ _ I)|exact HK]. }
  cbn [w1 w_prepared w_file app] in EP, EF, HS.
  pose proof (i_data _ _ _ _ I) as HD.
  destruct I. constructor; try (rewrite EF; assumption); try assumption.
  - left. rewrite EP. exact EPerm.
  - rewrite EP. intros k Hk. destruct (HS k Hk) as (d&fr&Ed&Eg&->). rewrite Ed in HD. destruct HD as (_&_&HD). rewrite HD in Eg by (now apply HK). injection Eg as <-. reflexivity.
Qed.

Lemma produced_inv f P S : produced zero of_size f P S -> exists w K, w_file w = f /\ inv w K S 0 /\ forall k, In k K <-> P k.
Proof.
  induction 1 as [dim ndim labels types tlabels bs f H Nd PB KD|f P S dim ndim labels types tlabels bs f' HP IH H Nd PB KD HK].
  - unfold write_file in H. apply bind_Ok in H. destruct H as (w&Hw&H). apply bind_Ok in H. destruct H as (w'&Hw'&H). apply Ok_inj in H. subst f.
    destruct (new_writer_fresh of_size dim ndim labels types tlabels w Nd Hw) as (I&_).
    destruct (insert_batches_spec zero of_size bs w _ [] w' I PB KD Hw') as (K'&I'&HK'&_). exists w', K'. split; [reflexivity|]. split; [exact I'|]. exact HK'.
  - destruct IH as (w0&K&<-&I&HKP). unfold extend_file in H. apply bind_Ok in H. destruct H as (w&Hw&H). apply bind_Ok in H. destruct H as (w'&Hw'&H). apply Ok_inj in H. subst f'.
    destruct (new_writer_extend w0 K S dim ndim labels types tlabels w I Nd) as (I1&He1).
    + destruct HK as [HK|[-> HK]]; [left; intros k; rewrite HK; symmetry; apply HKP|right; split; [reflexivity|]]. intros k k' H1 H2. apply HK; now apply HKP.
    + exact Hw.
    + destruct (insert_batches_spec zero of_size bs w K S w' I1 PB KD Hw') as (K'&I'&_&_&HKe). rewrite (HKe He1) in I'. exists w', K. auto.
Qed.

Lemma produced_stores f P S : produced zero of_size f P S -> S <> [] -> Forall (fun s => no_nul (q_tag s)) S ->
  exists has RK, stores f true has RK S /\ (forall k, In k (if has then RK else []) <-> P k) /\ RK <> [] /\ (has = true \/ RK = ["classes"]).
Proof.
  intros HP Hne Ht. destruct (produced_inv f P S HP) as (w&K&<-&I&HK). pose proof (inv_stores w K S I Hne Ht) as HS.
  eexists _, _. split; [exact HS|]. destruct K as [|k0 K0] eqn:EK; cbn [negb].
  - split; [exact HK|]. split; [discriminate|now right].
  - split; [intros k; rewrite sort_names_In; apply HK|]. split; [|now left].
    intros E. apply (f_equal (@length string)) in E. rewrite sort_names_len in E. discriminate.
Qed.

Lemma open_one f P S : produced zero of_size f P S -> S <> [] -> Forall (fun s => no_nul (q_tag s)) S -> ~ P "data" ->
  exists r keys, open_files [f] = Ok r /\ (forall k, In k keys <-> P k) /\ is_dataset r true keys S.
Proof.
  intros HP Hne Ht Hd. destruct (produced_stores f P S HP Hne Ht) as (has&RK&HS&HK&HRK&Hh).
  destruct (first_accepts f true has RK S HS) as (r&Hr).
  - intros _ Hi. destruct has; [apply Hd, HK; exact Hi|]. destruct Hh as [?|E]; [discriminate|]. rewrite E in Hi. destruct Hi as [?|[]]. discriminate.
  - now left.
  - reflexivity.
  - exists r, (if has then RK else []). split; [unfold open_files; cbn [add_files]; rewrite Hr; reflexivity|]. split; [exact HK|].
    pose proof (add_file_first f r true has RK S HS eq_refl Hr) as G. apply rinv_dataset in G. cbn [concat] in G. now rewrite app_nil_r in G.
Qed.

Notation usable := (usable zero of_size).

Lemma open_many f P S fs Ss r : usable f P S -> Forall2 (fun f S => exists P, usable f P S) fs Ss -> open_files (f :: fs) = Ok r ->
  exists keys, (forall k, In k keys <-> P k) /\ is_dataset r true keys (S ++ concat Ss).
Proof.
  intros (HP&Hne&Ht) HF H. destruct (produced_stores f P S HP Hne Ht) as (has&RK&HS&HK&HRK&Hh).
  unfold open_files in H. cbn [add_files] in H. apply bind_Ok in H. destruct H as (r1&Hr1&H).
  pose proof (add_file_first f r1 true has RK S HS eq_refl Hr1) as G.
  exists (if has then RK else []). split; [exact HK|].
  assert (Hgen : forall fs' Ss' r0 fs0 Ss0, Forall2 (fun f S => exists P, usable f P S) fs' Ss' -> rinv r0 true has RK fs0 Ss0 -> add_files r0 fs' = Ok r ->
    is_dataset r true (if has then RK else []) (concat Ss0 ++ concat Ss')).
  { clear. induction fs' as [|f fs' IH]; intros Ss' r0 fs0 Ss0 HF G H; inversion HF; subst.
    - cbn in H. apply Ok_inj in H. subst. cbn. rewrite app_nil_r. now apply rinv_dataset with fs0.
    - cbn [add_files] in H. apply bind_Ok in H. destruct H as (r1&Hr1&H). destruct H2 as (P'&HP'&Hne'&Ht').
      destruct (produced_stores f P' y HP' Hne' Ht') as (has'&RK'&HS'&_).
      pose proof (add_file_next f r0 r1 true has RK fs0 Ss0 has' RK' y G HS' eq_refl eq_refl (or_introl eq_refl) Hr1) as G1.
      cbn [concat]. rewrite app_assoc. replace (concat Ss0 ++ y) with (concat (Ss0 ++ [y])) by (rewrite concat_app; cbn; now rewrite app_nil_r).
      now apply (IH l' r1 (fs0 ++ [f]) (Ss0 ++ [y])). }
  specialize (Hgen fs Ss r1 [f] [S] HF G H). cbn [concat] in Hgen. now rewrite app_nil_r in Hgen.
Qed.

(** *** files that fit together *)
Definition outs_of (f : hfile) (outs : list (string * (nat * nat))) : @dict string (nat * nat) :=
  let o := fold_left (fun d kv => dset d (fst kv) (snd kv)) outs [] in
  match f_inputs f with Some _ => dset o "data" (match f_inputs f with Some (_, k) => k | None => (0, 0) end) | None => o end.
Definition outs_mapM (f : hfile) (RK : list string) : res (list (string * (nat * nat))) :=
  match f_data f with
  | None => Ok []
  | Some _ => mapM (fun k => match dget (f_sizes f) k with Some s => Ok (k, s) | None => Err KeyError end) RK
  end.

Lemma first_outputs (f : hfile) r has RK S : stores f true has RK S -> add_file empty_reader f = Ok r ->
  exists outs kind, outs_mapM f RK = Ok outs /\ r_outputs r = outs_of f outs /\ r_num_inputs r = fst kind /\ 0 < fst kind
    /\ dget (r_outputs r) "data" = Some kind /\ f_inputs f = Some (flat_map q_data S, kind).
Proof.
  intros [Hin Hdata Hlens Hcols Htags Hne Hnd] H. unfold add_file in H. cbn [r_files empty_reader] in H.
  assert (Ek : match f_data f with Some d => sort_names (dkeys d ++ filter (fun k => negb (mem_str k (dkeys d))) (dkeys (f_sizes f))) | None => ["classes"] end = RK).
  { destruct has; [destruct Hdata as (d&->&E&_); exact E|]. destruct Hdata as [-> E]. auto. }
  rewrite Ek in H. clear Ek. apply bind_Ok in H. destruct H as (_&_&H). cbn [bind] in H.
  apply bind_Ok in H. destruct H as (_&_&H). apply bind_Ok in H. destruct H as ([]&Had&H).
  apply bind_Ok in H. destruct H as ([]&Hnum&H). apply bind_Ok in H. destruct H as (outs&Houts&H).
  apply bind_Ok in H. destruct H as ([]&_&H). apply bind_Ok in H. destruct H as (tg&Htg&H).
  apply bind_Ok in H. destruct H as (first&_&H). apply bind_Ok in H. destruct H as (row&_&H). apply bind_Ok in H. destruct H as ([]&_&H).
  apply Ok_inj in H. destruct Hin as (kind&Ei&Hk). exists outs, kind. split; [exact Houts|]. subst r. cbn [r_outputs r_num_inputs empty_reader].
  rewrite Ei. cbn [Nat.eqb]. split; [unfold outs_of; now rewrite Ei|]. split; [reflexivity|]. split; [exact Hk|]. split; [|reflexivity].
  now rewrite dget_dset_str, String.eqb_refl.
Qed.

Lemma next_accepts (f : hfile) r r1 has RK fs Ss S : rinv r true has RK fs Ss -> stores f true has RK S -> add_file empty_reader f = Ok r1 ->
  dict_same (r_outputs r) (r_outputs r1) = true -> r_num_inputs r = r_num_inputs r1 -> r_outputs r <> [] ->
  exists r2, add_file r f = Ok r2 /\ r_outputs r2 = r_outputs r /\ r_num_inputs r2 = r_num_inputs r.
Proof.
  intros G HS Hf Hsame Hnum Hne0. destruct (first_outputs f r1 has RK S HS Hf) as (outs&kind&Houts&Eo&En&Hk&_&Ei).
  destruct HS as [Hin Hdata Hlens Hcols Htags Hne Hnd]. unfold add_file.
  assert (Ek : match f_data f with Some d => sort_names (dkeys d ++ filter (fun k => negb (mem_str k (dkeys d))) (dkeys (f_sizes f))) | None => ["classes"] end = RK).
  { destruct has; [destruct Hdata as (d&->&E&_); exact E|]. destruct Hdata as [-> E]. auto. }
  rewrite Ek. clear Ek. rewrite columns_len in Hcols.
  assert (Ep : match r_files r with [] => None | _ => Some (r_keys r) end = Some RK).
  { rewrite (ri_files _ _ _ _ _ _ G), (ri_keys _ _ _ _ _ _ G). pose proof (ri_ne _ _ _ _ _ _ G). destruct fs; [congruence|reflexivity]. }
  rewrite Ep. clear Ep. cbv zeta. rewrite Ei. rewrite Hcols, Nat.eqb_refl. cbn [assert_ bind].
  rewrite (proj2 (strs_eqb_eq RK RK) eq_refl). cbn [bind].
  assert (Ec : (1 + length RK =? 0) || (length (f_lens f) =? 0) = false).
  { apply orb_false_iff. split; apply Nat.eqb_neq; [cbn; lia|]. rewrite Hlens, map_length. destruct S; [congruence|discriminate]. }
  rewrite Ec. cbn [bind]. rewrite (proj2 (mem_str_not "data" RK)) by exact (ri_data _ _ _ _ _ _ G eq_refl). cbn [negb assert_ bind].
  rewrite Hnum, En. destruct (fst kind =? 0) eqn:E0; [apply Nat.eqb_eq in E0; lia|]. rewrite Nat.eqb_refl. cbn [assert_ bind].
  unfold outs_mapM in Houts. rewrite Houts. cbn [bind].
  assert (Er : match r_outputs r with [] => dset (fold_left (fun d kv => dset d (fst kv) (snd kv)) outs []) "data" kind | o => o end = r_outputs r) by (destruct (r_outputs r); [congruence|reflexivity]).
  rewrite Er. rewrite Eo in Hsame. unfold outs_of in Hsame. rewrite Ei in Hsame. rewrite Hsame. cbn [assert_ bind].
  assert (Et : exists tg, match f_data f with
                  | None => Ok (r_targets r)
                  | Some d =>
                      let* _ := if forallb (fun k => dhas d k) RK then Ok tt else Err KeyError in
                      Ok (r_targets r ++ filter (fun k => negb (mem_str k (r_targets r))) RK)
                  end = Ok tg).
  { destruct has; [|destruct Hdata as [-> _]; eauto]. destruct Hdata as (d&->&_&Hg&_).
    replace (forallb (fun k => dhas d k) RK) with true; [eexists; reflexivity|]. symmetry. apply forallb_forall. intros k Hkk. unfold dhas. now rewrite Hg. }
  destruct Et as (tg&Et). rewrite Et. cbn [bind].
  assert (Ef : exists row, (let* first := pyget (r_seq_start r ++ [cumsum (repeat 0 (1 + length RK)) (f_lens f)]) 0 in pyget first 0) = Ok row /\ length row = 1 + length RK).
  { rewrite (ri_seqs _ _ _ _ _ _ G). unfold pyget. pose proof (ri_has _ _ _ _ _ _ G) as HH. pose proof (ri_ne _ _ _ _ _ _ G) as Hfn. destruct Ss as [|S0 Ss']; [inversion HH; congruence|].
    cbn [map app nth_error bind]. exists (@sums A (columns true RK) []). split.
    - destruct S0; reflexivity.
    - unfold sums. rewrite map_length, columns_len. reflexivity. }
  destruct Ef as (row&Ef&Erow). apply bind_Ok in Ef. destruct Ef as (first&E1&E2). cbn [Nat.add] in *. rewrite E1. cbn [bind]. rewrite E2. cbn [bind].
  rewrite Erow, Nat.eqb_refl. cbn [assert_ bind]. eexists. split; [reflexivity|]. cbn [r_outputs r_num_inputs]. split; [reflexivity|]. congruence.
Qed.

Lemma stores_sorted (f : hfile) RK S : stores f true true RK S -> StronglySorted slt RK.
Proof.
  intros [_ (d&_&<-&_) _ _ _ _ Hnd]. apply sort_names_sorted. eapply Permutation_NoDup; [apply sort_names_perm|exact Hnd].
Qed.

Lemma open_many_ok fs Ps Ss outputs : fs <> [] -> Forall2 (fun f PS => usable f (fst PS) (snd PS)) fs (combine Ps Ss) ->
  Forall (fun f => exists r, open_files [f] = Ok r /\ forall k, dget (r_outputs r) k = dget outputs k) fs ->
  exists r, open_files fs = Ok r.
Proof.
  intros Hne HF HO.
  assert (One : forall (f : hfile) (r : reader), open_files [f] = Ok r -> add_file empty_reader f = Ok r).
  { intros f r H. unfold open_files in H. cbn [add_files] in H. apply bind_Ok in H. destruct H as (r'&H&H'). apply Ok_inj in H'. congruence. }
  destruct fs as [|f fs]; [congruence|]. inversion HF as [|f0 [P S] fs0 PSs HU HF' E1 E2]; subst. cbn [fst snd] in HU. destruct HU as (HP&Hn&Ht).
  inversion HO as [|? ? (r&Hr&Ho) HO']; subst. apply One in Hr.
  destruct (produced_stores f P S HP Hn Ht) as (has&RK&HS&_&HRK&Hh).
  pose proof (add_file_first f r true has RK S HS eq_refl Hr) as G.
  destruct (first_outputs f r has RK S HS Hr) as (_&kind&_&_&En&Hk&Ed&_).
  unfold open_files. cbn [add_files]. rewrite Hr. cbn [bind]. clear HF HO E2 Ps Ss Hne HP Hn Ht.
  assert (Ok0 : dict_ok (r_outputs r)).
  { destruct (first_outputs f r has RK S HS Hr) as (outs&k0&_&->&_). unfold outs_of.
    assert (Fok : forall (l : list (string * (nat * nat))) d, dict_ok d -> dict_ok (fold_left (fun d kv => dset d (fst kv) (snd kv)) l d)).
    { induction l as [|x l IH]; intros d Hok; [exact Hok|]. cbn. apply IH. now apply dict_ok_dset. }
    destruct (f_inputs f); [apply dict_ok_dset|]; apply Fok; constructor. }
  assert (Hgen : forall fs PSs r0 fs0 Ss0, Forall2 (fun f PS => usable f (fst PS) (snd PS)) fs PSs ->
    Forall (fun f => exists r, open_files [f] = Ok r /\ forall k, dget (r_outputs r) k = dget outputs k) fs ->
    rinv r0 true has RK fs0 Ss0 -> r_outputs r0 = r_outputs r -> r_num_inputs r0 = r_num_inputs r -> exists r', add_files r0 fs = Ok r').
  { clear PSs fs HF' HO'. induction fs as [|f1 fs IH]; intros PSs r0 fs0 Ss0 HF HO G0 Eo0 En0; [eexists; reflexivity|].
    inversion HF as [|? [P1 S1] ? PSs1 (HP1&Hn1&Ht1) HF1]; subst. inversion HO as [|? ? (r1&Hr1&Ho1) HO1]; subst. apply One in Hr1.
    destruct (produced_stores f1 P1 S1 HP1 Hn1 Ht1) as (has1&RK1&HS1&_&HRK1&Hh1).
    pose proof (add_file_first f1 r1 true has1 RK1 S1 HS1 eq_refl Hr1) as G1.
    destruct (first_outputs f1 r1 has1 RK1 S1 HS1 Hr1) as (outs1&kind1&Hm1&Eo1&En1&Hk1&Ed1&_).
    assert (Hkeys : forall k, (has = true /\ In k RK) <-> (has1 = true /\ In k RK1)).
    { intros k. pose proof (ri_outs _ _ _ _ _ _ G k) as A1. pose proof (ri_outs _ _ _ _ _ _ G1 k) as A2.
      rewrite <- dget_keys in A1, A2. rewrite Ho1 in A2. rewrite Ho in A1.
      pose proof (ri_data _ _ _ _ _ _ G eq_refl) as D1. pose proof (ri_data _ _ _ _ _ _ G1 eq_refl) as D2.
      split; intros [H1 H2].
      - assert (X : has1 = true /\ In k RK1 \/ true = true /\ k = "data") by (apply A2, A1; auto). destruct X as [X|[_ ->]]; [exact X|]. now elim D1.
      - assert (X : has = true /\ In k RK \/ true = true /\ k = "data") by (apply A1, A2; auto). destruct X as [X|[_ ->]]; [exact X|]. now elim D2. }
    assert (E : has1 = has /\ RK1 = RK).
    { destruct has, has1.
      - split; [reflexivity|]. apply slt_sorted_unique; [exact (stores_sorted _ _ _ HS1)|exact (stores_sorted _ _ _ HS)|]. intros k. specialize (Hkeys k). tauto.
      - exfalso. destruct RK as [|k RK']; [congruence|]. destruct (proj1 (Hkeys k)) as [? _]; [split; [reflexivity|now left]|discriminate].
      - exfalso. destruct RK1 as [|k RK']; [congruence|]. destruct (proj2 (Hkeys k)) as [? _]; [split; [reflexivity|now left]|discriminate].
      - split; [reflexivity|]. destruct Hh as [?| ->]; [discriminate|]. destruct Hh1 as [?| ->]; [discriminate|reflexivity]. }
    destruct E as [-> ->].
    assert (Hsame : dict_same (r_outputs r0) (r_outputs r1) = true).
    { rewrite Eo0. unfold dict_same. apply andb_true_iff. rewrite !forallb_forall. split; intros [k v] Hkv; cbn [fst snd].
      - rewrite Ho1, <- Ho. rewrite (In_dget _ _ _ Ok0 Hkv). now rewrite !Nat.eqb_refl.
      - unfold dhas. rewrite Ho, <- Ho1. assert (Hx : In k (dkeys (r_outputs r1))) by (unfold dkeys; change k with (fst (k, v)); now apply in_map).
        apply dget_keys in Hx. destruct (dget (r_outputs r1) k); [reflexivity|congruence]. }
    assert (Hnum : r_num_inputs r0 = r_num_inputs r1).
    { rewrite En0, En, En1. rewrite Ho1, <- Ho, Ed in Ed1. injection Ed1 as <-. reflexivity. }
    assert (Hne0 : r_outputs r0 <> []) by (rewrite Eo0; intros E; rewrite E in Ed; discriminate).
    destruct (next_accepts f1 r0 r1 has RK fs0 Ss0 S1 G0 HS1 Hr1 Hsame Hnum Hne0) as (r2&Hr2&Eo2&En2).
    cbn [add_files]. rewrite Hr2. cbn [bind].
    pose proof (add_file_next f1 r0 r2 true has RK fs0 Ss0 has RK S1 G0 HS1 eq_refl eq_refl (or_introl eq_refl) Hr2) as G2.
    apply (IH PSs1 r2 (fs0 ++ [f1]) (Ss0 ++ [S1]) HF1 HO1 G2); congruence. }
  exact (Hgen fs PSs r [f] [S] HF' HO' G eq_refl eq_refl).
Qed.
End F.
