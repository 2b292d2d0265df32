(** Proofs about chunking and collating. *)
From Coq Require Import String.
From Verif Require Import Base ListLemmas PyDict NumbersDictModel NumbersDictSpec NumbersDictProofs BatchPipeModel ChunkModel ChunkSpec.
Local Notation length := List.length.
Local Notation concat := List.concat.

(** ** one key *)
Definition chunks_fn {X} (size step min : nat) (l : list X) : list (list X) :=
  filter (fun c => min <=? length c) (map (window_at size step l) (seq 0 ((length l + step - 1) / step))).

Lemma n_windows n step : 0 < step -> forall i, i < (n + step - 1) / step <-> i * step < n.
Proof.
  intros Hs i. pose proof (Nat.div_mod (n + step - 1) step ltac:(lia)) as H.
  pose proof (Nat.mod_upper_bound (n + step - 1) step ltac:(lia)) as H2.
  set (q := (n + step - 1) / step) in *. clearbody q. set (r := (n + step - 1) mod step) in *. clearbody r. split; intros; nia.
Qed.
Lemma n_unique a b (P : nat -> Prop) : (forall i, i < a <-> P i) -> (forall i, i < b <-> P i) -> a = b.
Proof.
  intros Ha Hb. destruct (Nat.lt_trichotomy a b) as [H|[H|H]]; [|exact H|].
  - apply Hb, Ha in H. lia.
  - apply Ha, Hb in H. lia.
Qed.
Lemma is_chunking_fn {X} size step min (l : list X) cs : 0 < step ->
  is_chunking size step min l cs <-> cs = chunks_fn size step min l.
Proof.
  intros Hs. unfold is_chunking, chunks_fn. split.
  - intros (n&Hn&->). rewrite (n_unique n _ _ Hn (n_windows (length l) step Hs)). reflexivity.
  - intros ->. exists ((length l + step - 1) / step). split; [apply n_windows, Hs|reflexivity].
Qed.
Lemma chunk_list_fn {X} size step min (l : list X) : 0 < step ->
  chunk_list (Z.of_nat size) (Z.of_nat step) (Z.of_nat min) l = Ok (chunks_fn size step min l).
Proof.
  intros Hs. unfold chunk_list, chunks_fn.
  destruct (Z.eqb_spec (Z.of_nat step) 0); [lia|]. destruct (Z.ltb_spec (Z.of_nat step) 0); [lia|].
  f_equal. rewrite !Nat2Z.id.
  replace (Z.of_nat (length l) + Z.of_nat step - 1)%Z with (Z.of_nat (length l + step - 1)) by lia.
  rewrite <- Nat2Z.inj_div, Nat2Z.id.
  rewrite (filter_ext (fun c : list X => (Z.of_nat min <=? Z.of_nat (length c))%Z) (fun c => min <=? length c)).
  - f_equal. apply map_ext. intros i. unfold window_at, pyslice. rewrite Nat.add_comm, Nat.add_sub. reflexivity.
  - intros c. destruct (Nat.leb_spec min (length c)); lia.
Qed.

Lemma window_length {X} size step (l : list X) i : length (window_at size step l i) = Nat.min size (length l - i * step).
Proof. unfold window_at. rewrite firstn_length, skipn_length. reflexivity. Qed.

Lemma chunks_coverage {X} size step min (l : list X) cs p x : 0 < step -> step <= size -> min <= 1 -> is_chunking size step min l cs ->
  nth_error l p = Some x -> exists i c, nth_error cs i = Some c /\ i * step <= p /\ nth_error c (p - i * step) = Some x.
Proof.
  intros Hs Hss Hm (n&Hn&->) Hp. assert (Hlt : p < length l) by (apply nth_error_Some; congruence).
  rewrite filter_all.
  2: { intros c Hc. apply in_map_iff in Hc. destruct Hc as (i&<-&Hi). apply in_seq in Hi. apply Nat.leb_le. rewrite window_length.
       assert (i * step < length l) by (apply Hn; lia). lia. }
  exists (p / step), (window_at size step l (p / step)).
  pose proof (Nat.div_mod p step ltac:(lia)). pose proof (Nat.mod_upper_bound p step ltac:(lia)).
  assert (Hle : p / step * step <= p) by nia. split; [|split; [exact Hle|]].
  - rewrite nth_error_map, nth_error_seq; [reflexivity|]. apply Hn. lia.
  - unfold window_at. rewrite nth_error_firstn'. assert (p - p / step * step < size) by nia.
    destruct (Nat.ltb_spec (p - p / step * step) size); [|lia].
    rewrite nth_error_skipn'. replace (p / step * step + (p - p / step * step)) with p by lia. exact Hp.
Qed.

Lemma tiles {X} c (l : list X) n : (forall i, i < n <-> i * c < length l) ->
  concat (map (window_at c c l) (seq 0 n)) = firstn (n * c) l.
Proof.
  intros _. induction n as [|n IH]; [reflexivity|].
  rewrite seq_S, map_app, concat_app, IH. cbn [map concat]. rewrite app_nil_r. unfold window_at. cbn [Nat.add].
  replace (S n * c) with (n * c + c) by lia. rewrite <- (firstn_skipn (n * c) l) at 3.
  rewrite firstn_app, firstn_firstn. rewrite Nat.min_r by lia. f_equal.
  rewrite firstn_length. destruct (Nat.le_gt_cases (n * c) (length l)).
  - rewrite Nat.min_l by lia. f_equal. lia.
  - rewrite (skipn_all2 l) by lia. rewrite !firstn_nil. reflexivity.
Qed.
Lemma tiling {X} c min (l : list X) cs : 0 < c -> min <= c -> is_chunking c c min l cs ->
  exists rest, l = concat cs ++ rest /\ (rest <> [] -> length rest < min).
Proof.
  intros Hc Hm (n&Hn&->). pose proof (tiles c l n Hn) as Ht. destruct n as [|n].
  - exists []. split; [|congruence]. destruct l; [reflexivity|]. assert (0 < 0) by (apply Hn; cbn; lia). lia.
  - rewrite seq_S, map_app, filter_app in *. cbn [map filter Nat.add] in *.
    rewrite (filter_all _ (map _ _)).
    2: { intros x Hx. apply in_map_iff in Hx. destruct Hx as (i&<-&Hi). apply in_seq in Hi. apply Nat.leb_le. rewrite window_length.
         assert (n * c < length l) by (apply Hn; lia). nia. }
    assert (Hfull : firstn (S n * c) l = l).
    { apply firstn_all2. destruct (Nat.le_gt_cases (length l) (S n * c)); [assumption|]. assert (S n < S n) by (apply Hn; lia). lia. }
    rewrite Hfull, concat_app in Ht. cbn [concat] in Ht. rewrite app_nil_r in Ht.
    destruct (Nat.leb_spec min (length (window_at c c l n))).
    + exists []. split; [|congruence]. rewrite concat_app. cbn [concat]. rewrite !app_nil_r. congruence.
    + exists (window_at c c l n). split; [|tauto]. rewrite !app_nil_r. congruence.
Qed.

Lemma NoDup_app_intro' {A} (l l' : list A) : NoDup l -> NoDup l' -> (forall x, In x l -> In x l' -> False) -> NoDup (l ++ l').
Proof.
  intros H. induction H as [|x l Hx H IH]; intros H' Hd; cbn; [exact H'|]. constructor.
  - rewrite in_app_iff. intros [Hi|Hi]; [now apply Hx|]. apply (Hd x); [now left|exact Hi].
  - apply IH; [exact H'|]. intros y Hy. apply Hd. now right.
Qed.
Lemma map_nth_seq' {A} (l : list A) d : map (fun i => nth i l d) (seq 0 (length l)) = l.
Proof. induction l as [|x l IH]; [reflexivity|]. cbn. f_equal. rewrite <- seq_shift, map_map. exact IH. Qed.
Lemma Forall2_map_seq {A B} (R : A -> B -> Prop) (f : nat -> A) (g : nat -> B) a n :
  (forall i, i < a + n -> R (f i) (g i)) -> Forall2 R (map f (seq a n)) (map g (seq a n)).
Proof. revert a. induction n as [|n IH]; intros a H; cbn; constructor; [apply H; lia|]. apply IH. intros; apply H; lia. Qed.

(** ** the pipe *)
Section Pipe.
  Context {X : Type}.
  Variable cs ct cm : ndict Z.
  Variable size step min : string -> nat.

  Definition good (keys : list string) : Prop :=
    configured cs size keys /\ configured ct step keys /\ configured cm min keys /\ (forall k, In k keys -> 0 < step k).
  Definition nth_chunks (s : seqd X) (k : string) : list (list X) :=
    match dget s k with Some (Frames l) => chunks_fn (size k) (step k) (min k) l | _ => [] end.

  Lemma getitem_configured n f keys k : configured n f keys -> In k keys -> nd_getitem n k = Ok (Z.of_nat (f k)).
  Proof. intros H Hk. specialize (H k Hk). rewrite nd_getitem_spec, H. reflexivity. Qed.

  Lemma chunk_keys_spec s keys num acc : good keys -> dict_ok s -> has_frames s keys ->
    chunk_keys cs ct cm s keys num acc =
    match num with
    | Some n => if forallb (fun k => n =? length (nth_chunks s k)) keys
                then Ok (Some n, fold_left (fun a k => dset a k (nth_chunks s k)) keys acc) else Err AssertionError
    | None => match keys with
              | [] => Ok (None, acc)
              | k :: _ => let n := length (nth_chunks s k) in
                  if forallb (fun k => n =? length (nth_chunks s k)) keys
                  then Ok (Some n, fold_left (fun a k => dset a k (nth_chunks s k)) keys acc) else Err AssertionError
              end
    end.
  Proof.
    intros Hg Hok. revert num acc. induction keys as [|k keys IH]; intros num acc Hf.
    - destruct num; reflexivity.
    - destruct Hg as (H1&H2&H3&H4).
      assert (IH' : good keys) by (repeat split; intros j Hj; first [apply H1|apply H2|apply H3|apply H4]; now right).
      specialize (IH IH'). clear IH'.
      cbn [chunk_keys]. rewrite (getitem_configured _ _ _ k H1), (getitem_configured _ _ _ k H2), (getitem_configured _ _ _ k H3) by now left.
      cbn [bind]. destruct (Hf k (or_introl eq_refl)) as (l&Hl). apply In_dget in Hl; [|exact Hok]. rewrite Hl.
      rewrite chunk_list_fn by (apply H4; now left). cbn [bind].
      assert (Hn : nth_chunks s k = chunks_fn (size k) (step k) (min k) l) by (unfold nth_chunks; now rewrite Hl).
      rewrite <- Hn. assert (Hf' : has_frames s keys) by (intros j Hj; apply Hf; now right).
      destruct num as [n|]; cbn [bind forallb fold_left].
      + destruct (n =? length (nth_chunks s k)); cbn [assert_ bind andb]; [|reflexivity]. now rewrite IH.
      + rewrite IH by exact Hf'. rewrite Nat.eqb_refl. reflexivity.
  Qed.

  Lemma fold_dset_get {V} (f : string -> V) keys acc k :
    dget (fold_left (fun a k => dset a k (f k)) keys acc) k = if existsb (String.eqb k) keys then Some (f k) else dget acc k.
  Proof.
    revert acc. induction keys as [|j keys IH]; intros acc; [reflexivity|]. cbn [fold_left existsb]. rewrite IH, dget_dset.
    cbn [keqb EqB_string]. destruct (String.eqb_spec k j) as [->|Hne]; cbn [orb].
    - rewrite String.eqb_refl. destruct (existsb _ keys); reflexivity.
    - destruct (String.eqb_spec j k); [congruence|]. reflexivity.
  Qed.
  Lemma fold_dset_ok {V} (f : string -> V) keys acc : dict_ok acc -> dict_ok (fold_left (fun a k => dset a k (f k)) keys acc).
  Proof. revert acc. induction keys as [|j keys IH]; intros acc H; [exact H|]. cbn. apply IH, dict_ok_dset, H. Qed.

  Definition chunk_out (s : seqd X) (d : dict string (list (list X))) (i : nat) : seqd X :=
    let cd := map (fun '(k, c) => (k, Frames (nth i c []))) d in
    cd ++ filter (fun '(k, _) => negb (dhas cd k)) s.
  Lemma one_chunk_ok (s : seqd X) d i : (forall k c, In (k, c) d -> i < length c) -> one_chunk s d i = Ok (chunk_out s d i).
  Proof.
    intros H. unfold one_chunk, chunk_out.
    rewrite (mapM_ok_map _ (fun '(k, c) => (k, Frames (nth i c [])))); [reflexivity|].
    intros [k c] Hin. specialize (H k c Hin). unfold pyget. rewrite (nth_error_nth' _ [] H). reflexivity.
  Qed.
  Lemma chunk_out_keys (d : dict string (list (list X))) i :
    dkeys (map (fun '(k, c) => (k, Frames (nth i c []))) d) = dkeys d.
  Proof. unfold dkeys. rewrite map_map. apply map_ext. now intros []. Qed.
  Lemma chunk_out_In (s : seqd X) d i k v : In (k, v) (chunk_out s d i) <->
    (exists c, In (k, c) d /\ v = Frames (nth i c [])) \/ (In (k, v) s /\ ~ In k (dkeys d)).
  Proof.
    unfold chunk_out. rewrite in_app_iff, in_map_iff, filter_In, negb_true_iff.
    assert (Hd : dhas (map (fun '(k, c) => (k, Frames (nth i c []))) d) k = false <-> ~ In k (dkeys d)).
    { rewrite <- (chunk_out_keys d i), <- dhas_keys. destruct (dhas _ k); split; congruence. }
    rewrite Hd. split.
    - intros [([k' c]&H&Hi)|H]; [|now right]. injection H as -> <-. left. now exists c.
    - intros [(c&Hi&->)|H]; [|now right]. left. exists (k, c). now split.
  Qed.
  Lemma chunk_out_ok (s : seqd X) d i : dict_ok s -> dict_ok d -> dict_ok (chunk_out s d i).
  Proof.
    intros Hs Hd. unfold chunk_out, dict_ok. unfold dkeys. rewrite map_app. apply NoDup_app_intro'.
    - exact (eq_ind_r (@NoDup _) Hd (chunk_out_keys d i)).
    - clear Hd. induction s as [|[k v] s IH]; cbn; [constructor|]. inversion Hs; subst.
      destruct (negb _); cbn; [constructor|]; try apply IH; try assumption.
      intros Hc. apply H1. apply in_map_iff in Hc. destruct Hc as ([a b]&<-&Hc). apply filter_In in Hc. apply in_map_iff. exists (a, b). tauto.
    - intros k H1 H2. apply in_map_iff in H2. destruct H2 as ([a b]&<-&H2). apply filter_In in H2. destruct H2 as [_ H2].
      apply negb_true_iff in H2. cbn in H1. unfold dhas in H2. destruct (dget _ a) eqn:Ha; [congruence|]. apply dget_None in Ha. now apply Ha.
  Qed.

  Definition count_ok (s : seqd X) (keys : list string) : bool :=
    match keys with [] => false | k :: _ => forallb (fun j => length (nth_chunks s k) =? length (nth_chunks s j)) keys end.
  Lemma count_ok_spec s keys : keys <> [] -> dict_ok s -> has_frames s keys -> (forall k, In k keys -> 0 < step k) ->
    count_ok s keys = true <-> same_number_of_chunks size step min keys s.
  Proof.
    intros Hne Hok Hf Hst. unfold count_ok, same_number_of_chunks. destruct keys as [|k keys]; [congruence|].
    rewrite forallb_forall. split.
    - intros H. exists (length (nth_chunks s k)). intros j l c Hj Hl Hc. apply is_chunking_fn in Hc; [|now apply Hst]. subst c.
      specialize (H j Hj). apply Nat.eqb_eq in H. rewrite H. unfold nth_chunks. rewrite (In_dget _ _ _ Hok Hl). reflexivity.
    - intros (n&H) j Hj. apply Nat.eqb_eq.
      assert (Hn : forall j, In j (k :: keys) -> length (nth_chunks s j) = n).
      { intros i Hi. destruct (Hf i Hi) as (l&Hl). unfold nth_chunks. rewrite (In_dget _ _ _ Hok Hl).
        apply (H i l _ Hi Hl). apply is_chunking_fn; [now apply Hst|reflexivity]. }
      rewrite !Hn; [reflexivity|exact Hj|now left].
  Qed.

  Lemma seq_step s keys : good keys -> keys <> [] -> dict_ok s -> has_frames s keys -> count_ok s keys = true ->
    exists n chunks out, chunk_keys cs ct cm s keys None [] = Ok (Some n, chunks) /\
      mapM (one_chunk s chunks) (seq 0 n) = Ok out /\ chunks_of_seq size step min keys s out.
  Proof.
    intros Hg Hne Hok Hf Hc. rewrite (chunk_keys_spec s keys None []) by assumption.
    destruct keys as [|k0 keys0]; [congruence|]. set (keys := k0 :: keys0) in *. set (n := length (nth_chunks s k0)).
    assert (Hlen : forall k, In k keys -> length (nth_chunks s k) = n).
    { intros k Hk. unfold count_ok, keys in Hc. rewrite forallb_forall in Hc. specialize (Hc k Hk). apply Nat.eqb_eq in Hc. now symmetry. }
    change (forallb (fun k => n =? length (nth_chunks s k)) keys = true) in Hc. cbv zeta. fold n. rewrite Hc.
    set (d := fold_left (fun a k => dset a k (nth_chunks s k)) keys []).
    assert (Hd : forall k, dget d k = if existsb (String.eqb k) keys then Some (nth_chunks s k) else None) by (intros k; unfold d; rewrite (fold_dset_get (nth_chunks s)); reflexivity).
    assert (Hdok : dict_ok d) by (apply (fold_dset_ok (nth_chunks s)); constructor).
    assert (Hin : forall k c, In (k, c) d <-> In k keys /\ c = nth_chunks s k).
    { intros k c. split.
      - intros H. apply In_dget in H; [|exact Hdok]. rewrite Hd in H. destruct (existsb _ keys) eqn:He; [|discriminate].
        apply In_existsb_eqb in He. split; [exact He|congruence].
      - intros [Hk ->]. apply dget_In. rewrite Hd. apply In_existsb_eqb in Hk. now rewrite Hk. }
    assert (Hkeys : forall k, In k (dkeys d) <-> In k keys).
    { intros k. rewrite <- dget_keys, Hd, <- In_existsb_eqb. destruct (existsb _ keys); split; congruence. }
    exists n, d, (map (chunk_out s d) (seq 0 n)). split; [reflexivity|]. split.
    - apply mapM_ok_map. intros i Hi. apply in_seq in Hi. apply one_chunk_ok. intros k c Hk. apply Hin in Hk. destruct Hk as [Hk ->]. rewrite Hlen by exact Hk. lia.
    - split; [|split].
      + intros k l Hk Hl. exists (nth_chunks s k). assert (Hn : nth_chunks s k = chunks_fn (size k) (step k) (min k) l) by (unfold nth_chunks; now rewrite (In_dget _ _ _ Hok Hl)).
        split; [rewrite Hn; apply is_chunking_fn; [now apply Hg|reflexivity]|].
        assert (Hm : nth_chunks s k = map (fun i => nth i (nth_chunks s k) []) (seq 0 n)).
        { rewrite <- (Hlen k Hk). symmetry. apply map_nth_seq'. }
        rewrite Hm at 1. apply Forall2_map_seq. intros i Hi. apply chunk_out_In. left. exists (nth_chunks s k). split; [apply Hin; now split|reflexivity].
      + intros k v o Hk Ho. apply in_map_iff in Ho. destruct Ho as (i&<-&Hi). rewrite chunk_out_In, Hkeys. split.
        * intros [(c&Hc'&_)|H]; [|tauto]. apply Hin in Hc'. tauto.
        * intros H. right. now split.
      + intros o Ho. apply in_map_iff in Ho. destruct Ho as (i&<-&Hi). now apply chunk_out_ok.
  Qed.

  (** the loop, once the keys are known *)
  Lemma loop_spec keys data : good keys -> keys <> [] -> (forall s, In s data -> dict_ok s /\ has_frames s keys) ->
    exists groups, chunking_loop cs ct cm keys data = (concat groups, if forallb (fun s => count_ok s keys) data then Ok tt else Err AssertionError) /\
      exists done, (exists rest, data = done ++ rest) /\ Forall2 (chunks_of_seq size step min keys) done groups /\
        (forallb (fun s => count_ok s keys) data = true -> done = data).
  Proof.
    intros Hg Hne. induction data as [|s data IH]; intros H.
    - exists []. split; [reflexivity|]. exists []. split; [now exists []|]. split; [constructor|reflexivity].
    - destruct (H s (or_introl eq_refl)) as [Hok Hf]. destruct IH as (gs&Hgs&dn&(rest&Hr)&Hdn&Hall); [intros; apply H; now right|].
      assert (Hl : chunking_loop cs ct cm keys (s :: data) =
        match chunk_keys cs ct cm s keys None [] with
        | Err e => gen_raise e
        | Ok (None, _) => gen_raise AssertionError
        | Ok (Some n, chunks) => match mapM (one_chunk s chunks) (seq 0 n) with
            | Err e => gen_raise e
            | Ok out => let g := chunking_loop cs ct cm keys data in (out ++ fst g, snd g) end
        end) by (destruct keys; [congruence|reflexivity]).
      rewrite Hl. clear Hl. cbn [forallb]. destruct (count_ok s keys) eqn:Hc.
      + destruct (seq_step s keys Hg Hne Hok Hf Hc) as (n&ch&out&E1&E2&E3). rewrite E1, E2, Hgs. cbn [fst snd andb].
        exists (out :: gs). split; [reflexivity|]. exists (s :: dn). split; [exists rest; cbn; now rewrite Hr|].
        split; [now constructor|]. intros Ha. f_equal. now apply Hall.
      + rewrite (chunk_keys_spec s keys None []) by assumption. destruct keys as [|k keys']; [congruence|]. unfold count_ok in Hc. cbv zeta. rewrite Hc.
        exists []. split; [reflexivity|]. exists []. split; [now exists (s :: data)|]. split; [constructor|discriminate].
  Qed.

  Lemma chunks_of_seq_ext keys keys' (s : seqd X) g : (forall k, In k keys <-> In k keys') ->
    chunks_of_seq size step min keys s g -> chunks_of_seq size step min keys' s g.
  Proof.
    intros He (H1&H2&H3). split; [|split; [|exact H3]].
    - intros k l Hk. apply H1. now apply He.
    - intros k v o Hk. apply H2. now rewrite He.
  Qed.
  Lemma same_number_ext keys keys' (s : seqd X) : (forall k, In k keys <-> In k keys') ->
    same_number_of_chunks size step min keys s -> same_number_of_chunks size step min keys' s.
  Proof. intros He (n&H). exists n. intros k l c Hk. apply H. now apply He. Qed.

  Lemma default_keys_In (s : seqd X) k : In k (default_keys s) <-> In k (dkeys s) /\ ~ In k black_list.
  Proof. unfold default_keys. rewrite filter_In, negb_true_iff, <- (In_existsb_eqb k black_list). destruct (existsb _ black_list); intuition congruence. Qed.

  Lemma pipe_spec keys (data : list (seqd X)) : keys_to_chunk cs data keys -> keys <> [] -> good keys ->
    (forall s, In s data -> dict_ok s /\ has_frames s keys) ->
    exists groups r, chunking cs ct cm data = (concat groups, r) /\
      ((r = Ok tt /\ Forall2 (chunks_of_seq size step min keys) data groups /\
        forall s, In s data -> same_number_of_chunks size step min keys s) \/
       (r = Err AssertionError /\ (exists done rest, data = done ++ rest /\ Forall2 (chunks_of_seq size step min keys) done groups) /\
        exists s, In s data /\ ~ same_number_of_chunks size step min keys s)).
  Proof.
    intros Hk Hne Hg Hs. unfold chunking.
    assert (Hgoal : data = [] \/ exists keys', (forall k, In k keys' <-> In k keys) /\ keys' <> [] /\
      chunking_loop cs ct cm (dkeys (nd_dict cs)) data = chunking_loop cs ct cm keys' data).
    { unfold keys_to_chunk in Hk. destruct (nd_dict cs) as [|x d] eqn:Hd.
      - destruct data as [|s data]; [now left|]. right. exists (default_keys s).
        assert (He : forall k, In k (default_keys s) <-> In k keys).
        { intros k. rewrite default_keys_In, Hk, has_key_In. reflexivity. }
        assert (Hne' : default_keys s <> []). { destruct keys as [|k keys]; [congruence|]. intros H0. specialize (He k). rewrite H0 in He. apply He. now left. }
        split; [exact He|]. split; [exact Hne'|]. cbn [dkeys map chunking_loop]. destruct (default_keys s) as [|k0 l0]; [congruence|]. reflexivity.
      - right. exists keys. split; [tauto|]. split; [exact Hne|]. subst keys. reflexivity. }
    destruct Hgoal as [->|(keys'&He&Hne'&->)].
    - exists [], (Ok tt). split; [reflexivity|]. left. split; [reflexivity|]. split; [constructor|]. intros s [].
    - assert (Hg' : good keys').
      { destruct Hg as (H1&H2&H3&H4). repeat split; intros k Hk'; apply He in Hk'; auto. }
      assert (Hs' : forall s, In s data -> dict_ok s /\ has_frames s keys').
      { intros s Hin. destruct (Hs s Hin) as [Ho Hf]. split; [exact Ho|]. intros k Hk'. apply Hf, He, Hk'. }
      destruct (loop_spec keys' data Hg' Hne' Hs') as (gs&E&dn&(rest&Hr)&Hdn&Hall). exists gs, (if forallb (fun s => count_ok s keys') data then Ok tt else Err AssertionError).
      split; [exact E|]. assert (Hc : forall s, In s data -> count_ok s keys' = true <-> same_number_of_chunks size step min keys s).
      { intros s Hin. destruct (Hs' s Hin). rewrite count_ok_spec by (try assumption; apply Hg'). split; apply same_number_ext; [exact He|symmetry; apply He]. }
      assert (Hdn' : Forall2 (chunks_of_seq size step min keys) dn gs) by (eapply Forall2_impl'; [|exact Hdn]; intros; eapply chunks_of_seq_ext; eauto).
      destruct (forallb (fun s => count_ok s keys') data) eqn:Hf.
      + left. split; [reflexivity|]. rewrite (Hall eq_refl) in Hdn'. split; [exact Hdn'|]. intros s Hin. rewrite forallb_forall in Hf. apply Hc, Hf; exact Hin.
      + right. split; [reflexivity|]. split; [now exists dn, rest|].
        assert (Hex : existsb (fun s => negb (count_ok s keys')) data = true).
        { clear - Hf. induction data as [|s data IH]; [discriminate|]. cbn in *. destruct (count_ok s keys'); cbn in *; auto. }
        apply existsb_exists in Hex. destruct Hex as (s&Hin&Hns). exists s. split; [exact Hin|]. rewrite <- (Hc s Hin). destruct (count_ok s keys'); [discriminate|congruence].
  Qed.
End Pipe.

(** ** the configuration *)
Lemma min_value_pos (n : ndict Z) m k v : min_value n = Ok m -> (0 < m)%Z -> at_key n k = Some v -> (0 < v)%Z.
Proof.
  unfold min_value. intros H Hm Hk. rewrite at_key_get in Hk.
  assert (Hin : In v (nd_values n)).
  { apply values_In. unfold nd_get in Hk. destruct (dget (nd_dict n) k) eqn:E; [left; exists k; apply dget_In; congruence|now right]. }
  destruct (nd_values n) as [|x xs]; [contradiction|]. apply Ok_inj in H. pose proof (proj1 (fold_left_min xs x) v Hin). lia.
Qed.
Lemma parse_positive cs ct size step : parse_chunking cs ct = Ok (size, step) ->
  nd_eq size (Num 0%Z) = true \/ (forall k v, at_key size k = Some v -> (0 < v)%Z).
Proof.
  unfold parse_chunking. set (sz := match cs with None => _ | Some x => _ end). clearbody sz. cbv zeta.
  destruct (nd_eq sz (Num 0%Z)) eqn:E0; intros H.
  - cbn [bind] in H. apply Ok_inj in H. injection H as <- _. now left.
  - right. apply bind_Ok in H. destruct H as (?&H1&H). apply bind_Ok in H1. destruct H1 as (m&Hm&H1). apply assert_Ok in H1.
    apply bind_Ok in H. destruct H as (?&_&H). apply bind_Ok in H. destruct H as (?&_&H). apply bind_Ok in H. destruct H as (?&_&H).
    apply Ok_inj in H. injection H as <- _. intros k v. apply (min_value_pos sz m k v Hm). lia.
Qed.

Lemma nd_eq_num_spec a c : nd_eq a (Num c) = true -> forall k v, at_key a k = Some v -> v = c.
Proof.
  intros H k v Hk. change (nd_eq a (NumND (constant_like c a)) = true) in H. apply nd_eq_spec in H. destruct H as [H1 H2].
  rewrite at_key_get in Hk. destruct (dget_eq_dec (nd_dict a) k) as [(w&Hw)|Hn].
  - destruct (H1 k) as (u&Hu&Hu'). { left. apply has_key_In, dget_keys. congruence. }
    rewrite at_key_get in Hu, Hu'. rewrite nd_get_constant_like in Hu'. rewrite Hk in Hu. injection Hu as <-. destruct (nd_get a k); congruence.
  - unfold nd_get in Hk. rewrite Hn in Hk. apply (H2 v c Hk). unfold constant_like. cbn. now rewrite Hk.
Qed.

Lemma has_number_values n v : has_number n v <-> In v (nd_values n).
Proof. unfold has_number. now rewrite values_In. Qed.
Lemma nd_eq_zero_off n : dict_ok (nd_dict n) -> nd_eq n (Num 0%Z) = true <-> chunking_off n.
Proof.
  intros Hd. change (nd_eq n (NumND (constant_like 0%Z n)) = true <-> chunking_off n). rewrite nd_eq_spec. split.
  - intros [H1 H2] v [(k&Hk)|Hv].
    + destruct (H1 k) as (u&Hu&Hu'); [left; now exists v|]. rewrite at_key_get in Hu, Hu'. rewrite nd_get_constant_like in Hu'.
      unfold nd_get in Hu. rewrite (In_dget _ _ _ Hd Hk) in Hu. injection Hu as <-. destruct (nd_get n k); congruence.
    + apply (H2 v 0%Z Hv). unfold constant_like. cbn. now rewrite Hv.
  - intros H. split.
    + intros k Hk. assert (Hk' : has_key n k).
      { destruct Hk as [Hk|(w&Hk)]; [exact Hk|]. unfold constant_like in Hk. cbn in Hk. apply in_map_iff in Hk. destruct Hk as ((a&b)&Hab&Hin). injection Hab as <- _. now exists b. }
      destruct Hk' as (v&Hv). exists 0%Z. rewrite !at_key_get, nd_get_constant_like. unfold nd_get. rewrite (In_dget _ _ _ Hd Hv). rewrite (H v (or_introl (ex_intro _ k Hv))). now split.
    + intros v w Hv Hw. rewrite (H v (or_intror Hv)). unfold constant_like in Hw. cbn in Hw. rewrite Hv in Hw. congruence.
Qed.
Lemma same_keys_spec (a b : ndict Z) : dict_ok (nd_dict a) -> dict_ok (nd_dict b) ->
  same_keys (dkeys (nd_dict a)) (dkeys (nd_dict b)) = true <-> (forall k, has_key b k <-> has_key a k).
Proof.
  intros Ha Hb. unfold same_keys. rewrite !andb_true_iff, !forallb_forall, Nat.eqb_eq. split.
  - intros [[H0 H1] H2] k. rewrite !has_key_In. split; intros H; [apply H2 in H|apply H1 in H]; apply existsb_exists in H; destruct H as (x&Hx&E); apply String.eqb_eq in E; now subst.
  - intros H. assert (H1 : incl (dkeys (nd_dict a)) (dkeys (nd_dict b))) by (intros k Hk; apply has_key_In, H, has_key_In, Hk).
    assert (H2 : incl (dkeys (nd_dict b)) (dkeys (nd_dict a))) by (intros k Hk; apply has_key_In, H, has_key_In, Hk).
    repeat split.
    + pose proof (NoDup_incl_length Ha H1). pose proof (NoDup_incl_length Hb H2). unfold dkeys in *. lia.
    + intros k Hk. apply existsb_exists. exists k. split; [now apply H1|apply String.eqb_refl].
    + intros k Hk. apply existsb_exists. exists k. split; [now apply H2|apply String.eqb_refl].
Qed.
Lemma min_value_iff n : (exists m, min_value n = Ok m /\ (0 < m)%Z) <-> (exists v, has_number n v) /\ forall v, has_number n v -> (0 < v)%Z.
Proof.
  setoid_rewrite has_number_values. unfold min_value. destruct (nd_values n) as [|x xs].
  - split; [intros (m&?&?); discriminate|intros [(v&[])]].
  - destruct (fold_left_min xs x) as [H1 H2]. split.
    + intros (m&Hm&Hp). apply Ok_inj in Hm. split; [exists x; now left|]. intros v Hv. specialize (H1 v Hv). lia.
    + intros [_ H]. eexists. split; [reflexivity|]. apply H. exact H2.
Qed.
Lemma max_value_iff n : (exists m, max_value n = Ok m /\ (0 < m)%Z) <-> exists v, has_number n v /\ (0 < v)%Z.
Proof.
  setoid_rewrite has_number_values. unfold max_value. destruct (nd_values n) as [|x xs].
  - split; [intros (m&?&?); discriminate|intros (v&[]&_)].
  - destruct (fold_left_max xs x) as [H1 H2]. split.
    + intros (m&Hm&Hp). apply Ok_inj in Hm. exists m. split; [rewrite <- Hm; exact H2|exact Hp].
    + intros (v&Hv&Hp). eexists. split; [reflexivity|]. specialize (H1 v Hv). lia.
Qed.

Lemma parse_accepted cs ct size step : no_number_twice cs -> no_number_twice ct -> (forall x, ct = Some x -> plain x) ->
  parse_chunking cs ct = Ok (size, step) <->
  size = match cs with None => ND [] (Some 0%Z) | Some x => as_written x end /\
  step = match ct with None => size | Some (OpNum 0%Z) => size | Some x => as_written x end /\
  (chunking_off size \/ good_chunking size step).
Proof.
  intros Hcs Hct Hp. unfold parse_chunking.
  set (sz := match cs with None => nd_make _ | Some x => _ end).
  set (stp := match ct with None => _ | Some _ => _ end). cbv zeta.
  assert (E1 : sz = match cs with None => ND [] (Some 0%Z) | Some x => as_written x end) by (destruct cs; reflexivity).
  assert (E2 : stp = match ct with None => sz | Some (OpNum 0%Z) => sz | Some x => as_written x end).
  { destruct ct as [[d|n|v]|]; try reflexivity; [destruct (Hp _ eq_refl)|]. destruct v; reflexivity. }
  assert (Hsz : dict_ok (nd_dict sz)) by (rewrite E1; destruct cs; [exact Hcs|apply NoDup_nil]).
  assert (Hst : dict_ok (nd_dict stp)) by (rewrite E2; destruct ct as [[d|n|v]|]; [exact Hct|exact Hct|destruct v; [exact Hsz|exact Hct|exact Hct]|exact Hsz]).
  rewrite <- E1. clearbody sz stp. clear E1.
  assert (G : forall r, r = Ok (sz, stp) \/ (exists e, r = Err e) -> (r = Ok (sz, stp) <-> chunking_off sz \/ good_chunking sz stp) ->
    (r = Ok (size, step) <-> size = sz /\ step = match ct with None => size | Some (OpNum 0%Z) => size | Some x => as_written x end /\ (chunking_off size \/ good_chunking size step))).
  { intros r Hr Hiff. split.
    - intros ->. destruct Hr as [Hr|(e&Hr)]; [|discriminate]. apply Ok_inj in Hr. injection Hr as -> ->. split; [reflexivity|]. split; [exact E2|]. now apply Hiff.
    - intros (->&E3&H). rewrite <- E2 in E3. subst step. now apply Hiff. }
  apply G; clear G.
  - destruct (nd_eq sz (Num 0%Z)); [left; reflexivity|].
    destruct (min_value sz) as [m|e]; [|right; eexists; reflexivity]. cbn [bind]. destruct (0 <? m)%Z; [|right; eexists; reflexivity]. cbn [bind assert_].
    destruct (same_keys _ _); [|right; eexists; reflexivity]. cbn [bind assert_].
    destruct (max_value stp) as [m2|e]; [|right; eexists; reflexivity]. cbn [bind]. destruct (0 <? m2)%Z; [left; reflexivity|right; eexists; reflexivity].
  - pose proof (nd_eq_zero_off sz Hsz) as Ho. destruct (nd_eq sz (Num 0%Z)) eqn:E0.
    + split; [intros _; left; now apply Ho|reflexivity].
    + assert (Hn : ~ chunking_off sz) by (intros H; apply Ho in H; discriminate).
      pose proof (same_keys_spec stp sz Hst Hsz) as Hk. pose proof (min_value_iff sz) as Hm. pose proof (max_value_iff stp) as HM. split.
      * intros H. right. apply bind_Ok in H. destruct H as (?&H1&H). apply bind_Ok in H1. destruct H1 as (m&Hm1&H1). apply assert_Ok in H1.
        apply bind_Ok in H. destruct H as (?&H2&H). apply assert_Ok in H2. apply bind_Ok in H. destruct H as (M&H3&H). apply bind_Ok in H. destruct H as (?&H4&H). apply assert_Ok in H4.
        split; [apply Hm; exists m; split; [exact Hm1|lia]|]. split; [now apply Hk|]. apply HM. exists M. split; [exact H3|lia].
      * intros [H|(H1&H2&H3)]; [contradiction|].
        assert (Hne : exists v, has_number sz v).
        { destruct (nd_values sz) as [|v vs] eqn:Ev; [|exists v; apply has_number_values; rewrite Ev; now left].
          exfalso. apply Hn. intros v Hv. apply has_number_values in Hv. rewrite Ev in Hv. destruct Hv. }
        destruct (proj2 Hm (conj Hne H1)) as (m&->&Hmp). cbn [bind]. apply Z.ltb_lt in Hmp. rewrite Hmp. cbn [bind assert_].
        rewrite (proj2 Hk H2). cbn [bind assert_]. destruct (proj2 HM H3) as (M&->&HMp). cbn [bind]. apply Z.ltb_lt in HMp. rewrite HMp. reflexivity.
Qed.

(** ** collating *)
Section Collate.
  Context {X : Type}.
  Variable zero : X.
  Variable ltb : X -> X -> bool.

  Lemma list_max_In l : l <> [] -> In (list_max l) l.
  Proof.
    induction l as [|x l IH]; [congruence|]. intros _. cbn [list_max fold_right]. fold (list_max l). destruct l as [|y l]; [cbn; left; lia|].
    specialize (IH ltac:(congruence)). destruct (Nat.max_spec x (list_max (y :: l))) as [[_ ->]|[_ ->]]; [now right|now left].
  Qed.
  Lemma list_max_ge l x : In x l -> x <= list_max l.
  Proof. induction l as [|y l IH]; [intros []|]. intros [->|H]; cbn [list_max fold_right]; fold (list_max l); [lia|]. specialize (IH H). lia. Qed.
  Lemma pad_spec (ls : list (list X)) : is_padded zero ls (pad_sequence zero ls).
  Proof.
    exists (list_max (map (@length X) ls)). split; [intros l Hl; apply list_max_ge, in_map, Hl|]. split.
    - intros Hne. assert (H : In (list_max (map (@length X) ls)) (map (@length X) ls)) by (apply list_max_In; destruct ls; [congruence|discriminate]).
      apply in_map_iff in H. destruct H as (l&Hl&Hi). now exists l.
    - unfold pad_sequence. set (m := list_max _). assert (H : forall l, In l ls -> length l <= m) by (intros; apply list_max_ge, in_map; assumption).
      clearbody m. induction ls as [|l ls IH]; cbn; constructor; [|apply IH; intros; apply H; now right].
      specialize (H l (or_introl eq_refl)). rewrite app_length, repeat_length. split; [lia|]. split.
      + rewrite firstn_app, Nat.sub_diag, firstn_all. cbn. apply app_nil_r.
      + rewrite skipn_app, skipn_all, Nat.sub_diag. cbn. apply Forall_forall. intros x Hx. now apply repeat_spec in Hx.
  Qed.

  Lemma append_inj_r (c a b : string) : (a ++ c = b ++ c)%string -> a = b.
  Proof.
    intros H. apply (f_equal list_ascii_of_string) in H.
    assert (Ha : forall x y, list_ascii_of_string (x ++ y)%string = (list_ascii_of_string x ++ list_ascii_of_string y)%list).
    { induction x as [|ch x IH]; intros y; cbn; [reflexivity|]. now rewrite IH. }
    rewrite !Ha in H. apply app_inv_tail in H. rewrite <- (string_of_list_ascii_of_string a), <- (string_of_list_ascii_of_string b). now rewrite H.
  Qed.

  Lemma mapM_getitem batch k (vs : list (arr X)) : (forall s, In s batch -> dict_ok s) ->
    Forall2 (fun s v => In (k, v) s) batch vs -> mapM (fun s => getitem s k) batch = Ok vs.
  Proof.
    intros Hok H. apply mapM_Ok_Forall2. induction H as [|s v batch vs H1 H2 IH]; constructor.
    - unfold getitem. rewrite (In_dget s k v); [reflexivity|apply Hok; now left|exact H1].
    - apply IH. intros; apply Hok; now right.
  Qed.
  Lemma Forall2_frames batch k (ls : list (list X)) : all_frames batch k ls -> Forall2 (fun s v => In (k, v) s) batch (map Frames ls).
  Proof. unfold all_frames. intros H. induction H; cbn; constructor; auto. Qed.
  Lemma Forall2_scalars batch k (ls : list X) : all_scalars batch k ls -> Forall2 (fun s v => In (k, v) s) batch (map Scalar ls).
  Proof. unfold all_scalars. intros H. induction H; cbn; constructor; auto. Qed.
  Lemma mapM_map {A B C} (f : B -> res C) (g : A -> B) l : mapM f (map g l) = mapM (fun x => f (g x)) l.
  Proof. induction l as [|x l IH]; [reflexivity|]. cbn. now rewrite IH. Qed.

  Lemma not_meta k : ~ is_meta_key k -> (String.eqb k "num_seqs" || String.eqb k "epoch")%string = false /\ String.eqb k "complete_frac" = false.
  Proof.
    intros H. unfold is_meta_key in H. destruct (String.eqb_spec k "num_seqs"), (String.eqb_spec k "epoch"), (String.eqb_spec k "complete_frac"); try tauto; split; reflexivity.
  Qed.
  Lemma collate_key_frames first batch' k ls out : let batch := first :: batch' in
    ~ is_meta_key k -> (forall s, In s batch -> dict_ok s) -> all_frames batch k ls ->
    collate_key zero ltb batch first k out =
      Ok (dset (dset out k (CPadded (pad_sequence zero ls))) (k ++ ":seq_len")%string (CLens (map (@length X) ls))).
  Proof.
    intros batch Hm Hok H. destruct (not_meta k Hm) as [H1 H2]. unfold collate_key. rewrite H1, H2.
    rewrite (mapM_getitem batch k (map Frames ls) Hok (Forall2_frames _ _ _ H)). cbn [bind].
    unfold all_frames, batch in H. destruct ls as [|l ls]; [inversion H|]. cbn [map].
    change (Frames l :: map Frames ls) with (map Frames (l :: ls)). rewrite mapM_map, (mapM_ok_map _ (fun x => x)) by reflexivity.
    rewrite map_id. reflexivity.
  Qed.
  Lemma collate_key_scalars first batch' k xs out : let batch := first :: batch' in
    ~ is_meta_key k -> (forall s, In s batch -> dict_ok s) -> all_scalars batch k xs ->
    collate_key zero ltb batch first k out = Ok (dset out k (CStack xs)).
  Proof.
    intros batch Hm Hok H. destruct (not_meta k Hm) as [H1 H2]. unfold collate_key. rewrite H1, H2.
    rewrite (mapM_getitem batch k (map Scalar xs) Hok (Forall2_scalars _ _ _ H)). cbn [bind].
    unfold all_scalars, batch in H. destruct xs as [|l ls]; [inversion H|]. cbn [map].
    change (Scalar l :: map Scalar ls) with (map Scalar (l :: ls)). rewrite mapM_map, (mapM_ok_map _ (fun x => x)) by reflexivity.
    rewrite map_id. reflexivity.
  Qed.
  Definition max_of (v : X) (vs : list X) : X := fold_left (fun a b => if ltb a b then b else a) vs v.
  Lemma collate_key_complete first batch' x xs out : let batch := first :: batch' in
    (forall s, In s batch -> dict_ok s) -> all_scalars batch "complete_frac" (x :: xs) ->
    collate_key zero ltb batch first "complete_frac" out = Ok (dset out "complete_frac"%string (CSingle (Scalar (max_of x xs)))).
  Proof.
    intros batch Hok H. unfold collate_key. cbn [String.eqb Ascii.eqb Bool.eqb orb].
    change (String.eqb "complete_frac" "num_seqs" || String.eqb "complete_frac" "epoch")%string with false. cbv iota.
    change (String.eqb "complete_frac" "complete_frac")%string with true. cbv iota.
    assert (Hm : mapM (fun s : seqd X => let* v := getitem s "complete_frac" in as_scalar v) batch = Ok (x :: xs)).
    { apply mapM_Ok_Forall2. unfold all_scalars in H. clear - H Hok. induction H as [|s v b vs H1 H2 IH]; constructor.
      - unfold getitem. rewrite (In_dget s _ _ (Hok s (or_introl eq_refl)) H1). reflexivity.
      - apply IH. intros; apply Hok; now right. }
    rewrite Hm. reflexivity.
  Qed.
  Lemma max_of_spec v vs : total_order ltb -> In (max_of v vs) (v :: vs) /\ forall y, In y (v :: vs) -> ltb (max_of v vs) y = false.
  Proof.
    intros (Hr&Ha&Ht). unfold max_of. revert v. induction vs as [|w vs IH]; intros v.
    - cbn. split; [now left|]. intros y [<-|[]]. apply Hr.
    - cbn [fold_left]. specialize (IH (if ltb v w then w else v)). destruct IH as [I1 I2]. split.
      + destruct I1 as [<-|I1]; [destruct (ltb v w); cbn; auto|]. now right; right.
      + intros y Hy.
        assert (Hc : ltb (if ltb v w then w else v) y = false \/ In y vs).
        { destruct Hy as [<-|[<-|Hy]]; [| |now right]; left; destruct (ltb v w) eqn:E; auto. }
        destruct Hc as [Hc|Hc]; [|apply I2; now right]. apply (Ht y (if ltb v w then w else v)); [exact Hc|]. apply I2. now left.
  Qed.

  (** What key [k] contributes: its entries, and nothing else changes. *)
  Definition written (batch : list (seqd X)) (first : seqd X) (k : string) (j : string) (v : cval X) : Prop :=
    (is_meta_key k /\ k <> "complete_frac"%string /\ j = k /\ exists a, In (k, a) first /\ v = CSingle a) \/
    (k = "complete_frac"%string /\ j = k /\ exists x xs, all_scalars batch k (x :: xs) /\ v = CSingle (Scalar (max_of x xs))) \/
    (~ is_meta_key k /\ j = k /\ exists xs, all_scalars batch k xs /\ v = CStack xs) \/
    (~ is_meta_key k /\ exists ls, all_frames batch k ls /\
       ((j = k /\ v = CPadded (pad_sequence zero ls)) \/ (j = (k ++ ":seq_len")%string /\ v = CLens (map (@length X) ls)))).

  Lemma all_frames_fun batch k (ls ls' : list (list X)) : (forall s, In s batch -> dict_ok s) -> all_frames batch k ls -> all_frames batch k ls' -> ls = ls'.
  Proof.
    unfold all_frames. intros Hok H. revert ls'. induction H as [|s l b ls H1 H2 IH]; intros ls' H'; inversion H' as [|s0 l' b0 ls0 H3 H4]; subst; [reflexivity|].
    apply In_dget in H1, H3; try (apply Hok; now left). f_equal; [congruence|]. apply IH; [intros; apply Hok; now right|exact H4].
  Qed.
  Lemma all_scalars_fun batch k (ls ls' : list X) : (forall s, In s batch -> dict_ok s) -> all_scalars batch k ls -> all_scalars batch k ls' -> ls = ls'.
  Proof.
    unfold all_scalars. intros Hok H. revert ls'. induction H as [|s l b ls H1 H2 IH]; intros ls' H'; inversion H' as [|s0 l' b0 ls0 H3 H4]; subst; [reflexivity|].
    apply In_dget in H1, H3; try (apply Hok; now left). f_equal; [congruence|]. apply IH; [intros; apply Hok; now right|exact H4].
  Qed.
  Lemma frames_not_scalars first batch' k (ls : list (list X)) xs : (forall s, In s (first :: batch') -> dict_ok s) ->
    all_frames (first :: batch') k ls -> all_scalars (first :: batch') k xs -> False.
  Proof.
    intros Hok H H'. unfold all_frames in H. unfold all_scalars in H'. inversion H as [|? ? ? ? G1 ?]; subst. inversion H' as [|? ? ? ? G2 ?]; subst. apply In_dget in G1, G2; try (apply Hok; now left). congruence.
  Qed.

  Lemma seq_len_neq k : (k ++ ":seq_len")%string <> k.
  Proof.
    intros H. apply (f_equal String.length) in H.
    assert (Hl : forall a b, String.length (a ++ b)%string = String.length a + String.length b) by (induction a; intros; cbn; [reflexivity|now rewrite IHa]).
    rewrite Hl in H. cbn in H. lia.
  Qed.

  Lemma collate_key_spec first batch' k out keys : let batch := first :: batch' in
    can_collate batch keys -> In k keys -> In k (dkeys first) ->
    exists out', collate_key zero ltb batch first k out = Ok out' /\
      (forall j, j <> k -> (j <> (k ++ ":seq_len")%string) -> dget out' j = dget out j) /\
      (forall j v, written batch first k j v -> dget out' j = Some v) /\
      (forall j v, dget out' j = Some v -> dget out j = Some v \/ written batch first k j v) /\
      (dict_ok out -> dict_ok out').
  Proof.
    intros batch (Hok&Hu&Hcf&Hcl) Hk Hkf.
    assert (Hmeta : {is_meta_key k} + {~ is_meta_key k}).
    { unfold is_meta_key. destruct (String.string_dec k "num_seqs"), (String.string_dec k "epoch"), (String.string_dec k "complete_frac"); try (left; tauto); right; tauto. }
    assert (Hone : forall v, (forall j v', written batch first k j v' <-> j = k /\ v' = v) -> collate_key zero ltb batch first k out = Ok (dset out k v) ->
      exists out', collate_key zero ltb batch first k out = Ok out' /\
      (forall j, j <> k -> (j <> (k ++ ":seq_len")%string) -> dget out' j = dget out j) /\
      (forall j v, written batch first k j v -> dget out' j = Some v) /\
      (forall j v, dget out' j = Some v -> dget out j = Some v \/ written batch first k j v) /\
      (dict_ok out -> dict_ok out')).
    { intros v Hw ->. exists (dset out k v). split; [reflexivity|]. split; [intros j Hj _; now apply dget_dset_neq, not_eq_sym|].
      split; [intros j v' Hj; apply Hw in Hj; destruct Hj as [-> ->]; apply dget_dset_eq|]. split; [|apply dict_ok_dset].
      intros j v' Hj. destruct (String.string_dec k j) as [<-|Hne]; [right; apply Hw; rewrite dget_dset_eq in Hj; split; congruence|].
      left. now rewrite dget_dset_neq in Hj. }
    destruct Hmeta as [Hm|Hm].
    - destruct (String.string_dec k "complete_frac") as [->|Hne].
      + destruct (Hcf Hk) as (xs&Hxs). destruct xs as [|x xs]; [inversion Hxs|].
        apply (Hone (CSingle (Scalar (max_of x xs)))); [|now apply collate_key_complete]. intros j v'. split.
        * intros [(_&H&_)|[(_&->&y&ys&Hy&->)|[(H&_)|(H&_)]]]; try tauto; [|exfalso; apply H; unfold is_meta_key; tauto..].
          split; [reflexivity|]. pose proof (all_scalars_fun _ _ _ _ Hok Hxs Hy) as E. injection E as <- <-. reflexivity.
        * intros [-> ->]. right; left. split; [reflexivity|]. split; [reflexivity|]. now exists x, xs.
      + apply dget_keys in Hkf. destruct (dget first k) as [a|] eqn:Ha; [|congruence].
        assert (Hin : In (k, a) first) by now apply dget_In.
        apply (Hone (CSingle a)).
        * intros j v'. split.
          -- intros [(_&_&->&b&Hb&->)|[(H&_)|[(H&_)|(H&_)]]]; try tauto. split; [reflexivity|]. f_equal. apply In_dget in Hb; [congruence|apply Hok; now left].
          -- intros [-> ->]. left. split; [exact Hm|]. split; [exact Hne|]. split; [reflexivity|]. now exists a.
        * unfold collate_key. assert (E : (String.eqb k "num_seqs" || String.eqb k "epoch")%string = true).
          { destruct Hm as [->|[->|Hm]]; [reflexivity|reflexivity|contradiction]. }
          rewrite E. unfold getitem. rewrite Ha. reflexivity.
    - assert (Hncf : k <> "complete_frac"%string) by (intros ->; apply Hm; unfold is_meta_key; tauto).
      destruct (Hu k Hk Hm) as [(ls&Hls)|(xs&Hxs)].
      + unfold batch in *. rewrite (collate_key_frames first batch' k ls out Hm Hok Hls). eexists. split; [reflexivity|].
        pose proof (seq_len_neq k) as Hne.
        assert (Hw : forall j v, written (first :: batch') first k j v <->
          (j = k /\ v = CPadded (pad_sequence zero ls)) \/ (j = (k ++ ":seq_len")%string /\ v = CLens (map (@length X) ls))).
        { intros j v. split.
          - intros [(H&_)|[(H&_)|[(_&_&xs&Hx&_)|(_&ls'&Hl&H)]]]; try contradiction.
            + exfalso. eapply frames_not_scalars; eauto.
            + rewrite (all_frames_fun _ _ _ _ Hok Hls Hl). exact H.
          - intros H. right; right; right. split; [exact Hm|]. exists ls. now split. }
        split; [intros j H1 H2; rewrite !dget_dset_neq by congruence; reflexivity|]. split; [|split].
        * intros j v Hv. apply Hw in Hv. destruct Hv as [[-> ->]|[-> ->]]; [rewrite dget_dset_neq by exact Hne; apply dget_dset_eq|apply dget_dset_eq].
        * intros j v Hv. rewrite Hw. destruct (String.string_dec (k ++ ":seq_len") j) as [<-|H1]; [rewrite dget_dset_eq in Hv; right; right; split; congruence|].
          rewrite dget_dset_neq in Hv by exact H1. destruct (String.string_dec k j) as [<-|H2]; [rewrite dget_dset_eq in Hv; right; left; split; congruence|].
          rewrite dget_dset_neq in Hv by exact H2. now left.
        * intros Ho. now apply dict_ok_dset, dict_ok_dset.
      + apply (Hone (CStack xs)); [|now apply collate_key_scalars]. intros j v. split.
        * intros [(H&_)|[(H&_)|[(_&->&ys&Hx&->)|(_&ls'&Hl&H)]]]; try contradiction.
          -- split; [reflexivity|]. f_equal. exact (all_scalars_fun _ _ _ _ Hok Hx Hxs).
          -- exfalso. eapply frames_not_scalars; eauto.
        * intros [-> ->]. right; right; left. split; [exact Hm|]. split; [reflexivity|]. now exists xs.
  Qed.

  Lemma written_key batch first k j v : written batch first k j v -> j = k \/ j = (k ++ ":seq_len")%string.
  Proof. intros [(_&_&->&_)|[(_&->&_)|[(_&->&_)|(_&ls&_&[[-> _]|[-> _]])]]]; auto. Qed.

  Lemma collate_keys_spec first batch' keys0 keys out : let batch := first :: batch' in
    can_collate batch keys0 -> incl keys keys0 -> incl keys (dkeys first) -> NoDup keys -> dict_ok out ->
    exists out', collate_keys zero ltb batch first keys out = Ok out' /\ dict_ok out' /\
      (forall j, (forall k, In k keys -> j <> k /\ j <> (k ++ ":seq_len")%string) -> dget out' j = dget out j) /\
      (forall k j v, In k keys -> written batch first k j v -> dget out' j = Some v) /\
      (forall j v, dget out' j = Some v -> dget out j = Some v \/ exists k, In k keys /\ written batch first k j v).
  Proof.
    intros batch Hc. revert out. induction keys as [|k keys IH]; intros out Hi Hi2 Hnd Ho.
    - exists out. split; [reflexivity|]. split; [exact Ho|]. split; [reflexivity|]. split; [intros k j v []|]. now left.
    - inversion Hnd as [|? ? Hnk Hnd']; subst.
      destruct (collate_key_spec first batch' k out keys0 Hc (Hi k (or_introl eq_refl)) (Hi2 k (or_introl eq_refl))) as (o1&E1&A1&A2&A3&A4).
      destruct (IH o1) as (o2&E2&B0&B1&B2&B3); [intros x Hx; apply Hi; now right|intros x Hx; apply Hi2; now right|exact Hnd'|now apply A4|].
      exists o2. cbn [collate_keys]. fold batch in E1. rewrite E1. cbn [bind]. split; [exact E2|]. split; [exact B0|]. split; [|split].
      + intros j Hj. rewrite B1 by (intros; apply Hj; now right). apply A1; apply Hj; now left.
      + intros k' j v [<-|Hk'] Hw; [|now apply (B2 k')]. rewrite B1; [now apply A2|]. intros k2 Hk2.
        assert (Hne : k <> k2) by (intros ->; contradiction). destruct Hc as (_&_&_&Hcl).
        destruct (written_key _ _ _ _ _ Hw) as [->| ->].
        * split; [exact Hne|]. apply Hcl; apply Hi; [now left|now right].
        * split; [apply not_eq_sym, Hcl; apply Hi; [now right|now left]|]. intros He. apply append_inj_r in He. contradiction.
      + intros j v Hj. apply B3 in Hj. destruct Hj as [Hj|(k'&Hk'&Hw)]; [|right; exists k'; split; [now right|exact Hw]].
        apply A3 in Hj. destruct Hj as [Hj|Hj]; [now left|]. right. exists k. split; [now left|exact Hj].
  Qed.

  Lemma collate_spec first batch' : let batch := first :: batch' in can_collate batch (dkeys first) ->
    exists out, collate_batch zero ltb batch = Ok out /\ dict_ok out /\
      forall j v, In (j, v) out <-> exists k, In k (dkeys first) /\ written batch first k j v.
  Proof.
    intros batch Hc. assert (Hnd : NoDup (dkeys first)) by (apply Hc; now left).
    destruct (collate_keys_spec first batch' (dkeys first) (dkeys first) [] Hc (incl_refl _) (incl_refl _) Hnd ltac:(constructor)) as (o&E&B0&B1&B2&B3).
    exists o. split; [exact E|]. split; [exact B0|]. intros j v. split.
    - intros H. apply In_dget in H; [|exact B0]. apply B3 in H. destruct H as [H|H]; [discriminate|exact H].
    - intros (k&Hk&Hw). apply dget_In. now apply (B2 k).
  Qed.
End Collate.
