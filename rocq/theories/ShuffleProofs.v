(** Proofs about buffered reordering. *)
From Coq Require Import String Sorted.
From Verif Require Import Base ListLemmas PyDict PySort PySortProofs BatchPipeModel ShuffleModel ShuffleSpec.
Local Notation length := List.length.
Local Notation concat := List.concat.

Lemma pull_ended {A} n (rest : list A) : pull n rest true = ([], rest, true).
Proof. induction n; cbn; auto. Qed.
Lemma pull_spec {A} n (rest : list A) : pull n rest false = (firstn n rest, skipn n rest, length rest <? n).
Proof.
  revert rest; induction n as [|n IH]; intros rest; cbn [pull]; [reflexivity|].
  destruct rest as [|x rest].
  - rewrite pull_ended. cbn. reflexivity.
  - rewrite IH. cbn [firstn skipn length]. reflexivity.
Qed.

Section Buffered.
  Context {A : Type}.
  Variable size : nat.
  Variable round : nat -> list A -> res (list A).
  Variable good : A -> Prop.
  Variable rel : nat -> list A -> list A -> Prop.
  Hypothesis Hsize : 0 < size.
  Hypothesis Hround : forall n buf, Forall good buf -> exists out, round n buf = Ok out /\ length out = length buf /\ rel n buf out.

  Fixpoint rel_windows (n : nat) (ws ws' : list (list A)) : Prop :=
    match ws, ws' with
    | [], [] => True
    | w :: ws, w' :: ws' => rel n w w' /\ rel_windows (S n) ws ws'
    | _, _ => False
    end.

  Lemma buffered_loop_spec fuel : forall n buf rest ended,
    Forall good buf -> Forall good rest ->
    length buf <= size -> (length buf < size -> rest = []) -> (ended = true -> rest = []) -> (buf = [] -> ended = true) ->
    1 <= fuel -> (buf <> [] -> 2 + length rest <= fuel) ->
    exists out, buffered_loop size round fuel n buf rest ended = (out, Ok tt) /\
      ((buf = [] /\ out = []) \/
       (buf <> [] /\ exists ws ws', windows size (buf ++ rest) ws /\ windows size out ws' /\ rel_windows n ws ws')).
  Proof.
    induction fuel as [|fuel IH]; intros n buf rest ended Hg Hgr Hle Hlt Hend Hemp Hf1 Hf; [lia|].
    destruct (Hround n buf Hg) as (out&Hr&Hlen&Hrel). cbn [buffered_loop]. rewrite Hr.
    assert (Hpull : exists ended', pull (length out) rest ended = (firstn (length out) rest, skipn (length out) rest, ended')
      /\ (ended' = true -> skipn (length out) rest = []) /\ ((length rest < length out \/ ended = true) -> ended' = true)).
    { destruct ended.
      - exists true. rewrite pull_ended. rewrite Hend by auto. rewrite firstn_nil, skipn_nil. auto.
      - exists (length rest <? length out). rewrite pull_spec. split; [reflexivity|]. split.
        + intros H. apply Nat.ltb_lt in H. apply skipn_all2. lia.
        + intros [H|H]; [now apply Nat.ltb_lt|discriminate]. }
    destruct Hpull as (ended'&Hp&Hend'&Hset). rewrite Hp.
    destruct (Nat.ltb_spec (length out) size) as [Hlo|Hlo].
    - assert (Hrest : rest = []) by (apply Hlt; lia). subst rest. rewrite firstn_nil in *.
      assert (ended' = true).
      { apply Hset. destruct buf as [|x buf]; [right; auto|left; cbn in *; lia]. }
      subst ended'. cbn [andb assert_ fst snd gen_end]. rewrite app_nil_r. exists out. split; [reflexivity|].
      destruct buf as [|x buf].
      + left. split; auto. destruct out; [auto|discriminate].
      + right. split; [discriminate|]. exists [x :: buf], [out]. rewrite app_nil_r.
        split; [apply W_last; [discriminate|lia]|]. split; [apply W_last; [|lia]|split; [exact Hrel|exact I]].
        intros ->. discriminate.
    - assert (Hout : length out = size) by lia. rewrite Hout in *.
      destruct (IH (S n) (firstn size rest) (skipn size rest) ended') as (o&Ho&Hcase).
      + apply Forall_forall. intros a Ha. apply In_firstn in Ha. rewrite Forall_forall in Hgr. auto.
      + apply Forall_forall. intros a Ha. apply In_skipn in Ha. rewrite Forall_forall in Hgr. auto.
      + rewrite firstn_length. lia.
      + rewrite firstn_length. intros H. apply skipn_all2. lia.
      + exact Hend'.
      + intros H. apply Hset. left. destruct rest; [cbn; lia|]. destruct size; [lia|discriminate].
      + assert (Hb : buf <> []) by (intros ->; cbn in *; lia). specialize (Hf Hb). lia.
      + assert (Hb : buf <> []) by (intros ->; cbn in *; lia). specialize (Hf Hb). intros Hn. rewrite skipn_length.
        destruct rest; [now rewrite firstn_nil in Hn|]. cbn [length] in *. lia.
      + rewrite Ho. cbn [fst snd]. exists (out ++ o). split; [reflexivity|]. right. split; [intros ->; cbn in *; lia|].
        destruct Hcase as [[Hnil ->]|[Hnn (ws&ws'&H1&H2&H3)]].
        * assert (rest = []) as -> by (destruct rest; [auto|destruct size; [lia|discriminate]]). rewrite !app_nil_r.
          exists [buf], [out]. split; [apply W_last; [intros ->; cbn in *; lia|lia]|].
          split; [apply W_last; [intros ->; cbn in *; lia|lia]|]. split; [exact Hrel|exact I].
        * exists (buf :: ws), (out :: ws'). rewrite firstn_skipn in H1.
          split; [apply W_cons; [lia|exact H1]|]. split; [apply W_cons; auto|]. split; auto.
  Qed.

  Lemma buffered_spec data : data <> [] -> Forall good data ->
    exists out ws ws', buffered size round data = (out, Ok tt) /\
      windows size data ws /\ windows size out ws' /\ rel_windows 0 ws ws'.
  Proof.
    intros Hne Hg. unfold buffered.
    destruct (buffered_loop_spec (2 + length data) 0 (firstn size data) (skipn size data) false) as (out&Ho&Hcase).
    - apply Forall_forall. intros a Ha. apply In_firstn in Ha. rewrite Forall_forall in Hg. auto.
    - apply Forall_forall. intros a Ha. apply In_skipn in Ha. rewrite Forall_forall in Hg. auto.
    - rewrite firstn_length. lia.
    - rewrite firstn_length. intros H. apply skipn_all2. lia.
    - discriminate.
    - intros H. destruct data; [congruence|]. destruct size; [lia|discriminate].
    - lia.
    - rewrite skipn_length. lia.
    - destruct Hcase as [[Hnil _]|[_ (ws&ws'&H1&H2&H3)]].
      + destruct data; [congruence|]. destruct size; [lia|discriminate].
      + rewrite firstn_skipn in H1. exists out, ws, ws'. auto.
  Qed.

End Buffered.

Lemma buffered_empty {A} size (round : nat -> list A -> res (list A)) :
  0 < size -> (forall n, round n [] = Ok []) -> buffered size round [] = ([], Err AssertionError).
Proof.
  intros Hs H. unfold buffered. rewrite firstn_nil, skipn_nil. cbn [buffered_loop length Nat.add].
  rewrite H. cbn. destruct size; [lia|reflexivity].
Qed.

Lemma windows_concat {A} n (l : list A) ws : windows n l ws -> concat ws = l.
Proof. induction 1 as [l|w l ws Hw H IH]; cbn; [apply app_nil_r|now rewrite IH]. Qed.

(** ** shuffling *)
Section Shuffle.
  Context {X : Type}.
  Notation batch := (list (seqd X)).
  Variable mono_keys : list string.

  Definition has (k : string) (s : seqd X) : Prop := In k (dkeys s).

  Lemma without_dset k v (s : seqd X) : In k mono_keys -> has k s -> without mono_keys (dset s k v) = without mono_keys s.
  Proof.
    intros Hk. unfold has. induction s as [|(a, w) s IH]; cbn [dkeys map dset]; [intros []|]. intros Hin.
    destruct (keqb a k) eqn:E.
    - apply keqb_eq in E. subst a. cbn [without filter].
      assert (Hx : existsb (String.eqb k) mono_keys = true) by (apply existsb_exists; exists k; split; auto; apply String.eqb_refl).
      rewrite Hx. reflexivity.
    - apply keqb_neq in E. destruct Hin as [Hin|Hin]; [cbn in Hin; congruence|].
      unfold without in *. cbn [filter]. rewrite IH by exact Hin. reflexivity.
  Qed.
  Lemma has_dset k v k' (s : seqd X) : has k' s -> has k' (dset s k v).
  Proof. unfold has. intros H. rewrite dkeys_dset. destruct (dhas s k); auto. apply in_or_app. now left. Qed.

  Lemma put_batch_spec k vs (b : batch) :
    length b <= length vs -> (forall s, In s b -> has k s) ->
    exists b2, put_batch k vs b = (b2, skipn (length b) vs) /\ length b2 = length b /\
      map (fun s => dget s k) b2 = map Some (firstn (length b) vs) /\
      (forall k', k' <> k -> map (fun s => dget s k') b2 = map (fun s => dget s k') b) /\
      (In k mono_keys -> map (without mono_keys) b2 = map (without mono_keys) b) /\
      (forall k', (forall s, In s b -> has k' s) -> (forall s, In s b2 -> has k' s)).
  Proof.
    revert vs; induction b as [|s b IH]; intros vs Hlen Hk.
    - exists []. cbn. repeat split; auto; try (intros; contradiction).
    - destruct vs as [|v vs]; [cbn in Hlen; lia|]. cbn [length] in Hlen.
      destruct (IH vs) as (b2&Hb&Hl&Hv&Ho&Hw&Hh); [lia|intros; apply Hk; now right|].
      cbn [put_batch]. rewrite Hb. exists (dset s k v :: b2). cbn [length skipn firstn map].
      split; [reflexivity|]. split; [lia|]. rewrite dget_dset_eq, Hv. split; [reflexivity|]. split; [|split].
      + intros k' Hk'. rewrite dget_dset_neq, Ho by auto. reflexivity.
      + intros Hin. rewrite without_dset, Hw; auto. apply Hk. now left.
      + intros k' Hk' s' [<-|Hs']; [apply has_dset, Hk'; now left|]. apply Hh; auto. intros; apply Hk'; now right.
  Qed.

  Lemma put_buffer_spec k (buf : list batch) : forall vs,
    length vs = length (concat buf) -> (forall s, In s (concat buf) -> has k s) ->
    let out := put_buffer k vs buf in
      length out = length buf /\ length (concat out) = length (concat buf) /\
      map (fun s => dget s k) (concat out) = map Some vs /\
      (forall k', k' <> k -> map (fun s => dget s k') (concat out) = map (fun s => dget s k') (concat buf)) /\
      (In k mono_keys -> map (map (without mono_keys)) out = map (map (without mono_keys)) buf) /\
      (forall k', (forall s, In s (concat buf) -> has k' s) -> (forall s, In s (concat out) -> has k' s)).
  Proof.
    induction buf as [|b buf IH]; intros vs Hlen Hk; cbn [put_buffer].
    - destruct vs; [|discriminate]. cbn. repeat split; auto; try (intros; contradiction).
    - cbn [concat] in Hlen. rewrite app_length in Hlen.
      destruct (put_batch_spec k vs b) as (b2&Hb&Hl&Hv&Ho&Hw&Hh); [lia|intros; apply Hk; cbn; apply in_or_app; now left|].
      rewrite Hb. destruct (IH (skipn (length b) vs)) as (IL&IC&IV&IO&IW&IH').
      { rewrite skipn_length. lia. } { intros; apply Hk; cbn; apply in_or_app; now right. }
      cbn [length concat map]. rewrite !app_length, !map_app, IL, IC, IV, Hv, Hl, <- map_app, firstn_skipn.
      repeat split; auto.
      + intros k' Hk'. rewrite !map_app, Ho, IO by auto. reflexivity.
      + intros Hin. rewrite Hw, IW by auto. reflexivity.
      + intros k' Hk' s Hs. apply in_app_iff in Hs as [Hs|Hs].
        * revert s Hs. apply Hh. intros; apply Hk', in_or_app; now left.
        * revert s Hs. apply IH'. intros; apply Hk', in_or_app; now right.
  Qed.

  Variable F : string -> list (arr X).
  Lemma put_keys_spec ks : forall (buf : list batch),
    (forall k, In k ks -> In k mono_keys /\ length (F k) = length (concat buf)) ->
    (forall k s, In k ks -> In s (concat buf) -> has k s) ->
    exists out, put_keys (map (fun k => (k, F k)) ks) buf = Ok out /\
      length out = length buf /\ map (map (without mono_keys)) out = map (map (without mono_keys)) buf /\
      (forall k, In k ks -> map (fun s => dget s k) (concat out) = map Some (F k)) /\
      (forall k, ~ In k ks -> map (fun s => dget s k) (concat out) = map (fun s => dget s k) (concat buf)).
  Proof.
    induction ks as [|k ks IH]; intros buf HF Hhas; cbn [map put_keys].
    - exists buf. repeat split; auto. intros k [].
    - destruct (HF k (or_introl eq_refl)) as [Hmono Hlen].
      destruct (put_buffer_spec k buf (F k) Hlen) as (HL&HC&HV&HO&HW&HH); [intros s Hs; apply Hhas; auto; now left|].
      unfold put_key. rewrite (proj2 (Nat.eqb_eq _ _) (eq_sym Hlen)). cbn [assert_ bind].
      set (buf' := put_buffer k (F k) buf) in *. clearbody buf'.
      destruct (IH buf') as (out&Ho&H1&H2&H3&H4).
      { intros k' Hk'. destruct (HF k' (or_intror Hk')). split; auto. lia. }
      { intros k' s Hk' Hs. revert s Hs. apply HH. intros s Hs. apply Hhas; auto. now right. }
      exists out. split; [exact Ho|]. split; [lia|]. split; [now rewrite H2, HW|]. split.
      + intros k' Hk'. destruct (in_dec string_dec k' ks) as [Hin|Hin]; [auto|].
        destruct Hk' as [<-|Hk']; [|contradiction]. now rewrite H4.
      + intros k' Hk'. rewrite H4 by (intros H; apply Hk'; now right). apply HO. intros ->. apply Hk'. now left.
  Qed.
End Shuffle.

Section ShuffleMain.
  Context {X : Type}.
  Notation batch := (list (seqd X)).
  Variable mono_keys : list string.
  Variable shuffle : nat -> list batch -> list batch.
  Hypothesis Hshuffle : forall n buf, Permutation (shuffle n buf) buf.

  Definition val (s : seqd X) (k : string) : arr X := match dget s k with Some v => v | None => Frames [] end.

  Lemma collect_key_spec k (buf : list batch) :
    (forall s, In s (concat buf) -> has k s) ->
    collect_key k buf = Ok (map (fun s => val s k) (concat buf)).
  Proof.
    intros H. unfold collect_key. apply mapM_ok_map. intros s Hs. specialize (H s Hs). apply dget_keys in H.
    unfold val. destruct (dget s k); [reflexivity|congruence].
  Qed.
  Lemma map_val k (l : list (seqd X)) : (forall s, In s l -> has k s) -> map Some (map (fun s => val s k) l) = map (fun s => dget s k) l.
  Proof.
    intros H. rewrite map_map. apply map_ext_in. intros s Hs. specialize (H s Hs). apply dget_keys in H.
    unfold val. destruct (dget s k); [reflexivity|congruence].
  Qed.

  Lemma shuffle_round_spec n (buf : list batch) :
    Forall (fun b => forall k s, In k mono_keys -> In s b -> has k s) buf ->
    exists out, shuffle_round mono_keys shuffle n buf = Ok out /\ length out = length buf /\
      Permutation (map (map (without mono_keys)) out) (map (map (without mono_keys)) buf) /\
      forall k, In k mono_keys -> key_values k out = key_values k buf.
  Proof.
    intros Hb.
    assert (Hhas : forall k s, In k mono_keys -> In s (concat buf) -> has k s).
    { intros k s Hk Hs. apply in_concat in Hs as (b&Hin&Hs). rewrite Forall_forall in Hb. eapply Hb; eauto. }
    assert (Hp := Hshuffle n buf).
    assert (Hpc : Permutation (concat (shuffle n buf)) (concat buf)).
    { now apply Permutation_concat'. }
    set (F := fun k => map (fun s => val s k) (concat buf)).
    unfold shuffle_round.
    assert (Hm : mapM (fun k => let* vs := collect_key k buf in Ok (k, vs)) mono_keys = Ok (map (fun k => (k, F k)) mono_keys)).
    { apply mapM_ok_map. intros k Hk. rewrite collect_key_spec by (intros; now apply Hhas). reflexivity. }
    rewrite Hm. cbn [bind].
    destruct (put_keys_spec mono_keys F mono_keys (shuffle n buf)) as (out&Ho&H1&H2&H3&_).
    - intros k Hk. split; auto. unfold F. rewrite map_length. symmetry. now apply Permutation_length.
    - intros k s Hk Hs. apply Hhas; auto. eapply Permutation_in; eauto.
    - exists out. split; [exact Ho|]. split; [rewrite H1; now apply Permutation_length|]. split.
      + rewrite H2. now apply Permutation_map.
      + intros k Hk. unfold key_values. rewrite H3 by auto. unfold F. apply map_val. intros; now apply Hhas.
  Qed.

  Lemma shuffling_spec buffer_size data :
    0 < buffer_size -> data <> [] ->
    (forall b k s, In b data -> In k mono_keys -> In s b -> has k s) ->
    exists out ws ws', shuffling buffer_size mono_keys shuffle data = (out, Ok tt) /\
      windows buffer_size data ws /\ windows buffer_size out ws' /\
      Forall2 (fun w w' => Permutation (map (map (without mono_keys)) w') (map (map (without mono_keys)) w)) ws ws' /\
      forall k, In k mono_keys -> key_values k out = key_values k data.
  Proof.
    intros Hs Hne Hd.
    destruct (buffered_spec buffer_size (shuffle_round mono_keys shuffle)
      (fun b => forall k s, In k mono_keys -> In s b -> has k s)
      (fun _ buf out => Permutation (map (map (without mono_keys)) out) (map (map (without mono_keys)) buf) /\
        forall k, In k mono_keys -> key_values k out = key_values k buf)) with (data := data) as (out&ws&ws'&H1&H2&H3&H4); auto.
    - intros n buf Hg. destruct (shuffle_round_spec n buf Hg) as (out&?&?&?&?). exists out. auto.
    - apply Forall_forall. eauto.
    - exists out, ws, ws'. split; [exact H1|]. split; [exact H2|]. split; [exact H3|].
      assert (Hrel : Forall2 (fun w w' => Permutation (map (map (without mono_keys)) w') (map (map (without mono_keys)) w) /\
        forall k, In k mono_keys -> key_values k w' = key_values k w) ws ws').
      { clear H1 H2 H3. revert ws' H4. generalize 0 as n. induction ws as [|w ws IH]; intros n [|w' ws'] H; cbn in H; try tauto; constructor.
        - tauto. - now apply (IH (S n)). }
      split.
      + eapply Forall2_impl'; [|exact Hrel]. intros a b [H _]; exact H.
      + intros k Hk. apply windows_concat in H2. apply windows_concat in H3. subst data out. unfold key_values.
        clear - Hrel Hk. induction Hrel as [|w w' ws ws' [_ H] Hr IH]; [reflexivity|].
        cbn [concat]. rewrite !concat_app, !map_app, IH. f_equal. now apply H.
  Qed.

  Lemma shuffling_empty buffer_size : 0 < buffer_size -> shuffling buffer_size mono_keys shuffle [] = ([], Err AssertionError).
  Proof.
    intros H. apply buffered_empty; auto. intros n. destruct (shuffle_round_spec n []) as (out&Ho&Hl&_); [constructor|].
    rewrite Ho. destruct out; [reflexivity|discriminate].
  Qed.
End ShuffleMain.

(** ** laplace *)
Section Laplace.
  Context {P : Type}.
  Implicit Types l buf : list (lseq P).

  Lemma sort_dir_perm down l : Permutation (sort_dir down l) l.
  Proof. apply stable_sort_perm. Qed.
  Lemma sort_dir_sorted down l : sorted_dir down (sort_dir down l).
  Proof.
    unfold sorted_dir, sort_dir. assert (H := stable_sort_sorted (fun s => if down then (- ls_len s)%Z else @ls_len P s) l).
    revert H. generalize (stable_sort_by (fun s => if down then (- ls_len s)%Z else @ls_len P s) l) as o. clear.
    induction 1 as [|a o H IH Ha]; constructor; auto. eapply Forall_impl; [|exact Ha]. intros b Hb. destruct down; lia.
  Qed.

  Lemma combine_map_body l fs : length fs = length l ->
    map body (map (fun '(s, f) => LSeq (ls_len s) f (ls_rest s)) (combine l fs)) = map body l /\
    map ls_frac (map (fun '(s, f) => LSeq (ls_len s) f (@ls_rest P s)) (combine l fs)) = fs.
  Proof.
    revert fs; induction l as [|s l IH]; intros [|f fs] H; cbn in *; try discriminate; [auto|].
    destruct (IH fs) as [H1 H2]; [lia|]. split; [rewrite H1|rewrite H2]; reflexivity.
  Qed.

  Lemma sorted_dir_body down l l' : map (@body P) l = map body l' -> sorted_dir down l -> sorted_dir down l'.
  Proof.
    unfold sorted_dir. intros H Hs. revert l' H. induction Hs as [|a l Hl IH Ha]; intros [|a' l'] H; cbn in H; try discriminate; [constructor|].
    injection H as Hlen Hrest Hm. constructor; [now apply IH|].
    rewrite Forall_forall in *. intros b' Hb'.
    assert (Hin : In (body b') (map body l)) by (rewrite Hm; now apply in_map).
    apply in_map_iff in Hin as (b&Hb&Hin). specialize (Ha b Hin). unfold body in Hb. injection Hb as Hbl _.
    rewrite <- Hlen, <- Hbl. exact Ha.
  Qed.

  Lemma laplace_round_spec down buf :
    length (laplace_round down buf) = length buf /\
    Permutation (map body (laplace_round down buf)) (map body buf) /\
    map ls_frac (laplace_round down buf) = map ls_frac buf /\
    sorted_dir down (laplace_round down buf) /\
    (forall n, filter (fun p => (fst p =? n)%Z) (map body (laplace_round down buf)) = filter (fun p => (fst p =? n)%Z) (map body buf)).
  Proof.
    unfold laplace_round. assert (Hp := sort_dir_perm down buf).
    destruct (combine_map_body (sort_dir down buf) (map ls_frac buf)) as [H1 H2].
    { rewrite map_length. symmetry. now apply Permutation_length. }
    split; [|split; [|split; [|split]]].
    - rewrite map_length, combine_length, map_length. apply Permutation_length in Hp. lia.
    - rewrite H1. now apply Permutation_map.
    - exact H2.
    - eapply sorted_dir_body; [symmetry; exact H1|apply sort_dir_sorted].
    - intros n. rewrite H1. unfold sort_dir.
      assert (Hf := stable_sort_filter (fun s => if down then (- ls_len s)%Z else @ls_len P s) buf (if down then - n else n)%Z).
      assert (Hmf : forall l, filter (fun p => (fst p =? n)%Z) (map body l) = map (@body P) (filter (fun s => (ls_len s =? n)%Z) l)).
      { induction l as [|a l IH]; cbn [map filter]; [reflexivity|]. cbn [body fst]. destruct (ls_len a =? n)%Z; cbn [map]; now rewrite IH. }
      rewrite !Hmf. f_equal. 
      assert (He : forall s, ((if down then (- ls_len s)%Z else @ls_len P s) =? (if down then - n else n))%Z = (ls_len s =? n)%Z)
        by (intros s; destruct down; lia).
      now rewrite !(filter_ext _ _ He) in Hf.
  Qed.

  Lemma laplace_spec num data :
    0 < num -> data <> [] ->
    exists out ws ws', laplace_ordering num data = (out, Ok tt) /\
      windows num data ws /\ windows num out ws' /\
      Forall2 (fun w w' => Permutation (map body w') (map (@body P) w) /\
        forall n, filter (fun p => (fst p =? n)%Z) (map body w') = filter (fun p => (fst p =? n)%Z) (map body w)) ws ws' /\
      alternating false ws' /\ map ls_frac out = map ls_frac data.
  Proof.
    intros Hs Hne.
    destruct (buffered_spec num (fun n buf => Ok (laplace_round (Nat.odd n) buf)) (fun _ : lseq P => True)
      (fun n buf out => (Permutation (map body out) (map (@body P) buf) /\
         forall m, filter (fun p => (fst p =? m)%Z) (map body out) = filter (fun p => (fst p =? m)%Z) (map body buf)) /\
         map ls_frac out = map ls_frac buf /\ sorted_dir (Nat.odd n) out)) with (data := data) as (out&ws&ws'&H1&H2&H3&H4); auto.
    - intros n buf _. eexists. split; [reflexivity|]. destruct (laplace_round_spec (Nat.odd n) buf) as (?&?&?&?&?). auto.
    - now apply Forall_forall.
    - exists out, ws, ws'. split; [exact H1|]. split; [exact H2|]. split; [exact H3|].
      assert (Hr : Forall2 (fun w w' => Permutation (map body w') (map (@body P) w) /\
          forall m, filter (fun p => (fst p =? m)%Z) (map body w') = filter (fun p => (fst p =? m)%Z) (map body w)) ws ws' /\
          alternating (Nat.odd 0) ws' /\ map ls_frac (concat ws') = map ls_frac (concat ws)).
      { clear H1 H2 H3. revert ws' H4. generalize 0 as n. induction ws as [|w ws IH]; intros n [|w' ws'] H; cbn [rel_windows] in H; try tauto.
        - repeat split; constructor.
        - destruct H as [(Ha&Hb&Hc) H]. destruct (IH (S n) ws' H) as (H5&H6&H7). split; [|split].
          + constructor; auto.
          + split; auto. rewrite Nat.odd_succ, <- Nat.negb_odd in H6. exact H6.
          + cbn [concat]. rewrite !map_app, Hb, H7. reflexivity. }
      destruct Hr as (H5&H6&H7). split; [exact H5|]. split; [exact H6|].
      apply windows_concat in H2. apply windows_concat in H3. now subst.
  Qed.

  Lemma laplace_empty num : 0 < num -> laplace_ordering (P := P) num [] = ([], Err AssertionError).
  Proof. intros H. apply buffered_empty; auto. Qed.
End Laplace.
