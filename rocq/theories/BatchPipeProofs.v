(** Proofs about the batching pipes. *)
From Coq Require Import String Sorted.
From Verif Require Import Base ListLemmas PyDict NumbersDictModel NumbersDictSpec NumbersDictProofs BatchPipeModel BatchPipeSpec.
Local Notation length := List.length.
Local Notation concat := List.concat.

Section Batching.
  Context {X : Type}.
  Implicit Types (s : seqd X) (b cur : list (seqd X)).

  Lemma dget_lengths s k :
    dict_ok s ->
    dget (nd_dict (sequence_lengths s)) k = match dget s k with Some (Frames l) => Some (Z.of_nat (length l)) | _ => None end.
  Proof.
    unfold dict_ok. induction s as [|(a, v) s IH]; intros Hok; [reflexivity|].
    cbn [dkeys map] in Hok. inversion Hok as [|? ? Ha Hs]; subst. specialize (IH Hs).
    cbn in IH |- *. destruct (String.eqb a k) eqn:E.
    - apply String.eqb_eq in E. subst a. destruct v as [x|l]; cbn.
      + rewrite IH. cbn in Ha. assert (Hn : dget s k = None) by now apply dget_None. now rewrite Hn.
      + now rewrite String.eqb_refl.
    - destruct v as [x|l]; cbn; [apply IH|]. rewrite E. apply IH.
  Qed.
  Lemma frames_of_dget s k : frames_of s k = match dget s k with Some (Frames l) => length l | _ => 0 end.
  Proof.
    unfold frames_of. induction s as [|(a, v) s IH]; cbn; [reflexivity|].
    destruct (String.eqb a k); [now destruct v|apply IH].
  Qed.
  Lemma lengths_at s k : dict_ok s ->
    match at_key (sequence_lengths s) k with Some z => z = Z.of_nat (frames_of s k) | None => frames_of s k = 0 end.
  Proof.
    intros H. rewrite at_key_get. unfold nd_get. rewrite dget_lengths, frames_of_dget by auto. cbn.
    destruct (dget s k) as [[x|l]|]; reflexivity.
  Qed.

  Lemma strip_value {V W} (op : option V -> option V -> option W) zero (a b : ndict V) :
    nd_value (strip (bin_op_nd op zero a b)) = bin_op_scalar_optional op zero (nd_value a) (nd_value b).
  Proof. unfold strip, bin_op_nd. cbn. now destruct (bin_op_scalar_optional _ _ _ _). Qed.

  (** [lens] holds the lengths of the longest sequences of [cur]. *)
  Definition lens_ok cur (lens : ndict Z) : Prop :=
    (forall k, match at_key lens k with
               | Some z => z = Z.of_nat (list_max (map (fun s => frames_of s k) cur))
               | None => list_max (map (fun s => frames_of s k) cur) = 0 end) /\
    (nd_value lens = None \/ nd_value lens = Some 0%Z).

  Lemma lens_ok_nil : lens_ok [] (ND [] (Some 0%Z)).
  Proof. split; [intros k; reflexivity|right; reflexivity]. Qed.
  Lemma lens_ok_one s : dict_ok s -> lens_ok [s] (sequence_lengths s).
  Proof.
    intros H. split; [|left; reflexivity]. intros k. cbn [map list_max fold_right]. rewrite Nat.max_0_r.
    now apply lengths_at.
  Qed.
  Lemma list_max_app' l1 l2 : list_max (l1 ++ l2) = Nat.max (list_max l1) (list_max l2).
  Proof. apply list_max_app. Qed.
  Lemma lens_ok_app cur lens s :
    dict_ok s -> lens_ok cur lens ->
    lens_ok (cur ++ [s]) (strip (bin_op opt_max None (NumND lens) (NumND (sequence_lengths s)))).
  Proof.
    intros Hs [H1 H2]. unfold bin_op. cbn [op_convert]. split.
    - intros k. specialize (H1 k). assert (H3 := lengths_at s k Hs).
      rewrite at_key_get in *. rewrite strip_bin_op_get by apply total_opt_max. rewrite bin_opt_max.
      rewrite map_app, list_max_app'. cbn [map]. cbn [list_max fold_right].
      destruct (nd_get lens k), (nd_get (sequence_lengths s) k); cbn [opt_max]; lia.
    - rewrite strip_value, bin_opt_max. destruct H2 as [->| ->]; cbn; auto.
  Qed.

  Lemma exceeds_iff cur lens s (limit : ndict Z) :
    dict_ok s -> lens_ok cur lens -> positive_limit limit ->
    any_compare Z.gtb
      (nd_mul (NumND (strip (bin_op opt_max None (NumND lens) (NumND (sequence_lengths s)))))
              (Num (Z.of_nat (length cur) + 1)%Z)) limit = false
    <-> within limit (cur ++ [s]).
  Proof.
    intros Hs Hl (_&Hp1&Hp2). set (incl := strip _).
    assert (Hi : lens_ok (cur ++ [s]) incl) by now apply lens_ok_app. clearbody incl.
    destruct Hi as [Hi1 Hi2]. set (c := (Z.of_nat (length cur) + 1)%Z).
    assert (Hc : c = Z.of_nat (length (cur ++ [s]))) by (rewrite app_length; cbn; lia). clearbody c.
    set (size := nd_mul _ _).
    assert (Hok : dict_ok (nd_dict size)).
    { unfold size, nd_mul, bin_op. cbn [op_convert]. apply strip_bin_op_ok, total_lift2. }
    assert (Hv : nd_value size = None \/ nd_value size = Some 0%Z).
    { unfold size, nd_mul, bin_op. cbn [op_convert]. rewrite strip_value. unfold constant_like. cbn [nd_value].
      destruct Hi2 as [->| ->]; cbn; auto. }
    assert (Hg : forall k, at_key size k = option_map (fun z => (z * c)%Z) (at_key incl k)).
    { intros k. destruct (bin_op_pointwise Z.mul 1%Z (NumND incl) (Num c)) as [Hpw _].
      unfold size, nd_mul. rewrite Hpw. cbn [operand_at]. destruct (at_key incl k); reflexivity. }
    assert (Hk : forall k, has_key size k <-> has_key incl k).
    { intros k. destruct (bin_op_pointwise Z.mul 1%Z (NumND incl) (Num c)) as [_ Hpw].
      unfold size, nd_mul. rewrite Hpw. cbn. tauto. }
    clearbody size.
    assert (Hpos : forall k m, at_key limit k = Some m -> (0 < m)%Z).
    { intros k m Hm. rewrite at_key_get in Hm. unfold nd_get in Hm.
      destruct (dget (nd_dict limit) k) eqn:Hd; [|now apply Hp2]. injection Hm as ->.
      apply dget_In in Hd. eauto. }
    split.
    - intros Hf k m Hm. destruct (Z.le_gt_cases (Z.of_nat (padded_size (cur ++ [s]) k)) m) as [Hle|Hgt]; [exact Hle|exfalso].
      assert (Ht : any_compare Z.gtb size limit = true); [|congruence].
      apply any_compare_spec; [exact Hok|]. left.
      specialize (Hi1 k). specialize (Hpos k m Hm). unfold padded_size in Hgt.
      destruct (in_dec string_dec k (dkeys (nd_dict incl))) as [Hin|Hin].
      + destruct (at_key incl k) as [z|] eqn:Hz.
        * exists k, (z * c)%Z, m. rewrite Hk, Hg, Hz. repeat split; auto; [now apply has_key_In|]. nia.
        * rewrite Hi1 in Hgt. lia.
      + assert (Hat : at_key incl k = nd_value incl) by (rewrite at_key_get; now apply nd_get_not_key).
        rewrite Hat in Hi1. exfalso. destruct Hi2 as [Hi2|Hi2]; rewrite Hi2 in Hi1; nia.
    - intros Hw. destruct (any_compare Z.gtb size limit) eqn:Ht; [exfalso|reflexivity].
      apply any_compare_spec in Ht; [|exact Hok]. destruct Ht as [(k&v&w&_&Hv'&Hw'&Hgt)|(v&w&Hv'&Hw'&Hgt)].
      + specialize (Hw k w Hw'). specialize (Hi1 k). rewrite Hg in Hv'. unfold padded_size in Hw.
        destruct (at_key incl k) as [z|]; cbn in Hv'; [|discriminate]. injection Hv' as <-. nia.
      + specialize (Hp2 w Hw'). destruct Hv as [Hv|Hv]; rewrite Hv in Hv'; [discriminate|]. injection Hv' as <-. lia.
  Qed.

  Lemma min_value_positive limit : positive_limit limit -> exists m, min_value limit = Ok m /\ (m <=? 0)%Z = false.
  Proof.
    intros (Hne&Hp1&Hp2). unfold min_value. destruct (nd_values limit) as [|v vs] eqn:E.
    - exfalso. unfold nd_values in E. apply app_eq_nil in E as [E1 E2].
      destruct (nd_value limit); [discriminate|]. destruct Hne as [Hne|Hne]; [|congruence].
      destruct (nd_dict limit); [congruence|discriminate].
    - eexists. split; [reflexivity|]. destruct (fold_left_min vs v) as [_ Hin]. rewrite <- E in Hin.
      apply values_In in Hin as [(k&Hin)|Hin]; [apply Hp1 in Hin|apply Hp2 in Hin]; lia.
  Qed.

  Variable max_seqs : seqd X -> Z.
  Variable max_batch_size : seqd X -> ndict Z.

  (** a batch fulfils the limits that hold for its last sequence *)
  Definition batch_good b : Prop :=
    forall b0 s, b = b0 ++ [s] ->
      (Z.of_nat (length b) <= max_seqs s)%Z /\ (b0 = [] \/ within (max_batch_size s) b).
  Definition not_extendable b1 b2 : Prop :=
    forall s rest, b2 = s :: rest ->
      (max_seqs s <= Z.of_nat (length b1))%Z \/ ~ within (max_batch_size s) (b1 ++ [s]).
  Definition maximal (bs : list (list (seqd X))) : Prop :=
    forall pre b1 b2 post, bs = pre ++ b1 :: b2 :: post -> not_extendable b1 b2.

  Lemma maximal_cons b1 bs s rest :
    maximal bs -> Forall (fun b => b <> []) bs -> concat bs = s :: rest ->
    ((max_seqs s <= Z.of_nat (length b1))%Z \/ ~ within (max_batch_size s) (b1 ++ [s])) ->
    maximal (b1 :: bs).
  Proof.
    intros Hm Hne Hc Hx pre c1 c2 post He. destruct pre as [|p pre]; cbn in He; injection He as -> He.
    - intros s' rest' ->. subst bs. cbn in Hc. injection Hc as -> _. exact Hx.
    - now apply (Hm pre c1 c2 post).
  Qed.
  Lemma maximal_one b : maximal [b].
  Proof. intros pre c1 c2 post He. destruct pre as [|p [|]]; discriminate. Qed.
  Lemma maximal_nil : maximal [].
  Proof. intros pre c1 c2 post He. destruct pre; discriminate. Qed.

  Lemma app_last_inj {A} (l1 l2 : list A) x y : l1 ++ [x] = l2 ++ [y] -> l1 = l2 /\ x = y.
  Proof. apply app_inj_tail. Qed.

  Lemma batching_loop_spec data cur lens :
    Forall (fun s => dict_ok s /\ (0 < max_seqs s)%Z /\ positive_limit (max_batch_size s)) data ->
    lens_ok cur lens -> batch_good cur ->
    exists bs, batching_loop max_seqs max_batch_size data cur lens = (bs, Ok tt) /\
      concat bs = cur ++ data /\ Forall (fun b => b <> []) bs /\ Forall batch_good bs /\ maximal bs.
  Proof.
    revert cur lens. induction data as [|s data IH]; intros cur lens Hd Hl Hg.
    - cbn. destruct cur as [|c cur]; cbn.
      + exists []. split; [reflexivity|]. split; [reflexivity|]. split; [constructor|]. split; [constructor|]. apply maximal_nil.
      + exists [c :: cur]. split; [reflexivity|]. split; [cbn; now rewrite app_nil_r|]. split; [repeat constructor; discriminate|]. split; [constructor; [exact Hg|constructor]|apply maximal_one].
    - inversion Hd as [|? ? (Hs&Hms&Hpl) Hd']; subst. cbn [batching_loop].
      destruct (max_seqs s <=? 0)%Z eqn:E0; [lia|].
      destruct (min_value_positive _ Hpl) as (m&Hm&Hm0). rewrite Hm, Hm0.
      (* the common continuation, when the limit for the number of sequences is respected *)
      pose (go := fun (cur : list (seqd X)) (lens : ndict Z) =>
        let sl := sequence_lengths s in
        let incl := strip (bin_op opt_max None (NumND lens) (NumND sl)) in
        let size := nd_mul (NumND incl) (Num (Z.of_nat (length cur) + 1)%Z) in
        if (0 <? length cur) && any_compare Z.gtb size (max_batch_size s)
        then yield cur (batching_loop max_seqs max_batch_size data [s] sl)
        else batching_loop max_seqs max_batch_size data (cur ++ [s]) incl).
      change (exists bs, (if (max_seqs s <=? Z.of_nat (length cur))%Z then yield cur (go [] (nd_make (OpNum 0%Z))) else go cur lens)
        = (bs, Ok tt) /\ concat bs = cur ++ s :: data /\ Forall (fun b => b <> []) bs /\ Forall batch_good bs /\ maximal bs).
      assert (Hgo : forall cur lens, (Z.of_nat (length cur) < max_seqs s)%Z -> lens_ok cur lens -> batch_good cur ->
        exists bs, go cur lens = (bs, Ok tt) /\ concat bs = cur ++ s :: data /\ Forall (fun b => b <> []) bs /\
          Forall batch_good bs /\ maximal bs).
      { clear cur lens Hl Hg. intros cur lens Hlt Hl Hg. unfold go. clear go. cbv zeta.
        assert (Hsplit := exceeds_iff cur lens s _ Hs Hl Hpl).
        set (incl := strip _) in *. set (x := any_compare _ _ _) in *.
        assert (Hincl : lens_ok (cur ++ [s]) incl) by now apply lens_ok_app.
        clearbody x incl. destruct ((0 <? length cur) && x) eqn:Ec.
        - apply andb_true_iff in Ec as [Hne ->].
          destruct (IH [s] (sequence_lengths s)) as (bs&Hb&Hcc&Hn&Hgs&Hmx); auto.
          { now apply lens_ok_one. }
          { intros b0 s' He. apply (app_last_inj []) in He as [<- <-]. cbn. split; [lia|now left]. }
          exists (cur :: bs). rewrite Hb. unfold yield. cbn [fst snd concat]. rewrite Hcc. split; [reflexivity|]. split; [reflexivity|]. split; [|split; [now constructor|]].
          + constructor; auto. intros ->. discriminate.
          + eapply maximal_cons; eauto. right. intros Hw. apply Hsplit in Hw. discriminate.
        - destruct (IH (cur ++ [s]) incl) as (bs&Hb&Hcc&Hn&Hgs&Hmx); auto.
          { intros b0 s' He. apply app_last_inj in He as [<- <-]. rewrite app_length. cbn. split; [lia|].
            destruct cur as [|c cur]; [now left|right]. cbn in Ec. subst x. now apply Hsplit. }
          exists bs. rewrite Hb. rewrite <- app_assoc in Hcc. auto. }
      clearbody go. destruct (max_seqs s <=? Z.of_nat (length cur))%Z eqn:E1.
      + destruct (Hgo [] (ND [] (Some 0%Z))) as (bs&Hb&Hcc&Hn&Hgs&Hmx).
        { cbn. lia. } { apply lens_ok_nil. } { intros b0 s' He. destruct b0; discriminate. }
        cbn [nd_make]. rewrite Hb. exists (cur :: bs). unfold yield. cbn [fst snd concat]. rewrite Hcc. split; [reflexivity|]. split; [reflexivity|]. split; [|split; [now constructor|]].
        * constructor; auto. intros ->. cbn in E1. lia.
        * eapply maximal_cons; eauto. left. lia.
      + apply Hgo; auto. lia.
  Qed.

  Lemma batching_spec data :
    Forall (fun s => dict_ok s /\ (0 < max_seqs s)%Z /\ positive_limit (max_batch_size s)) data ->
    exists bs, batching max_seqs max_batch_size data = (bs, Ok tt) /\
      concat bs = data /\ Forall (fun b => b <> []) bs /\ Forall batch_good bs /\ maximal bs.
  Proof.
    intros H. apply batching_loop_spec; auto; [apply lens_ok_nil|]. intros b0 s He. destruct b0; discriminate.
  Qed.
End Batching.

(** ** length filter *)
Lemma len_filter_keep {X} (min_len max_len : ndict Z) (s : seqd X) :
  dict_ok s ->
  negb (any_compare Z.ltb (sequence_lengths s) min_len) && negb (any_compare Z.gtb (sequence_lengths s) max_len) = true
  <-> forall k l, In (k, Frames l) s ->
      (forall m, at_key min_len k = Some m -> (m <= Z.of_nat (length l))%Z) /\
      (forall m, at_key max_len k = Some m -> (Z.of_nat (length l) <= m)%Z).
Proof.
  intros Hs.
  assert (Hok : dict_ok (nd_dict (sequence_lengths s))).
  { unfold dict_ok, sequence_lengths. cbn [nd_dict]. revert Hs. unfold dict_ok, dkeys.
    induction s as [|(k, a) s IH]; intros Hs; [constructor|]. inversion Hs as [|? ? Hk Hs']; subst. specialize (IH Hs').
    destruct a as [x|l]; cbn [flat_map app]; [exact IH|]. cbn [map fst]. constructor; [|exact IH].
    intros Hin. apply Hk. apply in_map_iff in Hin as ((k', z)&<-&Hin). apply in_flat_map in Hin as ((k2, a2)&Hin&H2).
    destruct a2; cbn in H2; [tauto|]. destruct H2 as [[= <- <-]|[]]. cbn. change k2 with (fst (k2, Frames l0)). now apply in_map. }
  assert (Hex : forall cmp lim, any_compare cmp (sequence_lengths s) lim = true <->
     exists k l w, In (k, Frames l) s /\ at_key lim k = Some w /\ cmp (Z.of_nat (length l)) w = true).
  { intros cmp lim. rewrite any_compare_spec by exact Hok. split.
    - intros [(k&v&w&Hk&Hv&Hw&Hc)|(v&w&Hv&_)]; [|discriminate].
      rewrite at_key_get in Hv. unfold nd_get in Hv. rewrite dget_lengths in Hv by auto. cbn in Hv.
      destruct (dget s k) as [[x|l]|] eqn:Hd; try discriminate. injection Hv as <-. apply dget_In in Hd. eauto 6.
    - intros (k&l&w&Hin&Hw&Hc). left. exists k, (Z.of_nat (length l)), w.
      assert (Hd := In_dget _ _ _ Hs Hin).
      assert (Hg : dget (nd_dict (sequence_lengths s)) k = Some (Z.of_nat (length l))) by (rewrite dget_lengths, Hd; auto).
      repeat split; auto.
      + apply has_key_In, dget_keys. rewrite Hg. discriminate.
      + rewrite at_key_get. unfold nd_get. now rewrite Hg. }
  rewrite andb_true_iff, !negb_true_iff, <- !not_true_iff_false, !Hex. split.
  - intros [H1 H2] k l Hin. split; intros m Hm.
    + destruct (Z.le_gt_cases m (Z.of_nat (length l))) as [|Hgt]; auto. exfalso. apply H1. exists k, l, m. repeat split; auto. lia.
    + destruct (Z.le_gt_cases (Z.of_nat (length l)) m) as [|Hgt]; auto. exfalso. apply H2. exists k, l, m. repeat split; auto. lia.
  - intros H. split; intros (k&l&w&Hin&Hw&Hc); destruct (H k l Hin) as [H1 H2].
    + specialize (H1 w Hw). lia.
    + specialize (H2 w Hw). lia.
Qed.

(** ** Buckets *)
Section Bucket.
  Context {X : Type}.
  Variable bs : list (Z * Z).
  Variable length_key : string.
  Variable draw : nat -> nat -> option nat.
  Implicit Types (s : seqd X) (b : list (seqd X)) (buckets : list (list (seqd X))).

  Lemma update_nth_length {A} (l : list A) i x : length (update_nth l i x) = length l.
  Proof.
    clear length_key draw.
 revert i; induction l as [|a l IH]; intros [|i]; cbn; auto. Qed.
  Lemma nth_update_nth {A} (l : list A) i j x d :
    i < length l -> nth j (update_nth l i x) d = if i =? j then x else nth j l d.
  Proof.
    clear length_key draw.

    revert i j; induction l as [|a l IH]; intros [|i] [|j]; cbn [length update_nth nth]; intros H; try lia; auto.
    rewrite IH by lia. reflexivity.
  Qed.
  Lemma concat_update_nth {A} (l : list (list A)) i x (b : list A) :
    nth_error l i = Some b -> Permutation (b ++ concat (update_nth l i x)) (x ++ concat l).
  Proof.
    revert i; induction l as [|a l IH]; intros [|i]; cbn [nth_error update_nth]; intros H; try discriminate.
    - injection H as ->. cbn. rewrite !app_assoc. apply Permutation_app_tail, Permutation_app_comm.
    - cbn. specialize (IH i H). rewrite !app_assoc. rewrite (Permutation_app_comm b a), (Permutation_app_comm x a).
      rewrite <- !app_assoc. now apply Permutation_app_head.
  Qed.

  (** the loop for sequences whose bucket is already decided *)
  Definition limit (i : nat) : Z := snd (nth i bs (0, 0)%Z).
  Definition leftover buckets : list (nat * list (seqd X)) :=
    filter (fun p => 0 <? length (snd p)) (combine (seq 0 (length buckets)) buckets).
  Fixpoint gloop (data : list (seqd X * nat)) buckets : list (nat * list (seqd X)) :=
    match data with
    | [] => leftover buckets
    | (s, i) :: data' =>
        let b' := nth i buckets [] ++ [s] in
        if (limit i <=? Z.of_nat (length b'))%Z
        then (i, b') :: gloop data' (update_nth buckets i [])
        else gloop data' (update_nth buckets i b')
    end.
  Fixpoint assign (n : nat) (data : list (seqd X)) : list (seqd X * nat) :=
    match data with
    | [] => []
    | s :: data' =>
        let i := bisect_left (map fst bs) (seq_size length_key s) in
        if length bs <=? i then assign (S n) data'
        else (s, if i <? length bs - 1 then match draw n i with Some j => j | None => i end else i) :: assign (S n) data'
    end.

  Definition draw_ok : Prop := forall n i j, i < length bs -> draw n i = Some j -> i <= j < length bs.

  Lemma map_snd_leftover buckets : map snd (leftover buckets) = filter (fun b => 0 <? length b) buckets.
  Proof.
    unfold leftover. generalize 0 at 2 as a. induction buckets as [|b buckets IH]; intros a; cbn [length seq combine filter]; [reflexivity|].
    destruct (0 <? length (snd (a, b))) eqn:E; cbn [snd] in E; rewrite E; cbn [map snd]; now rewrite IH.
  Qed.

  Lemma data_size_ok s : dict_ok s -> has_size length_key s -> data_size length_key s = Ok (seq_size length_key s).
  Proof.
    intros Hs (l&Hin). unfold data_size, seq_size. rewrite frames_of_dget. rewrite (In_dget _ _ _ Hs Hin). reflexivity.
  Qed.

  Lemma assign_index n data s i : draw_ok -> In (s, i) (assign n data) -> i < length bs.
  Proof.
    intros Hd. revert n; induction data as [|a data IH]; intros n; cbn [assign]; [intros []|].
    destruct (length bs <=? bisect_left _ _) eqn:E; [apply IH|]. apply Nat.leb_gt in E.
    intros [H|H]; [|now apply IH in H]. injection H as <- <-.
    destruct (_ <? _); [|exact E]. destruct (draw n _) eqn:Ed; [|exact E]. apply Hd in Ed; lia.
  Qed.

  Lemma bucket_loop_gloop n data buckets :
    draw_ok -> Forall (fun s => dict_ok s /\ has_size length_key s) data -> length buckets = length bs ->
    bucket_loop bs length_key draw n data buckets = (map snd (gloop (assign n data) buckets), Ok tt).
  Proof.
    intros Hdr. revert n buckets; induction data as [|s data IH]; intros n buckets Hd Hl.
    - cbn. now rewrite map_snd_leftover.
    - inversion Hd as [|? ? [Hs Hsz] Hd']; subst. cbn [bucket_loop assign].
      rewrite data_size_ok by auto.
      destruct (length bs <=? bisect_left (map fst bs) (seq_size length_key s)) eqn:E.
      + now apply IH.
      + set (i := if _ <? _ then _ else _).
        assert (Hi : i < length bs).
        { apply Nat.leb_gt in E. unfold i. destruct (_ <? _); [|exact E]. destruct (draw n _) eqn:Ed; [|exact E].
          apply Hdr in Ed; lia. }
        clearbody i. cbn [gloop].
        rewrite (nth_error_nth' buckets []) by lia. rewrite (nth_error_nth' bs (0, 0)%Z) by lia.
        unfold limit. destruct (nth i bs (0, 0)%Z) as [sz lim] eqn:En. cbn [snd].
        destruct (lim <=? _)%Z.
        * rewrite IH; auto. now rewrite update_nth_length.
        * rewrite IH; auto. now rewrite update_nth_length.
  Qed.

  Lemma gloop_perm data buckets :
    (forall s i, In (s, i) data -> i < length buckets) ->
    Permutation (concat (map snd (gloop data buckets))) (concat buckets ++ map fst data).
  Proof.
    revert buckets; induction data as [|[s i] data IH]; intros buckets Hi; cbn [gloop map].
    - rewrite map_snd_leftover, app_nil_r. apply Permutation_eq. clear.
      induction buckets as [|b buckets IH]; cbn [filter concat]; [reflexivity|].
      destruct b as [|x b]; [exact IH|]. change (0 <? length (x :: b)) with true. cbn [concat]. now rewrite IH.
    - assert (Hlt : i < length buckets) by (apply (Hi s); now left).
      assert (Hnth := nth_error_nth' buckets [] Hlt). set (b := nth i buckets []) in *.
      cbn [fst]. destruct (_ <=? _)%Z.
      + cbn [map snd concat]. rewrite IH by (intros s' i' H; rewrite update_nth_length; apply (Hi s'); now right).
        rewrite <- app_assoc. cbn [app].
        assert (Hp := concat_update_nth _ _ [] _ Hnth). cbn [app] in Hp.
        rewrite <- Hp. rewrite <- app_assoc. apply Permutation_app_head.
        apply Permutation_middle.
      + rewrite IH by (intros s' i' H; rewrite update_nth_length; apply (Hi s'); now right).
        assert (Hp := concat_update_nth _ _ (b ++ [s]) _ Hnth).
        rewrite <- app_assoc in Hp. apply Permutation_app_inv_l in Hp.
        rewrite Hp. cbn [app]. apply Permutation_middle.
  Qed.

  Lemma leftover_filter buckets i a :
    concat (map snd (filter (fun p => fst p =? i) (filter (fun p => 0 <? length (snd p)) (combine (seq a (length buckets)) buckets))))
    = if a <=? i then nth (i - a) buckets [] else [].
  Proof.
    clear length_key draw.

    revert a; induction buckets as [|b buckets IH]; intros a; cbn [length seq combine filter].
    - cbn. now destruct (a <=? i), (i - a).
    - assert (Hrest := IH (S a)). cbn [snd].
      destruct (Nat.leb_spec (S a) i) as [H|H] in Hrest.
      + destruct (Nat.leb_spec a i); [|lia]. replace (i - a) with (S (i - S a)) by lia. cbn [nth]. rewrite <- Hrest.
        destruct (0 <? length b); [|reflexivity]. cbn [filter fst]. destruct (Nat.eqb_spec a i); [lia|reflexivity].
      + destruct (Nat.leb_spec a i).
        * assert (a = i) by lia. subst a. rewrite Nat.sub_diag. cbn [nth]. destruct b as [|x b].
          -- exact Hrest.
          -- change (0 <? length (x :: b)) with true. cbn [filter fst]. rewrite Nat.eqb_refl. cbn [map snd concat]. rewrite Hrest. apply app_nil_r.
        * destruct (0 <? length b); [|exact Hrest]. cbn [filter fst]. destruct (Nat.eqb_spec a i); [lia|exact Hrest].
  Qed.

  Lemma gloop_filter data buckets i :
    (forall s j, In (s, j) data -> j < length buckets) ->
    concat (map snd (filter (fun p => fst p =? i) (gloop data buckets)))
    = nth i buckets [] ++ map fst (filter (fun p => snd p =? i) data).
  Proof.
    clear length_key draw.
    revert buckets; induction data as [|[s j] data IH]; intros buckets Hi; cbn [gloop filter snd].
    - unfold leftover. rewrite leftover_filter. cbn. now rewrite Nat.sub_0_r, app_nil_r.
    - assert (Hlt : j < length buckets) by (apply (Hi s); now left).
      assert (IH' : forall x, concat (map snd (filter (fun p => fst p =? i) (gloop data (update_nth buckets j x))))
        = nth i (update_nth buckets j x) [] ++ map fst (filter (fun p => snd p =? i) data)).
      { intros x. apply IH. intros s' i' H; rewrite update_nth_length; apply (Hi s'); now right. }
      destruct (limit j <=? _)%Z.
      + cbn [filter fst]. destruct (Nat.eqb_spec j i) as [->|Hji]; cbn [map snd concat fst]; rewrite IH', nth_update_nth by auto.
        * rewrite Nat.eqb_refl. cbn. now rewrite <- app_assoc.
        * destruct (Nat.eqb_spec j i); [lia|reflexivity].
      + rewrite IH', nth_update_nth by auto.
        destruct (Nat.eqb_spec j i) as [->|Hji]; cbn [map fst]; [now rewrite <- app_assoc|reflexivity].
  Qed.

  (** every batch is non-empty, from a bucket, and not over the bucket's limit; a bucket is only left when full *)
  Definition buckets_ok buckets : Prop := forall i, i < length buckets -> (Z.of_nat (length (nth i buckets [])) < limit i)%Z.

  Lemma leftover_In buckets i b : In (i, b) (leftover buckets) -> i < length buckets /\ nth i buckets [] = b /\ b <> [].
  Proof.
    clear length_key draw.

    unfold leftover. intros H. apply filter_In in H as [H Hl]. cbn in Hl.
    assert (Hc : forall a, In (i, b) (combine (seq a (length buckets)) buckets) -> a <= i < a + length buckets /\ nth (i - a) buckets [] = b).
    { clear. induction buckets as [|c buckets IH]; intros a; cbn [length seq combine]; [intros []|].
      intros [[= <- <-]|H]; [rewrite Nat.sub_diag; split; [lia|reflexivity]|].
      destruct (IH (S a) H) as [H1 H2]. split; [lia|]. replace (i - a) with (S (i - S a)) by lia. exact H2. }
    destruct (Hc 0 H) as [H1 H2]. rewrite Nat.sub_0_r in H2. repeat split; auto; [lia|]. intros ->. discriminate.
  Qed.

  Lemma buckets_ok_update buckets i b :
    buckets_ok buckets -> i < length buckets -> (Z.of_nat (length b) < limit i)%Z -> buckets_ok (update_nth buckets i b).
  Proof.
    clear length_key draw.

    intros H Hi Hb j Hj. rewrite update_nth_length in Hj. rewrite nth_update_nth by auto.
    destruct (Nat.eqb_spec i j); [now subst|auto].
  Qed.

  Lemma gloop_ok data buckets :
    (forall j, j < length buckets -> (0 < limit j)%Z) ->
    buckets_ok buckets -> (forall s j, In (s, j) data -> j < length buckets) ->
    forall i b, In (i, b) (gloop data buckets) ->
      i < length buckets /\ b <> [] /\ (Z.of_nat (length b) <= limit i)%Z.
  Proof.
    clear length_key draw.
    intros Hpos. revert buckets Hpos; induction data as [|[s j] data IH]; intros buckets Hpos Hok Hi i b; cbn [gloop].
    - intros H. apply leftover_In in H as (H1&H2&H3). repeat split; auto. specialize (Hok i H1). rewrite H2 in Hok. lia.
    - assert (Hlt : j < length buckets) by (apply (Hi s); now left).
      assert (Hlen : length (nth j buckets [] ++ [s]) = S (length (nth j buckets []))) by (rewrite app_length; cbn; lia).
      assert (Hj := Hok j Hlt).
      destruct (limit j <=? _)%Z eqn:E.
      + intros [H|H].
        * injection H as <- <-. repeat split; auto; [|lia]. intros Hn. apply (f_equal (@length _)) in Hn. rewrite Hlen in Hn. discriminate.
        * apply IH in H.
          -- now rewrite update_nth_length in H.
          -- now rewrite update_nth_length.
          -- apply buckets_ok_update; auto.
          -- intros s' i' H'. rewrite update_nth_length. apply (Hi s'). now right.
      + intros H. apply IH in H.
        * now rewrite update_nth_length in H.
        * now rewrite update_nth_length.
        * apply buckets_ok_update; auto. lia.
        * intros s' i' H'. rewrite update_nth_length. apply (Hi s'). now right.
  Qed.

  Lemma leftover_NoDup buckets : NoDup (map fst (leftover buckets)).
  Proof.
    clear length_key draw.

    unfold leftover. generalize 0 at 2 as a.
    assert (Hge : forall buckets a i, In i (map fst (filter (fun p => 0 <? length (snd p)) (combine (seq a (length buckets)) buckets))) -> a <= i).
    { clear. induction buckets as [|b buckets IH]; intros a i; cbn [length seq combine filter]; [intros []|].
      destruct (_ <? _); [|intros H; apply IH in H; lia]. intros [<-|H]; [cbn; lia|apply IH in H; lia]. }
    induction buckets as [|b buckets IH]; intros a; cbn [length seq combine filter]; [constructor|].
    destruct (_ <? _); [|apply IH]. cbn [map fst]. constructor; [|apply IH]. intros H. apply Hge in H. lia.
  Qed.

  Lemma gloop_full data buckets :
    (forall j, j < length buckets -> (0 < limit j)%Z) ->
    buckets_ok buckets -> (forall s j, In (s, j) data -> j < length buckets) ->
    forall i b b' pre mid post, gloop data buckets = pre ++ (i, b) :: mid ++ (i, b') :: post ->
      Z.of_nat (length b) = limit i.
  Proof.
    clear length_key draw.
    intros Hpos. revert buckets Hpos; induction data as [|[s j] data IH]; intros buckets Hpos Hok Hi i b b' pre mid post; cbn [gloop].
    - intros H. exfalso. assert (Hn := leftover_NoDup buckets). rewrite H in Hn.
      rewrite map_app in Hn. cbn [map fst] in Hn. apply NoDup_remove_2 in Hn. apply Hn.
      rewrite map_app. cbn [map fst]. rewrite !in_app_iff. right. right. now left.
    - assert (Hlt : j < length buckets) by (apply (Hi s); now left).
      assert (Hlen : length (nth j buckets [] ++ [s]) = S (length (nth j buckets []))) by (rewrite app_length; cbn; lia).
      assert (Hj := Hok j Hlt).
      destruct (limit j <=? _)%Z eqn:E.
      + intros H. destruct pre as [|p pre]; cbn [app] in H; injection H as Hp H.
        * subst j b. lia.
        * apply IH in H.
          -- exact H.
          -- now rewrite update_nth_length.
          -- apply buckets_ok_update; auto.
          -- intros s' i' H'. rewrite update_nth_length. apply (Hi s'). now right.
      + intros H. apply IH in H.
        * exact H.
        * now rewrite update_nth_length.
        * apply buckets_ok_update; auto. lia.
        * intros s' i' H'. rewrite update_nth_length. apply (Hi s'). now right.
  Qed.
End Bucket.

Lemma insert_pair_perm x l : Permutation (insert_pair x l) (x :: l).
Proof. induction l as [|y l IH]; cbn; [reflexivity|]. destruct (pair_le x y); [reflexivity|].
  rewrite IH. apply perm_swap. Qed.
Lemma sorted_pairs_perm l : Permutation (sorted_pairs l) l.
Proof. induction l as [|x l IH]; cbn; [reflexivity|]. fold (sorted_pairs l). rewrite insert_pair_perm. now constructor. Qed.
Lemma pair_le_fst a b : pair_le a b = true -> (fst a <= fst b)%Z.
Proof. unfold pair_le. lia. Qed.
Lemma insert_pair_sorted x l :
  StronglySorted (fun a b => (fst a <= fst b)%Z) l -> StronglySorted (fun a b => (fst a <= fst b)%Z) (insert_pair x l).
Proof.
  induction 1 as [|y l Hl IH Hy]; cbn; [repeat constructor|].
  destruct (pair_le x y) eqn:E.
  - apply pair_le_fst in E. constructor; [now constructor|]. constructor; auto.
    eapply Forall_impl; [|exact Hy]. cbn. intros; lia.
  - constructor; auto. rewrite insert_pair_perm. constructor; auto. unfold pair_le in E. lia.
Qed.
Lemma sorted_pairs_sorted l : StronglySorted (fun a b => (fst a <= fst b)%Z) (sorted_pairs l).
Proof. induction l as [|x l IH]; cbn; [constructor|]. now apply insert_pair_sorted. Qed.
Lemma has_dup_NoDup l : has_dup l = false <-> NoDup l.
Proof.
  induction l as [|x l IH]; cbn; [split; [constructor|auto]|].
  rewrite orb_false_iff, IH. split.
  - intros [H1 H2]. constructor; auto. intros Hin. rewrite <- not_true_iff_false in H1. apply H1.
    apply existsb_exists. exists x. split; auto. lia.
  - intros H. inversion H as [|? ? Hx Hl]; subst. split; auto. rewrite <- not_true_iff_false, existsb_exists.
    intros (y&Hy&E). apply Hx. assert (x = y) by lia. now subst.
Qed.

(** a usable configuration *)
Definition buckets_valid (buckets : list (Z * Z)) : Prop :=
  buckets <> [] /\ (forall size n, In (size, n) buckets -> (0 < size /\ 0 < n)%Z) /\ NoDup (map fst buckets).

Lemma bucket_init_spec buckets :
  match bucket_init buckets with
  | Ok bs => buckets_valid buckets /\ Permutation bs buckets /\ StronglySorted (fun a b => (fst a < fst b)%Z) bs
  | Err _ => ~ buckets_valid buckets
  end.
Proof.
  unfold bucket_init. destruct buckets as [|b buckets']; [cbn; intros (H&_); congruence|].
  set (buckets := b :: buckets'). cbn [assert_ bind].
  destruct (forallb _ buckets) eqn:Ef; cbn [negb].
  - rewrite forallb_forall in Ef. destruct (has_dup _) eqn:Ed; cbn [negb assert_ bind].
    + intros (_&_&Hn). assert (Hf : has_dup (map fst (sorted_pairs buckets)) = false); [|congruence].
      apply has_dup_NoDup. eapply Permutation_NoDup; [|exact Hn]. symmetry. apply Permutation_map, sorted_pairs_perm.
    + apply has_dup_NoDup in Ed. repeat split.
      * discriminate.
      * specialize (Ef _ H). cbn in Ef. lia.
      * specialize (Ef _ H). cbn in Ef. lia.
      * eapply Permutation_NoDup; [|exact Ed]. apply Permutation_map, sorted_pairs_perm.
      * apply sorted_pairs_perm.
      * assert (Hs := sorted_pairs_sorted buckets). revert Ed Hs. generalize (sorted_pairs buckets) as l. clear.
        induction l as [|x l IH]; intros Hn Hs; [constructor|]. inversion Hn as [|? ? Hx Hl]; subst. inversion Hs as [|? ? Hs' Hf]; subst.
        constructor; [now apply IH|]. rewrite Forall_forall in *. intros y Hy. specialize (Hf y Hy).
        assert (fst x <> fst y); [|lia]. intros He. apply Hx. rewrite He. now apply in_map.
  - intros (_&Hp&_). assert (Ht : forallb (fun '(size, max_seqs) => (0 <? size)%Z && (0 <? max_seqs)%Z) buckets = true); [|congruence].
    apply forallb_forall. intros (size, n) Hin. specialize (Hp _ _ Hin). lia.
Qed.

Section BucketMain.
  Context {X : Type}.
  Variable bs : list (Z * Z).
  Variable length_key : string.
  Variable draw : nat -> nat -> option nat.
  Hypothesis Hsorted : StronglySorted (fun a b => (fst a < fst b)%Z) bs.

  Lemma bisect_left_spec (l : list (Z * Z)) x :
    StronglySorted (fun a b => (fst a < fst b)%Z) l ->
    let i := bisect_left (map fst l) x in
    i <= length l /\
    (forall j, j < length l -> (fst (nth j l (0, 0)) < x)%Z <-> j < i).
  Proof.
    induction 1 as [|a l Hl IH Ha]; cbn [map bisect_left]; [cbn; split; [lia|intros; lia]|].
    destruct (fst a <? x)%Z eqn:E; cbn [length].
    - destruct IH as [IH1 IH2]. split; [lia|]. intros [|j] Hj; cbn [nth]; [lia|]. rewrite IH2 by lia. lia.
    - split; [lia|]. intros [|j] Hj; cbn [nth]; [lia|]. rewrite Forall_forall in Ha.
      specialize (Ha (nth j l (0, 0)%Z)). assert (Hin : In (nth j l (0, 0)%Z) l) by (apply nth_In; lia). specialize (Ha Hin). lia.
  Qed.

  Lemma too_long_iff (s : seqd X) :
    (length bs <=? bisect_left (map fst bs) (seq_size length_key s)) = negb (fits_some length_key bs s).
  Proof.
    destruct (bisect_left_spec bs (seq_size length_key s) Hsorted) as [H1 H2]. unfold fits_some.
    apply eq_true_iff_eq. rewrite negb_true_iff, <- not_true_iff_false, existsb_exists, Nat.leb_le. split.
    - intros H ((sz, n)&Hin&Hle). apply In_nth with (d := (0, 0)%Z) in Hin as (j&Hj&Hn).
      specialize (H2 j Hj). rewrite Hn in H2. cbn in H2. lia.
    - intros H. destruct (Nat.le_gt_cases (length bs) (bisect_left (map fst bs) (seq_size length_key s))) as [|Hlt]; auto.
      exfalso. apply H. exists (nth (bisect_left (map fst bs) (seq_size length_key s)) bs (0, 0)%Z). split; [now apply nth_In|].
      specialize (H2 _ Hlt). destruct (nth _ bs _) as [sz n]. cbn in *. lia.
  Qed.

  Lemma assign_fst n data :
    map fst (assign (X := X) bs length_key draw n data) = filter (fits_some length_key bs) data.
  Proof.
    revert n; induction data as [|s data IH]; intros n; cbn [assign filter]; [reflexivity|].
    rewrite too_long_iff. destruct (fits_some length_key bs s); cbn [negb map fst]; now rewrite IH.
  Qed.

  (** the chosen bucket is large enough *)
  Lemma assign_fits n data s i :
    draw_ok bs draw -> In (s, i) (assign (X := X) bs length_key draw n data) ->
    i < length bs /\ (seq_size length_key s <= fst (nth i bs (0, 0)%Z))%Z.
  Proof.
    intros Hd. revert n; induction data as [|a data IH]; intros n; cbn [assign]; [intros []|].
    destruct (length bs <=? bisect_left _ _) eqn:E; [apply IH|]. apply Nat.leb_gt in E.
    intros [H|H]; [|now apply IH in H]. injection H as <- <-.
    destruct (bisect_left_spec bs (seq_size length_key a) Hsorted) as [_ H2].
    set (i0 := bisect_left _ _) in *.
    assert (Hok : forall j, i0 <= j < length bs -> j < length bs /\ (seq_size length_key a <= fst (nth j bs (0, 0)%Z))%Z).
    { intros j Hj. split; [lia|]. specialize (H2 j). lia. }
    destruct (i0 <? _); [|apply Hok; lia]. destruct (draw n i0) eqn:Ed; [|apply Hok; lia]. apply Hok. now apply Hd in Ed.
  Qed.

  Lemma gloop_member data buckets :
    (forall s j, In (s, j) data -> j < length buckets) ->
    forall i b s, In (i, b) (gloop (X := X) bs data buckets) -> In s b ->
      In s (nth i buckets []) \/ In (s, i) data.
  Proof.
    intros Hi i b s Hb Hs. assert (Hf := gloop_filter bs data buckets i Hi).
    assert (Hin : In s (concat (map snd (filter (fun p => fst p =? i) (gloop bs data buckets))))).
    { apply in_concat. exists b. split; auto. apply in_map_iff. exists (i, b). split; auto. apply filter_In. split; auto. apply Nat.eqb_refl. }
    rewrite Hf in Hin. apply in_app_iff in Hin as [Hin|Hin]; [now left|right].
    apply in_map_iff in Hin as ((s', j)&<-&Hin). apply filter_In in Hin as [Hin E]. cbn in E |- *.
    apply Nat.eqb_eq in E. now subst.
  Qed.

  Lemma sorted_nth_lt (l : list (Z * Z)) i j :
    StronglySorted (fun a b => (fst a < fst b)%Z) l -> i < j -> j < length l ->
    (fst (nth i l (0, 0)%Z) < fst (nth j l (0, 0)%Z))%Z.
  Proof.
    intros H. revert i j. induction H as [|a l Hl IH Ha]; intros i j Hij Hj; [cbn in Hj; lia|].
    destruct j as [|j]; [lia|]. cbn in Hj. destruct i as [|i]; cbn [nth].
    - rewrite Forall_forall in Ha. apply Ha, nth_In. lia.
    - apply IH; lia.
  Qed.

  Lemma best_fit_iff (s : seqd X) i :
    i < length bs ->
    best_fit length_key bs (fst (nth i bs (0, 0)%Z)) s = (bisect_left (map fst bs) (seq_size length_key s) =? i).
  Proof.
    intros Hi. destruct (bisect_left_spec bs (seq_size length_key s) Hsorted) as [H1 H2]. set (i0 := bisect_left _ _) in *.
    apply eq_true_iff_eq. unfold best_fit. rewrite andb_true_iff, forallb_forall, Nat.eqb_eq. split.
    - intros [Hle Hall]. assert (Hi0 : ~ i < i0) by (rewrite <- H2 by auto; lia).
      destruct (Nat.eq_dec i0 i) as [|Hne]; auto. exfalso.
      assert (Hlt : i0 < i) by lia. specialize (Hall (nth i0 bs (0, 0)%Z)).
      assert (Hs := sorted_nth_lt bs i0 i Hsorted Hlt Hi). specialize (H2 i0).
      assert (Hin : In (nth i0 bs (0, 0)%Z) bs) by (apply nth_In; lia). specialize (Hall Hin).
      destruct (nth i0 bs (0, 0)%Z) as [sz n]. cbn in *. lia.
    - intros <-. split; [specialize (H2 i0 Hi); lia|]. intros (sz, n) Hin.
      apply In_nth with (d := (0, 0)%Z) in Hin as (j&Hj&Hn). specialize (H2 j Hj). rewrite Hn in H2. cbn in H2.
      destruct (Nat.lt_trichotomy j i0) as [Hlt|[->|Hgt]].
      + assert ((sz < seq_size length_key s)%Z) by (apply H2; lia). lia.
      + rewrite Hn. cbn. lia.
      + assert (Hs := sorted_nth_lt bs i0 j Hsorted Hgt Hj). rewrite Hn in Hs. cbn in Hs. lia.
  Qed.

  Lemma assign_plain n data s i :
    (forall n i, draw n i = None) -> In (s, i) (assign (X := X) bs length_key draw n data) ->
    bisect_left (map fst bs) (seq_size length_key s) = i.
  Proof.
    intros Hd. revert n; induction data as [|a data IH]; intros n; cbn [assign]; [intros []|].
    destruct (length bs <=? bisect_left _ _) eqn:E; [apply IH|].
    intros [H|H]; [|now apply IH in H]. injection H as <- <-. rewrite Hd. now destruct (_ <? _).
  Qed.

  Lemma repeat_buckets {A} i : nth i (map (fun _ : Z * Z => @nil A) bs) [] = [].
  Proof. revert i. induction bs as [|a l IH]; intros [|i]; cbn; auto. inversion Hsorted; subst. auto. Qed.

  Theorem bucket_main (data : list (seqd X)) :
    (forall size n, In (size, n) bs -> (0 < n)%Z) -> draw_ok bs draw ->
    Forall (fun s => dict_ok s /\ has_size length_key s) data ->
    exists out : list ((Z * Z) * list (seqd X)),
      bucket_batching bs length_key draw data = (map snd out, Ok tt) /\
      Permutation (concat (map snd out)) (filter (fits_some length_key bs) data) /\
      (forall size n b, In ((size, n), b) out ->
         In (size, n) bs /\ b <> [] /\ (Z.of_nat (length b) <= n)%Z /\ forall s, In s b -> (seq_size length_key s <= size)%Z) /\
      (forall size n b b' pre mid post, out = pre ++ ((size, n), b) :: mid ++ ((size, n), b') :: post -> Z.of_nat (length b) = n) /\
      ((forall n i, draw n i = None) ->
         (forall size n b, In ((size, n), b) out -> forall s, In s b -> best_fit length_key bs size s = true) /\
         (forall size n, In (size, n) bs ->
            filter (best_fit length_key bs size) (concat (map snd out)) = filter (best_fit length_key bs size) data)).
  Proof.
    intros Hpos Hdr Hd.
    set (bks := map (fun _ : Z * Z => @nil (seqd X)) bs).
    assert (Hlen : length bks = length bs) by apply map_length.
    set (tagged := assign bs length_key draw 0 data).
    set (g := gloop bs tagged bks).
    set (cfg := fun i => nth i bs (0, 0)%Z).
    assert (Hidx : forall s j, In (s, j) tagged -> j < length bks).
    { intros s j H. rewrite Hlen. eapply assign_index; eauto. }
    assert (Hlim : forall j, j < length bks -> (0 < limit bs j)%Z).
    { intros j Hj. rewrite Hlen in Hj. unfold limit. assert (Hin : In (nth j bs (0, 0)%Z) bs) by now apply nth_In.
      destruct (nth j bs (0, 0)%Z) as [sz n]. cbn. eauto. }
    assert (Hbok : buckets_ok bs bks).
    { intros i Hi. unfold bks. rewrite repeat_buckets. cbn. auto. }
    assert (Hgok := gloop_ok bs tagged bks Hlim Hbok Hidx). fold g in Hgok.
    assert (Hcat : concat bks = []).
    { unfold bks. clear. induction bs as [|a l IH]; cbn; auto. }
    assert (Hsnd : map snd (map (fun p => (cfg (fst p), snd p)) g) = map snd g).
    { rewrite map_map. apply map_ext. now intros (?&?). }
    assert (Hinj : forall i j, i < length bs -> j < length bs -> cfg i = cfg j -> i = j).
    { intros i j Hi Hj He. destruct (Nat.lt_trichotomy i j) as [H|[H|H]]; auto; exfalso.
      - assert (Hs := sorted_nth_lt bs i j Hsorted H Hj). fold (cfg i) in Hs. fold (cfg j) in Hs. rewrite He in Hs. lia.
      - assert (Hs := sorted_nth_lt bs j i Hsorted H Hi). fold (cfg i) in Hs. fold (cfg j) in Hs. rewrite He in Hs. lia. }
    exists (map (fun p => (cfg (fst p), snd p)) g). rewrite Hsnd. split; [|split; [|split; [|split]]].
    - unfold bucket_batching. rewrite bucket_loop_gloop; auto.
    - unfold g. rewrite gloop_perm by auto. rewrite Hcat. cbn [app]. unfold tagged. now rewrite assign_fst.
    - intros size n b Hin. apply in_map_iff in Hin as ((i, b')&He&Hin). cbn in He. injection He as He <-.
      destruct (Hgok i b' Hin) as (H1&H2&H3). rewrite Hlen in H1.
      unfold limit in H3. fold (cfg i) in H3. rewrite He in H3. cbn in H3. repeat split; auto.
      + rewrite <- He. now apply nth_In.
      + intros s Hs. destruct (gloop_member tagged bks Hidx i b' s Hin Hs) as [H|H].
        * unfold bks in H. rewrite repeat_buckets in H. destruct H.
        * apply assign_fits in H as [_ H]; auto. fold (cfg i) in H. now rewrite He in H.
    - intros size n b b' pre mid post He.
      apply map_eq_app in He as (g1&g2&Hg&Hg1&Hg2).
      apply map_eq_cons in Hg2 as (p&g3&->&Hp&Hg3). apply map_eq_app in Hg3 as (g4&g5&->&Hg4&Hg5).
      apply map_eq_cons in Hg5 as (p'&g6&->&Hp'&Hg6).
      destruct p as [i c], p' as [i' c']. cbn in Hp, Hp'. injection Hp as Hc <-. injection Hp' as Hc' <-.
      assert (Hii : i = i').
      { apply Hinj; [| |congruence]; rewrite <- Hlen.
        - apply (Hgok i c). rewrite Hg. apply in_or_app. right. now left.
        - apply (Hgok i' c'). rewrite Hg. apply in_or_app. right. right. apply in_or_app. right. now left. }
      subst i'. assert (Hfull := gloop_full bs tagged bks Hlim Hbok Hidx i c c' g1 g4 g6 Hg).
      rewrite Hfull. unfold limit. fold (cfg i). rewrite Hc. reflexivity.
    - intros Hnone.
      assert (Hbest : forall i b s, In (i, b) g -> In s b -> i < length bs /\ best_fit length_key bs (fst (cfg i)) s = true /\ In (s, i) tagged).
      { intros i b s Hin Hs. destruct (Hgok i b Hin) as (H1&_&_). rewrite Hlen in H1.
        destruct (gloop_member tagged bks Hidx i b s Hin Hs) as [H|H].
        * unfold bks in H. rewrite repeat_buckets in H. destruct H.
        * split; auto. split; auto. unfold cfg. rewrite best_fit_iff by auto. apply assign_plain in H; auto.
          rewrite H. apply Nat.eqb_refl. }
      split.
      + intros size n b Hin s Hs. apply in_map_iff in Hin as ((i, b')&He&Hin). cbn in He. injection He as He <-.
        destruct (Hbest i b' s Hin Hs) as (_&H&_). now rewrite He in H.
      + intros size n Hin. apply In_nth with (d := (0, 0)%Z) in Hin as (i&Hi&Hn).
        assert (Hsz : size = fst (nth i bs (0, 0)%Z)) by now rewrite Hn. subst size.
        assert (Hf := gloop_filter bs tagged bks i Hidx). unfold bks in Hf at 2. rewrite repeat_buckets in Hf. cbn [app] in Hf.
        fold g in Hf.
        transitivity (concat (map snd (filter (fun p => fst p =? i) g))).
        * clear Hf Hsnd. assert (Hall : forall p s, In p g -> In s (snd p) -> best_fit length_key bs (fst (nth i bs (0, 0)%Z)) s = (fst p =? i)).
          { intros (j, b) s Hp Hs. cbn in Hs |- *. destruct (Hbest j b s Hp Hs) as (Hj&_&Ht). rewrite best_fit_iff by auto.
            apply assign_plain in Ht; [now rewrite Ht|exact Hnone]. }
          revert Hall. generalize g as l. clear. induction l as [|(j, b) l IH]; intros Hall; [reflexivity|].
          cbn [map snd concat filter fst]. rewrite filter_app, IH by (intros; apply Hall; auto; now right).
          assert (Hb : filter (best_fit length_key bs (fst (nth i bs (0, 0)%Z))) b = if j =? i then b else []).
          { assert (Hb : forall s, In s b -> best_fit length_key bs (fst (nth i bs (0, 0)%Z)) s = (j =? i)).
            { intros s Hs. exact (Hall (j, b) s (or_introl eq_refl) Hs). }
            clear Hall. induction b as [|s b IHb]; [now destruct (j =? i)|]. cbn [filter]. rewrite Hb by now left.
            rewrite IHb by (intros; apply Hb; now right). now destruct (j =? i). }
          rewrite Hb. cbn [fst]. now destruct (j =? i).
        * rewrite Hf. unfold tagged. generalize 0 as m. clear - Hsorted Hnone Hi.
          induction data as [|s data IH]; intros m; cbn [assign filter]; [reflexivity|].
          rewrite best_fit_iff by auto.
          destruct (Nat.leb_spec (length bs) (bisect_left (map fst bs) (seq_size length_key s))) as [H|H].
          -- rewrite IH. destruct (Nat.eqb_spec (bisect_left (map fst bs) (seq_size length_key s)) i); [lia|reflexivity].
          -- rewrite Hnone. set (i0 := bisect_left _ _) in *.
             assert (He : (if i0 <? length bs - 1 then i0 else i0) = i0) by now destruct (_ <? _). rewrite He.
             cbn [filter snd]. destruct (Nat.eqb_spec i0 i); cbn [map fst]; now rewrite IH.
  Qed.
End BucketMain.

Lemma sublist_small {X} pre (b1 : list (seqd X)) s b2 post data : List.concat (pre ++ b1 :: (s :: b2) :: post) = data ->
  List.length b1 < List.length data /\ forall k, padded_size (b1 ++ [s]) k <= padded_size data k.
Proof.
  intros <-. rewrite concat_app. cbn [List.concat]. split; [repeat (rewrite app_length; cbn [List.length app]); lia|].
  intros k. unfold padded_size. apply Nat.mul_le_mono.
  - repeat (rewrite app_length; cbn [List.length app]); lia.
  - apply list_max_le, Forall_forall. intros n Hn.
    assert (G : forall (l : list nat), In n l -> n <= list_max l).
    { intros l Hl. pose proof (proj1 (list_max_le l (list_max l)) (le_n _)) as Hf. rewrite Forall_forall in Hf. now apply Hf. }
    apply G. rewrite !map_app, !in_app_iff in *. cbn [map] in *. cbn in *. tauto.
Qed.
