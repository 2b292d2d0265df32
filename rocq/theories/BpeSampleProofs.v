(** Proofs about the prefix tree of labels and the searches for splits of a word. *)
From Verif Require Import Base PyDict ListLemmas BpeModel BpeSpec BpeProofs.

(** ** the prefix tree *)
Fixpoint node_at (t : tree) (q : list str) : option tree :=
  match q with
  | [] => Some t
  | a :: q' => match dget (t_arcs t) a with Some c => node_at c q' | None => None end
  end.

(** [t] holds the paths [P], its own prefix is [pre] *)
Definition rep (o : bpe_opts) (t : tree) (pre : str) (P : list str -> Prop) : Prop :=
  forall q, match node_at t q with
  | Some nd => t_prefix nd = pre ++ concat q /\ (t_finished nd = true <-> P q) /\
      (t_bpe_finished nd = true <-> exists m, o_merge o = Some m /\ P (q ++ [m]))
  | None => forall r, ~ P (q ++ r)
  end.

Fixpoint ins (o : bpe_opts) (p : list str) (t : tree) : tree :=
  match p with
  | [] => set_finished t
  | a :: p' =>
      let 'Tree prefix arcs fin bpe := t in
      let child := match @dget str tree _ arcs a with Some c => c | None => empty_tree (prefix ++ a) end in
      Tree prefix (dset arcs a (ins o p' child)) fin
        (if is_merge o a && match p' with [] => true | _ => false end then true else bpe)
  end.

Lemma rep_empty o pre : rep o (empty_tree pre) pre (fun _ => False).
Proof.
  intros [|a q]; cbn.
  - split; [now rewrite app_nil_r|]. split; [split; [discriminate|tauto]|].
    split; [discriminate|]. intros (m & _ & []).
  - tauto.
Qed.
Lemma rep_ext o t pre P Q : (forall q, P q <-> Q q) -> rep o t pre P -> rep o t pre Q.
Proof.
  intros H R q. specialize (R q). destruct (node_at t q) as [nd|].
  - destruct R as (R1 & R2 & R3). split; [exact R1|]. split; [now rewrite R2|].
    rewrite R3. split; intros (m & K1 & K2); exists m; (split; [exact K1|]); now apply H.
  - intros r Hr. apply H in Hr. exact (R r Hr).
Qed.
Lemma rep_child o t pre P a c : dget (t_arcs t) a = Some c -> rep o t pre P -> rep o c (pre ++ a) (fun q => P (a :: q)).
Proof.
  intros H R q. specialize (R (a :: q)). cbn [node_at] in R. rewrite H in R.
  destruct (node_at c q); [|exact R]. cbn in R. rewrite <- app_assoc. exact R.
Qed.
Lemma rep_no_child o t pre P a : dget (t_arcs t) a = None -> rep o t pre P -> forall q, ~ P (a :: q).
Proof. intros H R q. specialize (R [a]). cbn [node_at] in R. rewrite H in R. exact (R q). Qed.

Lemma is_merge_spec o a : is_merge o a = true <-> o_merge o = Some a.
Proof.
  unfold is_merge. destruct (o_merge o) as [m|]; [|split; discriminate].
  rewrite str_eqb_eq. split; [now intros ->|now intros [= ->]].
Qed.

Lemma ins_rep o p : forall t pre P, rep o t pre P -> rep o (ins o p t) pre (fun q => P q \/ q = p).
Proof.
  induction p as [|a p IH]; intros t pre P R.
  - destruct t as [prefix arcs fin bpe]. intros [|b q].
    + specialize (R []). cbn in *. destruct R as (R1 & R2 & R3). split; [exact R1|]. split; [tauto|].
      rewrite R3. split; intros (m & K1 & K2); exists m; (split; [exact K1|]); [auto|].
      destruct K2 as [K2|K2]; [exact K2|discriminate].
    + specialize (R (b :: q)). cbn [ins set_finished node_at t_arcs] in *.
      destruct (dget arcs b) as [c|].
      * destruct (node_at c q) as [nd|].
        -- destruct R as (R1 & R2 & R3). split; [exact R1|]. split; [rewrite R2; split; [auto|intros [K|K]; [exact K|discriminate]]|].
           rewrite R3. split; intros (m & K1 & K2); exists m; (split; [exact K1|]); [auto|].
           destruct K2 as [K2|K2]; [exact K2|discriminate].
        -- intros r [K|K]; [exact (R r K)|discriminate].
      * intros r [K|K]; [exact (R r K)|discriminate].
  - destruct t as [prefix arcs fin bpe]. cbn [ins].
    set (child := match @dget str tree _ arcs a with Some c => c | None => empty_tree (prefix ++ a) end).
    assert (Hpre : prefix = pre) by (specialize (R []); cbn in R; destruct R as [R _]; now rewrite app_nil_r in R).
    assert (Rc : rep o child (pre ++ a) (fun q => P (a :: q))).
    { unfold child. destruct (dget arcs a) as [c|] eqn:E.
      - apply (rep_child o (Tree prefix arcs fin bpe) pre P a c); [exact E|exact R].
      - apply (rep_ext o _ _ (fun _ => False)); [|subst prefix; apply rep_empty].
        intros q. split; [tauto|]. exact (rep_no_child o (Tree prefix arcs fin bpe) pre P a E R q). }
    specialize (IH child (pre ++ a) _ Rc).
    intros [|b q].
    + specialize (R []). cbn in R |- *. destruct R as (R1 & R2 & R3). split; [exact R1|].
      split; [rewrite R2; split; [auto|intros [K|K]; [exact K|discriminate]]|].
      destruct (is_merge o a && match p with [] => true | _ => false end) eqn:E.
      * apply andb_true_iff in E. destruct E as [E1 E2]. apply is_merge_spec in E1.
        destruct p as [|? ?]; [|discriminate]. split; [|reflexivity]. intros _. exists a. auto.
      * rewrite R3. split; intros (m & K1 & K2); exists m; (split; [exact K1|]); [auto|].
        destruct K2 as [K2|K2]; [exact K2|]. injection K2 as -> <-.
        apply is_merge_spec in K1. rewrite K1 in E. discriminate.
    + cbn [node_at t_arcs]. rewrite dget_dset.
      destruct (@keqb str _ a b) eqn:E.
      * apply keqb_eq in E. subst b. specialize (IH q). destruct (node_at (ins o p child) q) as [nd|].
        -- destruct IH as (I1 & I2 & I3). split; [rewrite I1; cbn; now rewrite <- app_assoc|].
           split; [rewrite I2; split; intros [K|K]; auto; [right; now rewrite K|right; now injection K]|].
           rewrite I3. split; intros (m & K1 & K2); exists m; (split; [exact K1|]); cbn in *;
             (destruct K2 as [K2|K2]; [left; exact K2|right]); [now rewrite K2|now injection K2].
        -- intros r [K|K]; [apply (IH r); left; exact K|apply (IH r); right; now injection K].
      * apply keqb_neq in E. specialize (R (b :: q)). cbn [node_at t_arcs] in R.
        destruct (dget arcs b) as [c|].
        -- destruct (node_at c q) as [nd|].
           ++ destruct R as (R1 & R2 & R3). split; [exact R1|].
              split; [rewrite R2; split; [auto|intros [K|K]; [exact K|congruence]]|].
              rewrite R3. split; intros (m & K1 & K2); exists m; (split; [exact K1|]); [auto|].
              destruct K2 as [K2|K2]; [exact K2|cbn in K2; congruence].
           ++ intros r [K|K]; [exact (R r K)|cbn in K; congruence].
        -- intros r [K|K]; [exact (R r K)|cbn in K; congruence].
Qed.

(** ** the path of a label *)
Fixpoint arcs_rest (o : bpe_opts) (s : str) : list str :=
  match s with
  | [] => [[]]
  | c :: rest =>
      if is_merge o s then [s] else [c] :: match rest with [] => [] | _ => arcs_rest o rest end
  end.
Definition arcs_of (o : bpe_opts) (label : str) : list str :=
  match o_word_prefix o with
  | Some (c :: wp) =>
      if starts_with (c :: wp) label
      then (c :: wp) :: match skipn (length (c :: wp)) label with [] => [] | _ => arcs_rest o (skipn (length (c :: wp)) label) end
      else arcs_rest o label
  | _ => arcs_rest o label
  end.

Lemma arcs_rest_nonnil o s : arcs_rest o s <> [].
Proof. destruct s as [|c s]; cbn [arcs_rest]; [discriminate|]. destruct (is_merge o (c :: s)); discriminate. Qed.

Lemma add_arc_ins o t arc rest :
  (forall c, add_rest o rest c = ins o (arcs_rest o rest) c) ->
  add_arc o t arc rest (add_rest o rest) = ins o (arc :: match rest with [] => [] | _ => arcs_rest o rest end) t.
Proof.
  intros H. destruct t as [prefix arcs fin bpe]. cbn [add_arc ins].
  destruct rest as [|c rest].
  - reflexivity.
  - rewrite H. change (str_eqb (c :: rest) []) with false.
    destruct (arcs_rest o (c :: rest)) as [|x l] eqn:E; [now apply arcs_rest_nonnil in E|]. reflexivity.
Qed.
Lemma add_rest_ins o s : forall t, add_rest o s t = ins o (arcs_rest o s) t.
Proof.
  induction s as [|c s IH]; intros t.
  - destruct t as [prefix arcs fin bpe]. reflexivity.
  - cbn [add_rest arcs_rest]. destruct (is_merge o (c :: s)) eqn:E.
    + destruct t as [prefix arcs fin bpe]. cbn [add_arc ins]. rewrite E. reflexivity.
    + apply add_arc_ins. exact IH.
Qed.
Lemma add_ins o t label : add o t label = ins o (arcs_of o label) t.
Proof.
  unfold add, arcs_of. destruct (o_word_prefix o) as [[|c wp]|]; try apply add_rest_ins.
  destruct (starts_with (c :: wp) label); [|apply add_rest_ins].
  apply add_arc_ins. intros. apply add_rest_ins.
Qed.
Definition paths (o : bpe_opts) (labels : list str) (q : list str) : Prop := exists l, In l labels /\ arcs_of o l = q.
Lemma build_tree_rep o labels : rep o (build_tree o labels) [] (paths o labels).
Proof.
  unfold build_tree.
  assert (G : forall (ls : list str) t P, rep o t [] P ->
     rep o (fold_left (add o) ls t) [] (fun q => P q \/ paths o ls q)).
  { induction ls as [|l ls IH]; intros t P R; cbn [fold_left].
    - apply (rep_ext o _ _ P); [|exact R]. intros q. split; [auto|]. intros [K|(l & [] & _)]; exact K.
    - rewrite add_ins. specialize (IH _ _ (ins_rep o (arcs_of o l) _ _ _ R)).
      refine (rep_ext o _ _ _ _ _ IH). intros q. unfold paths. cbn. split.
      + intros [[K|K]|(l' & K1 & K2)]; [auto| |]; right; [exists l; auto|exists l'; auto].
      + intros [K|(l' & [<-|K1] & K2)]; [auto|auto|]. right. exists l'. auto. }
  refine (rep_ext o _ _ _ _ _ (G labels _ _ (rep_empty o []))). intros q. tauto.
Qed.

Lemma arcs_rest_concat o s : concat (arcs_rest o s) = s.
Proof.
  induction s as [|c s IH]; [reflexivity|]. cbn [arcs_rest].
  destruct (is_merge o (c :: s)); [cbn; now rewrite app_nil_r|].
  cbn. destruct s as [|c2 s]; [reflexivity|]. now rewrite IH.
Qed.
Lemma arcs_of_concat o s : concat (arcs_of o s) = s.
Proof.
  unfold arcs_of. destruct (o_word_prefix o) as [[|c wp]|]; try apply arcs_rest_concat.
  destruct (starts_with (c :: wp) s) eqn:E; [|apply arcs_rest_concat].
  apply starts_with_inv in E. destruct E as (r & ->).
  assert (Es : skipn (length (c :: wp)) ((c :: wp) ++ r) = r) by (rewrite skipn_app, skipn_all, Nat.sub_diag; reflexivity).
  rewrite Es. change (concat ((c :: wp) :: match r with [] => [] | _ :: _ => arcs_rest o r end))
    with ((c :: wp) ++ concat match r with [] => [] | _ :: _ => arcs_rest o r end).
  f_equal. destruct r; [reflexivity|apply arcs_rest_concat].
Qed.
Lemma arcs_rest_nomerge o s : o_merge o = None -> s <> [] -> arcs_rest o s = map sing s.
Proof.
  intros H. induction s as [|c s IH]; intros Hs; [congruence|]. cbn [arcs_rest].
  unfold is_merge. rewrite H. cbn. unfold sing at 1. destruct s as [|c2 s]; [reflexivity|].
  f_equal. apply IH. discriminate.
Qed.
Lemma arcs_rest_merge o m t : o_merge o = Some m -> m <> [] -> arcs_rest o (t ++ m) = map sing t ++ [m].
Proof.
  intros H Hm. induction t as [|c t IH].
  - cbn [app map]. destruct m as [|c m]; [congruence|]. cbn [arcs_rest].
    replace (is_merge o (c :: m)) with true by (symmetry; now apply is_merge_spec). reflexivity.
  - cbn [app map arcs_rest]. destruct (is_merge o (c :: t ++ m)) eqn:E.
    + apply is_merge_spec in E. rewrite H in E. injection E as E. apply (f_equal (@length nat)) in E.
      cbn in E. rewrite app_length in E. lia.
    + rewrite IH. destruct (t ++ m) eqn:Et; [destruct t; [cbn in Et; congruence|discriminate]|]. reflexivity.
Qed.
Lemma arcs_rest_plain o m s :
  o_merge o = Some m -> s <> [] -> (forall t, s <> t ++ m) -> arcs_rest o s = map sing s.
Proof.
  intros H. induction s as [|c s IH]; intros Hs Hp; [congruence|]. cbn [arcs_rest].
  destruct (is_merge o (c :: s)) eqn:E.
  - apply is_merge_spec in E. rewrite H in E. injection E as ->. exfalso. apply (Hp []). reflexivity.
  - cbn [map]. f_equal. destruct s as [|c2 s]; [reflexivity|]. apply IH; [discriminate|].
    intros t Ht. apply (Hp (c :: t)). cbn. now rewrite <- Ht.
Qed.
Lemma map_sing_inj a b : map sing a = map sing b -> a = b.
Proof. intros H. rewrite <- (concat_sing a), H. apply concat_sing. Qed.

Section Search.
  Variables (o : bpe_opts) (labels : list str).
  Hypothesis Ho : opts_ok o.
  Let P := paths o labels.

  Lemma arcs_of_prefix_mode s :
    o_word_prefix o <> None -> s <> [] -> arcs_of o s = map sing s.
  Proof.
    intros Hw Hs. unfold opts_ok in Ho. unfold arcs_of.
    destruct (o_word_prefix o) as [wp|]; [|congruence].
    destruct (o_merge o) eqn:Em; [destruct Ho|]. destruct wp as [|c [|? ?]]; try discriminate.
    destruct (starts_with [c] s) eqn:E; [|now apply arcs_rest_nomerge].
    apply starts_with_inv in E. destruct E as (r & ->). cbn [length app skipn map].
    change (sing c) with [c]. f_equal. destruct r as [|c2 r]; [reflexivity|]. apply arcs_rest_nomerge; [exact Em|discriminate].
  Qed.

  Lemma path_plain u : P (map sing u) <-> u <> [] /\ plain o labels u.
  Proof.
    unfold P, paths, plain. split.
    - intros (l & Hl & E). assert (El : l = u) by (rewrite <- (arcs_of_concat o l), E; apply concat_sing). subst l.
      assert (Hu : u <> []).
      { intros ->. cbn in E. unfold arcs_of in E. destruct (o_word_prefix o) as [[|? ?]|]; discriminate. }
      split; [exact Hu|]. split; [exact Hl|]. destruct (o_merge o) as [m|] eqn:Em; [|exact I].
      intros t ->. unfold opts_ok in Ho. rewrite Em in Ho. unfold arcs_of in E.
      destruct (o_word_prefix o); [destruct Ho|].
      rewrite (arcs_rest_merge o m t Em) in E by (intros ->; cbn in Ho; lia).
      rewrite map_app in E. apply app_inv_head in E.
      apply (f_equal (@length str)) in E. rewrite map_length in E. cbn [length] in E. lia.
    - intros (Hu & Hl & Hp). exists u. split; [exact Hl|].
      destruct (o_word_prefix o) as [wp|] eqn:Ew.
      + apply arcs_of_prefix_mode; [congruence|exact Hu].
      + unfold arcs_of. rewrite Ew. destruct (o_merge o) as [m|] eqn:Em.
        * apply (arcs_rest_plain o m); auto.
        * apply arcs_rest_nomerge; auto.
  Qed.
  Lemma path_merge u m : o_merge o = Some m -> (P (map sing u ++ [m]) <-> In (u ++ m) labels).
  Proof.
    intros Em. unfold P, paths. unfold opts_ok in Ho. rewrite Em in Ho. destruct (o_word_prefix o) eqn:Ew; [destruct Ho|].
    split.
    - intros (l & Hl & E). assert (El : l = u ++ m).
      { rewrite <- (arcs_of_concat o l), E, concat_app, concat_sing. cbn. now rewrite app_nil_r. }
      now subst l.
    - intros Hl. exists (u ++ m). split; [exact Hl|]. unfold arcs_of. rewrite Ew.
      apply arcs_rest_merge; [exact Em|]. intros ->. cbn in Ho. lia.
  Qed.

  Let root := build_tree o labels.

  (** ** completions of a hypothesis *)
  Fixpoint cont (u rest : str) (seq : list str) : Prop :=
    match rest with
    | [] => u <> [] /\ plain o labels u /\ seq = [u]
    | c :: r =>
        (exists m seq', o_merge o = Some m /\ In (u ++ m) labels /\ seq = (u ++ m) :: seq' /\ cont [c] r seq') \/
        (o_word_prefix o <> None /\ u <> [] /\ plain o labels u /\ exists seq', seq = u :: seq' /\ cont [c] r seq') \/
        cont (u ++ [c]) r seq
    end.
  Lemma cont_path u rest : forall seq, cont u rest seq -> exists r, P (map sing u ++ r).
  Proof.
    revert u. induction rest as [|c rest IH]; intros u seq H; cbn in H.
    - destruct H as (H1 & H2 & _). exists []. rewrite app_nil_r. apply path_plain. auto.
    - destruct H as [(m & seq' & H1 & H2 & _)|[(_ & H1 & H2 & _)|H]].
      + exists [m]. now apply path_merge.
      + exists []. rewrite app_nil_r. apply path_plain. auto.
      + destruct (IH _ _ H) as (r & Hr). rewrite map_app, <- app_assoc in Hr. eauto.
  Qed.

  Definition hok (h : hyp) : Prop := node_at root (map sing (t_prefix (h_node h))) = Some (h_node h).
  Definition compl (h : hyp) (rest : str) (s : list str) : Prop :=
    exists seq, s = h_history h ++ seq /\ cont (t_prefix (h_node h)) rest seq.

  Lemma node_facts h : hok h ->
    (t_finished (h_node h) = true <-> t_prefix (h_node h) <> [] /\ plain o labels (t_prefix (h_node h))) /\
    (t_bpe_finished (h_node h) = true <-> exists m, o_merge o = Some m /\ In (t_prefix (h_node h) ++ m) labels).
  Proof.
    intros H. pose proof (build_tree_rep o labels (map sing (t_prefix (h_node h)))) as R.
    unfold hok, root in H. rewrite H in R. destruct R as (_ & R2 & R3). split.
    - rewrite R2. apply path_plain.
    - rewrite R3. split; intros (m & K1 & K2); exists m; (split; [exact K1|]); now apply (path_merge _ _ K1).
  Qed.
  (** following one character from a node *)
  Lemma step_node u nd c :
    node_at root (map sing u) = Some nd ->
    match dget (t_arcs nd) [c] with
    | Some nd' => t_prefix nd' = u ++ [c] /\ node_at root (map sing (u ++ [c])) = Some nd'
    | None => forall rest seq, ~ cont (u ++ [c]) rest seq
    end.
  Proof.
    intros H.
    assert (E : node_at root (map sing (u ++ [c])) = dget (t_arcs nd) [c]).
    { rewrite map_app. cbn [map]. revert H. generalize root. induction (map sing u) as [|a q IH]; intros t H; cbn in *.
      - injection H as ->. unfold sing. destruct (dget (t_arcs nd) [c]); reflexivity.
      - destruct (dget (t_arcs t) a) as [t'|]; [|discriminate]. now apply IH. }
    pose proof (build_tree_rep o labels (map sing (u ++ [c]))) as R. unfold root in E. rewrite E in R.
    destruct (dget (t_arcs nd) [c]) as [nd'|].
    - destruct R as (R1 & _). split; [now rewrite concat_sing in R1|exact E].
    - intros rest seq Hc. destruct (cont_path _ _ _ Hc) as (r & Hr). exact (R r Hr).
  Qed.

  Lemma new_hyps_spec h c :
    hok h ->
    Forall (fun h' => hok h' /\ h_pos h' = h_pos h + 1) (new_hyps o root c h) /\
    length (new_hyps o root c h) <= 3 /\
    forall rest s, (exists h', In h' (new_hyps o root c h) /\ compl h' rest s) <-> compl h (c :: rest) s.
  Proof.
    intros H. destruct (node_facts h H) as (F1 & F2).
    pose proof (step_node _ _ c H) as S1.
    pose proof (step_node [] root c eq_refl) as S0.
    set (u := t_prefix (h_node h)) in *. unfold new_hyps.
    match goal with |- Forall _ (?a ++ ?b ++ ?c) /\ _ => set (L1 := a); set (L2 := b); set (L3 := c) end.
    assert (K1 : Forall (fun h' => hok h' /\ h_pos h' = h_pos h + 1) L1 /\ length L1 <= 1 /\
      forall rest s, (exists h', In h' L1 /\ compl h' rest s) <->
        exists m seq', o_merge o = Some m /\ In (u ++ m) labels /\ s = h_history h ++ (u ++ m) :: seq' /\ cont [c] rest seq').
    { unfold L1. destruct (t_bpe_finished (h_node h)) eqn:Eb.
      - destruct (proj1 F2 eq_refl) as (m & Em & Hm). rewrite Em.
        destruct (dget (t_arcs root) [c]) as [nd|] eqn:Ed.
        + destruct S0 as (S01 & S02). split; [|split].
          * constructor; [|constructor]. unfold hok. cbn [h_node h_pos]. rewrite S01. auto.
          * cbn. lia.
          * intros rest s. unfold compl. split.
            -- intros (h' & [<-|[]] & seq & -> & Hc). cbn [h_history h_node] in *. rewrite S01 in Hc.
               exists m, seq. rewrite <- app_assoc. auto.
            -- intros (m' & seq' & [= <-] & _ & -> & Hc). eexists. split; [now left|]. cbn [h_history h_node].
               rewrite S01. exists seq'. rewrite <- app_assoc. auto.
        + split; [constructor|]. split; [cbn; lia|]. intros rest s. split; [intros (h' & [] & _)|].
          intros (m' & seq' & _ & _ & _ & Hc). destruct (S0 _ _ Hc).
      - split; [constructor|]. split; [cbn; lia|]. intros rest s. split; [intros (h' & [] & _)|].
        intros (m & seq' & Em & Hm & _). exfalso. assert (false = true) by (apply F2; eauto). discriminate. }
    assert (K2 : Forall (fun h' => hok h' /\ h_pos h' = h_pos h + 1) L2 /\ length L2 <= 1 /\
      forall rest s, (exists h', In h' L2 /\ compl h' rest s) <->
        o_word_prefix o <> None /\ u <> [] /\ plain o labels u /\
        exists seq', s = h_history h ++ u :: seq' /\ cont [c] rest seq').
    { unfold L2. destruct (o_word_prefix o) as [wp|].
      2: { split; [constructor|]. split; [cbn; lia|]. intros rest s. split; [intros (h' & [] & _)|].
           intros (K & _). congruence. }
      destruct (t_finished (h_node h)) eqn:Eb.
      - destruct (proj1 F1 eq_refl) as (Hu & Hp).
        destruct (dget (t_arcs root) [c]) as [nd|] eqn:Ed.
        + destruct S0 as (S01 & S02). split; [|split].
          * constructor; [|constructor]. unfold hok. cbn [h_node h_pos]. rewrite S01. auto.
          * cbn. lia.
          * intros rest s. unfold compl. split.
            -- intros (h' & [<-|[]] & seq & -> & Hc). cbn [h_history h_node] in *. rewrite S01 in Hc.
               split; [discriminate|]. split; [exact Hu|]. split; [exact Hp|].
               exists seq. rewrite <- app_assoc. auto.
            -- intros (_ & _ & _ & seq' & -> & Hc). eexists. split; [now left|]. cbn [h_history h_node].
               rewrite S01. exists seq'. rewrite <- app_assoc. auto.
        + split; [constructor|]. split; [cbn; lia|]. intros rest s. split; [intros (h' & [] & _)|].
          intros (_ & _ & _ & seq' & _ & Hc). destruct (S0 _ _ Hc).
      - split; [constructor|]. split; [cbn; lia|]. intros rest s. split; [intros (h' & [] & _)|].
        intros (_ & Hu & Hp & _). exfalso. assert (false = true) by (apply F1; auto). discriminate. }
    assert (K3 : Forall (fun h' => hok h' /\ h_pos h' = h_pos h + 1) L3 /\ length L3 <= 1 /\
      forall rest s, (exists h', In h' L3 /\ compl h' rest s) <->
        exists seq', s = h_history h ++ seq' /\ cont (u ++ [c]) rest seq').
    { unfold L3. destruct (dget (t_arcs (h_node h)) [c]) as [nd|].
      - destruct S1 as (S11 & S12). split; [|split].
        + constructor; [|constructor]. unfold hok. cbn [h_node h_pos]. rewrite S11. auto.
        + cbn. lia.
        + intros rest s. unfold compl. split.
          * intros (h' & [<-|[]] & seq & -> & Hc). cbn [h_history h_node] in *. rewrite S11 in Hc. eauto.
          * intros (seq' & -> & Hc). eexists. split; [now left|]. cbn [h_history h_node]. rewrite S11. eauto.
      - split; [constructor|]. split; [cbn; lia|]. intros rest s. split; [intros (h' & [] & _)|].
        intros (seq' & _ & Hc). destruct (S1 _ _ Hc). }
    clearbody L1 L2 L3. destruct K1 as (K11 & K12 & K13), K2 as (K21 & K22 & K23), K3 as (K31 & K32 & K33).
    split; [apply Forall_app; split; [exact K11|apply Forall_app; auto]|].
    split; [rewrite !app_length; lia|]. intros rest s. split.
    - intros (h' & Hin & Hc). apply in_app_iff in Hin. rewrite in_app_iff in Hin. unfold compl. cbn [cont].
      destruct Hin as [Hin|[Hin|Hin]].
      + destruct (proj1 (K13 rest s)) as (m & seq' & E1 & E2 & E3 & E4); [eauto|].
        exists ((u ++ m) :: seq'). split; [exact E3|]. left. exists m, seq'. auto.
      + destruct (proj1 (K23 rest s)) as (E1 & E2 & E3 & seq' & E4 & E5); [eauto|].
        exists (u :: seq'). split; [exact E4|]. right. left. eauto 6.
      + destruct (proj1 (K33 rest s)) as (seq' & E1 & E2); [eauto|]. exists seq'. auto.
    - intros (seq & E & Hc). cbn [cont] in Hc.
      destruct Hc as [(m & seq' & E1 & E2 & E3 & E4)|[(E1 & E2 & E3 & seq' & E4 & E5)|Hc]].
      + destruct (proj2 (K13 rest s)) as (h' & G1 & G2); [exists m, seq'; subst; auto|].
        exists h'. split; [apply in_app_iff; now left|exact G2].
      + destruct (proj2 (K23 rest s)) as (h' & G1 & G2).
        { split; [exact E1|]. split; [exact E2|]. split; [exact E3|]. exists seq'. subst. auto. }
        exists h'. split; [apply in_app_iff; right; apply in_app_iff; now left|exact G2].
      + destruct (proj2 (K33 rest s)) as (h' & G1 & G2); [exists seq; auto|].
        exists h'. split; [apply in_app_iff; right; apply in_app_iff; now right|exact G2].
  Qed.

  Lemma final_spec h s : hok h ->
    (t_finished (h_node h) = true /\ s = h_history h ++ [t_prefix (h_node h)]) <-> compl h [] s.
  Proof.
    intros H. destruct (node_facts h H) as (F1 & _). unfold compl. cbn [cont]. rewrite F1. split.
    - intros ((H1 & H2) & ->). eauto 6.
    - intros (seq & -> & H1 & H2 & ->). auto.
  Qed.

  (** ** character synchronous search *)
  Lemma char_sync_spec word : forall hyps s,
    Forall hok hyps -> (In s (char_sync o root word hyps) <-> exists h, In h hyps /\ compl h word s).
  Proof.
    induction word as [|c word IH]; intros hyps s H; cbn [char_sync].
    - rewrite in_flat_map. rewrite Forall_forall in H. split.
      + intros (h & Hh & Hs). exists h. split; [exact Hh|]. apply (final_spec h s (H h Hh)).
        destruct (t_finished (h_node h)); [|destruct Hs]. destruct Hs as [<-|[]]. auto.
      + intros (h & Hh & Hs). exists h. split; [exact Hh|]. apply (final_spec h s (H h Hh)) in Hs.
        destruct Hs as (-> & ->). now left.
    - rewrite Forall_forall in H. rewrite IH.
      + split.
        * intros (h' & Hin & Hc). apply in_flat_map in Hin. destruct Hin as (h & Hh & Hin).
          exists h. split; [exact Hh|]. apply (new_hyps_spec h c (H h Hh)). eauto.
        * intros (h & Hh & Hc). apply (proj2 (proj2 (new_hyps_spec h c (H h Hh)))) in Hc.
          destruct Hc as (h' & Hin & Hc). exists h'. split; [|exact Hc]. apply in_flat_map. eauto.
      + apply Forall_forall. intros h' Hin. apply in_flat_map in Hin. destruct Hin as (h & Hh & Hin).
        pose proof (proj1 (new_hyps_spec h c (H h Hh))) as Hf. rewrite Forall_forall in Hf. now apply Hf.
  Qed.

  (** ** depth first search *)
  Variable word : str.
  Variable target : list str -> Prop.
  Definition dinv (s : dfs) : Prop :=
    Forall (fun h => hok h /\ h_pos h < length word) (d_hyps s) /\
    (forall f, d_final s = Some f -> target f) /\
    (forall h x, In h (d_hyps s) -> compl h (skipn (h_pos h) word) x -> target x) /\
    (d_final s = None -> forall x, target x -> exists h, In h (d_hyps s) /\ compl h (skipn (h_pos h) word) x).

  Definition hmeas (h : hyp) : nat := 4 ^ (length word - h_pos h).
  Definition dmeas (s : dfs) : nat := list_sum (map hmeas (d_hyps s)).

  (** adding hypotheses *)
  Lemma add_hyps_inv new : forall s,
    Forall (fun h => hok h /\ h_pos h <= length word) new ->
    Forall (fun h => hok h /\ h_pos h < length word) (d_hyps s) ->
    (forall f, d_final s = Some f -> target f) ->
    (forall h x, In h (d_hyps s) \/ In h new -> compl h (skipn (h_pos h) word) x -> target x) ->
    (d_final s = None -> forall x, target x ->
       exists h, (In h (d_hyps s) \/ In h new) /\ compl h (skipn (h_pos h) word) x) ->
    let s' := fold_left (add_hyp word) new s in
    dinv s' /\ dmeas s' <= dmeas s + list_sum (map hmeas new).
  Proof.
    induction new as [|h new IH]; intros s H1 H2 H3 H4 H5; cbn [fold_left].
    - cbn. split; [|lia]. split; [exact H2|]. split; [exact H3|]. split.
      + intros h x Hh. apply H4. now left.
      + intros Hn x Hx. destruct (H5 Hn x Hx) as (h & [Hh|[]] & Hc). eauto.
    - inversion H1 as [|? ? [Hok Hpos] H1']; subst x l.
      assert (G : let s1 := add_hyp word s h in
        Forall (fun h => hok h /\ h_pos h < length word) (d_hyps s1) /\
        (forall f, d_final s1 = Some f -> target f) /\
        (forall h x, In h (d_hyps s1) \/ In h new -> compl h (skipn (h_pos h) word) x -> target x) /\
        (d_final s1 = None -> forall x, target x ->
           exists h, (In h (d_hyps s1) \/ In h new) /\ compl h (skipn (h_pos h) word) x) /\
        dmeas s1 <= dmeas s + hmeas h).
      { cbn zeta. unfold add_hyp. destruct (Nat.leb_spec (length word) (h_pos h)) as [Hl|Hl].
        - assert (Hp : skipn (h_pos h) word = []) by (apply skipn_all2; lia).
          destruct (t_finished (h_node h)) eqn:Ef; cbn [d_hyps d_final d_calls].
          + split; [exact H2|]. split; [|split; [|split]].
            * intros f [= <-]. apply (H4 h); [right; now left|]. rewrite Hp. apply final_spec; auto.
            * intros h' x [Hh|Hh]; apply H4; [now left|right; now right].
            * discriminate.
            * unfold dmeas. cbn [d_hyps]. lia.
          + split; [exact H2|]. split; [exact H3|]. split; [|split].
            * intros h' x [Hh|Hh]; apply H4; [now left|right; now right].
            * intros Hn x Hx. destruct (H5 Hn x Hx) as (h' & [Hh|[<-|Hh]] & Hc); [eauto| |eauto].
              exfalso. rewrite Hp in Hc. apply final_spec in Hc; [|exact Hok]. destruct Hc as (Hc & _). congruence.
            * lia.
        - cbn [d_hyps d_final]. split; [constructor; auto|]. split; [exact H3|]. split; [|split].
          + intros h' x [[<-|Hh]|Hh]; apply H4; [right; now left|now left|right; now right].
          + intros Hn x Hx. destruct (H5 Hn x Hx) as (h' & [Hh|[<-|Hh]] & Hc); [exists h'|exists h|exists h']; cbn; auto.
          + unfold dmeas. cbn [d_hyps map]. unfold list_sum. cbn [fold_right]. lia. }
      cbn zeta in G. destruct G as (G1 & G2 & G3 & G4 & G5).
      destruct (IH (add_hyp word s h) H1' G1 G2 G3 G4) as (I1 & I2). split; [exact I1|]. cbn [map list_sum] in *.
      change (list_sum (hmeas h :: map hmeas new)) with (hmeas h + list_sum (map hmeas new)). lia.
  Qed.

  Lemma list_sum_bound (f : hyp -> nat) l b : Forall (fun h => f h <= b) l -> list_sum (map f l) <= length l * b.
  Proof.
    unfold list_sum. induction 1 as [|h l H1 H2 IH]; [cbn; lia|]. cbn [map fold_right length].
    rewrite Nat.mul_succ_l. lia.
  Qed.
  Lemma skipn_nth_cons (w : str) i : i < length w -> skipn i w = nth i w 0 :: skipn (i + 1) w.
  Proof.
    revert i. induction w as [|c w IH]; intros i Hi; [cbn in Hi; lia|]. destruct i as [|i]; [reflexivity|].
    cbn. apply IH. cbn in Hi. lia.
  Qed.
  Lemma expand_inv sampler s :
    dinv s -> d_hyps s <> [] -> d_final s = None ->
    dinv (dfs_expand o root word sampler s) /\ dmeas (dfs_expand o root word sampler s) < dmeas s.
  Proof.
    intros (I1 & I2 & I3 & I4) Hne Hn. unfold dfs_expand. destruct (d_hyps s) as [|h hs] eqn:Eh; [congruence|].
    inversion I1 as [|? ? [Hok Hpos] I1']; subst x l.
    destruct (new_hyps_spec h (nth (h_pos h) word 0) Hok) as (N1 & N2 & N3).
    set (new := new_hyps o root (nth (h_pos h) word 0) h) in *. clearbody new.
    set (new' := if sampler (d_calls s) then rev new else new).
    assert (Hin : forall x, In x new' <-> In x new) by (intros x; unfold new'; destruct (sampler (d_calls s)); [symmetry; apply in_rev|tauto]).
    assert (Hlen : length new' = length new) by (unfold new'; destruct (sampler (d_calls s)); [apply rev_length|reflexivity]).
    clearbody new'. rewrite Forall_forall in N1.
    assert (Hrest : forall h', In h' new' -> skipn (h_pos h') word = skipn (h_pos h + 1) word).
    { intros h' Hh. apply Hin in Hh. now rewrite (proj2 (N1 h' Hh)). }
    assert (Hc : forall x, compl h (skipn (h_pos h) word) x <-> exists h', In h' new' /\ compl h' (skipn (h_pos h') word) x).
    { intros x. rewrite (skipn_nth_cons word (h_pos h) Hpos), <- N3. split; intros (h' & K1 & K2); exists h'.
      - split; [now apply Hin|]. rewrite Hrest by now apply Hin. exact K2.
      - split; [now apply Hin|]. rewrite <- (Hrest h' K1). exact K2. }
    destruct (add_hyps_inv new' {| d_hyps := hs; d_final := d_final s; d_calls := S (d_calls s) |}) as (A1 & A2).
    - apply Forall_forall. intros h' Hh. apply Hin in Hh. destruct (N1 h' Hh) as (K1 & K2). split; [exact K1|lia].
    - exact I1'.
    - exact I2.
    - cbn. intros h' x [Hh|Hh] Hx; [apply (I3 h' x); [now right|exact Hx]|].
      apply (I3 h x); [now left|]. apply Hc. eauto.
    - cbn. intros _ x Hx. destruct (I4 Hn x Hx) as (h' & [<-|Hh] & Hx'); [|eauto].
      apply Hc in Hx'. destruct Hx' as (h2 & K1 & K2). eauto.
    - split; [exact A1|]. eapply Nat.le_lt_trans; [exact A2|]. unfold dmeas. cbn [d_hyps]. rewrite Eh.
      change (list_sum (map hmeas (h :: hs))) with (hmeas h + list_sum (map hmeas hs)).
      assert (B : list_sum (map hmeas new') <= length new' * 4 ^ (length word - (h_pos h + 1))).
      { apply list_sum_bound. apply Forall_forall. intros h' Hh. apply Hin in Hh. unfold hmeas.
        rewrite (proj2 (N1 h' Hh)). lia. }
      assert (E4 : hmeas h = 4 * 4 ^ (length word - (h_pos h + 1))).
      { unfold hmeas. replace (length word - h_pos h) with (S (length word - (h_pos h + 1))) by lia. reflexivity. }
      assert (Hpw : 1 <= 4 ^ (length word - (h_pos h + 1))).
      { clear. induction (length word - (h_pos h + 1)) as [|n IH]; cbn; lia. }
      rewrite E4. set (b := 4 ^ (length word - (h_pos h + 1))) in *. clearbody b. rewrite Hlen in B.
      assert (length new * b <= 3 * b) by (apply Nat.mul_le_mono_r; exact N2). lia.
  Qed.
  Lemma dfs_loop_spec sampler fuel : forall s,
    dmeas s < fuel -> dinv s ->
    exists r calls, dfs_loop fuel o root word sampler s = Ok (r, calls) /\
      match r with Some f => target f | None => forall x, ~ target x end.
  Proof.
    induction fuel as [|fuel IH]; intros s Hf Hi; [lia|]. cbn [dfs_loop].
    destruct (d_hyps s) as [|h hs] eqn:Eh.
    - exists (d_final s), (d_calls s). split; [reflexivity|]. destruct Hi as (_ & I2 & _ & I4).
      destruct (d_final s) as [f|]; [now apply I2|]. intros x Hx.
      destruct (I4 eq_refl x Hx) as (h & Hin & _). rewrite Eh in Hin. destruct Hin.
    - destruct (d_final s) as [f|] eqn:Ef.
      + exists (Some f), (d_calls s). split; [reflexivity|]. now apply Hi.
      + destruct (expand_inv sampler s Hi) as (E1 & E2); [congruence|exact Ef|]. apply IH; [lia|exact E1].
  Qed.
End Search.

(** ** completions are splits *)
Section Split.
  Variables (o : bpe_opts) (labels : list str).
  Hypothesis Ho : opts_ok o.

  Lemma cont_split rest : forall first t seq,
    (first = true \/ t <> []) -> t ++ rest <> [] ->
    cont o labels (word_start o first ++ t) rest seq -> split o labels first (t ++ rest) seq.
  Proof.
    induction rest as [|c rest IH]; intros first t seq Hf Hne H; cbn [cont] in H.
    - destruct H as (H1 & H2 & ->). rewrite app_nil_r in *. now apply split_last.
    - assert (G : forall s seq', inner o labels first t s -> cont o labels [c] rest seq' ->
        split o labels first (t ++ c :: rest) (s :: seq')).
      { intros s seq' Hs Hc. apply split_more; [exact Hf|discriminate|exact Hs|].
        apply (IH false [c] seq'); [right; discriminate|discriminate|exact Hc]. }
      destruct H as [(m & seq' & H1 & H2 & -> & H3)|[(H1 & H2 & H3 & seq' & -> & H4)|H]].
      + apply G; [|exact H3]. left. exists m. rewrite app_assoc. auto.
      + apply G; [|exact H4]. right. auto.
      + rewrite <- app_assoc in H. replace (t ++ c :: rest) with ((t ++ [c]) ++ rest) by now rewrite <- app_assoc.
        apply IH; [right; destruct t; discriminate|destruct t; discriminate|exact H].
  Qed.
  Lemma cont_shift t : forall u rest seq, cont o labels (u ++ t) rest seq -> cont o labels u (t ++ rest) seq.
  Proof.
    induction t as [|c t IH]; intros u rest seq H; [now rewrite app_nil_r in H|].
    cbn [app cont]. right. right. apply IH. now rewrite <- app_assoc.
  Qed.
  Lemma word_start_ne first t : o_word_prefix o <> None -> first = true \/ t <> [] -> word_start o first ++ t <> [].
  Proof.
    intros Hw Hf. unfold opts_ok in Ho. unfold word_start. destruct (o_word_prefix o) as [wp|]; [|congruence].
    destruct (o_merge o); [destruct Ho|]. destruct first.
    - destruct wp; [discriminate|discriminate].
    - destruct Hf as [Hf|Hf]; [discriminate|exact Hf].
  Qed.
  Lemma split_cont first w seq :
    split o labels first w seq ->
    (first = true -> cont o labels (word_start o true) w seq) /\
    (first = false -> forall c r, w = c :: r -> cont o labels [c] r seq).
  Proof.
    induction 1 as [first w H1 H2|first t w s seq H1 H2 H3 H4 [_ IH]].
    - split.
      + intros ->. rewrite <- (app_nil_r w) at 1. apply cont_shift. cbn [cont].
        split; [destruct (word_start o true); [exact H1|discriminate]|auto].
      + intros -> c r ->. rewrite <- (app_nil_r r) at 1. apply cont_shift. cbn [cont app].
        split; [discriminate|]. auto.
    - destruct w as [|c w]; [congruence|]. specialize (IH eq_refl c w eq_refl).
      assert (G : cont o labels (word_start o first ++ t) (c :: w) (s :: seq)).
      { cbn [cont]. destruct H3 as [(m & E1 & E2 & E3)|(E1 & E2 & E3)].
        - left. exists m, seq. rewrite <- app_assoc. rewrite <- E2. auto.
        - right. left. rewrite <- E2. split; [exact E1|]. split; [|eauto].
          rewrite E2. now apply word_start_ne. }
      split.
      + intros ->. apply cont_shift. exact G.
      + intros -> c' r E. destruct t as [|c2 t]; [destruct H1; congruence|]. cbn in E. injection E as <- <-.
        apply cont_shift. exact G.
  Qed.
  Lemma cont_iff_split word seq :
    word <> [] -> (cont o labels (word_start o true) word seq <-> split o labels true word seq).
  Proof.
    intros Hw. split.
    - intros H. apply (cont_split word true []); [now left|exact Hw|]. now rewrite app_nil_r.
    - intros H. now apply (split_cont true word seq H).
  Qed.

  Lemma first_hyp_spec :
    has_start o labels ->
    exists h, first_hyp o (build_tree o labels) = Ok h /\ h_history h = [] /\ h_pos h = 0 /\ hok o labels h /\
      t_prefix (h_node h) = word_start o true.
  Proof.
    intros Hs. unfold first_hyp, has_start, word_start in *.
    destruct (o_word_prefix o) as [wp|] eqn:Ew.
    - pose proof (build_tree_rep o labels [wp]) as R. cbn [node_at] in R.
      assert (Hwp : exists c, wp = [c]).
      { unfold opts_ok in Ho. rewrite Ew in Ho. destruct (o_merge o); [destruct Ho|].
        destruct wp as [|c [|? ?]]; try discriminate. eauto. }
      destruct Hwp as (c & ->).
      destruct (dget (t_arcs (build_tree o labels)) [c]) as [nd|] eqn:E.
      + eexists. split; [reflexivity|]. cbn [h_history h_pos h_node]. do 2 (split; [reflexivity|]).
        destruct R as (R1 & _). cbn in R1. split; [|exact R1]. unfold hok. cbn [h_node]. rewrite R1. cbn [map node_at].
        change (sing c) with [c]. now rewrite E.
      + exfalso. destruct Hs as (t & Ht). apply (R (map sing t)). exists ([c] ++ t). split; [exact Ht|].
        rewrite (arcs_of_prefix_mode o Ho); [reflexivity|congruence|discriminate].
    - eexists. split; [reflexivity|]. do 2 (split; [reflexivity|]).
      unfold hok. cbn [h_node].
      assert (E : t_prefix (build_tree o labels) = []).
      { pose proof (build_tree_rep o labels []) as R. cbn in R. apply R. }
      rewrite E. split; reflexivity.
  Qed.

  Lemma first_hyp_none : ~ has_start o labels -> first_hyp o (build_tree o labels) = Err KeyError.
  Proof.
    intros Hs. unfold first_hyp, has_start in *. destruct (o_word_prefix o) as [wp|] eqn:Ew; [|tauto].
    assert (Hwp : exists c, wp = [c]).
    { unfold opts_ok in Ho. rewrite Ew in Ho. destruct (o_merge o); [destruct Ho|].
      destruct wp as [|c [|? ?]]; try discriminate. eauto. }
    destruct Hwp as (c & ->).
    destruct (dget (t_arcs (build_tree o labels)) [c]) as [nd|] eqn:E; [|reflexivity].
    exfalso.
    assert (G : forall (ls : list str) t, (forall nd', dget (t_arcs t) [c] = Some nd' -> exists x, In ([c] ++ x) labels) ->
      (forall l, In l ls -> In l labels) ->
      forall nd', dget (t_arcs (fold_left (add o) ls t)) [c] = Some nd' -> exists x, In ([c] ++ x) labels).
    { induction ls as [|l ls IH]; intros t Ht Hls nd' Hd; [exact (Ht nd' Hd)|]. cbn [fold_left] in Hd.
      apply (IH _ ) in Hd; [exact Hd| |intros l' Hl'; apply Hls; now right].
      intros nd2. rewrite add_ins. destruct l as [|c0 l].
      - unfold arcs_of. rewrite Ew. cbn [starts_with arcs_rest ins]. destruct t as [prefix arcs fin bpe].
        cbn [t_arcs]. rewrite dget_dset. cbn. intros Hd2. apply (Ht nd2). exact Hd2.
      - rewrite (arcs_of_prefix_mode o Ho) by (congruence || discriminate). cbn [map ins].
        destruct t as [prefix arcs fin bpe]. cbn [t_arcs]. rewrite dget_dset.
        destruct (@keqb str _ (sing c0) [c]) eqn:Ek.
        + intros _. apply keqb_eq in Ek. injection Ek as ->. exists l. apply Hls. now left.
        + intros Hd2. apply (Ht nd2). exact Hd2. }
    apply Hs. apply (G labels (empty_tree [])) with (nd' := nd); [discriminate|auto|exact E].
  Qed.

  Lemma all_splits_spec word seqs :
    has_start o labels -> word <> [] -> all_splits o (build_tree o labels) word = Ok seqs ->
    forall s, In s seqs <-> split o labels true word s.
  Proof.
    intros Hs Hw H s. destruct (first_hyp_spec Hs) as (h & E & H1 & H2 & H3 & H4).
    unfold all_splits in H. rewrite E in H. cbn [bind] in H. apply Ok_inj in H. subst seqs.
    rewrite (char_sync_spec o labels Ho word [h] s); [|constructor; [exact H3|constructor]].
    rewrite <- (cont_iff_split word s Hw). unfold compl. rewrite <- H4. split.
    - intros (h' & [<-|[]] & seq & -> & Hc). rewrite H1. exact Hc.
    - intros Hc. exists h. split; [now left|]. exists s. rewrite H1. auto.
  Qed.

  Lemma sample_split_spec fuel sampler calls word :
    has_start o labels -> word <> [] -> 4 ^ length word < fuel ->
    exists r calls', sample_split fuel o (build_tree o labels) sampler calls word = Ok (r, calls') /\
      match r with
      | Some seq => split o labels true word seq
      | None => forall seq, ~ split o labels true word seq
      end.
  Proof.
    intros Hs Hw Hf. destruct (first_hyp_spec Hs) as (h & E & H1 & H2 & H3 & H4).
    unfold sample_split. rewrite E. cbn [bind].
    assert (Hc : forall x, compl o labels h word x <-> split o labels true word x).
    { intros x. rewrite <- (cont_iff_split word x Hw). unfold compl. rewrite H1, H4. cbn [app]. split.
      - intros (seq & -> & K). exact K.
      - intros K. eauto. }
    assert (Hl : 0 < length word) by (destruct word; [congruence|cbn; lia]).
    unfold add_hyp. rewrite H2. destruct (Nat.leb_spec (length word) 0); [lia|]. cbn [d_hyps d_final d_calls].
    destruct (dfs_loop_spec o labels Ho word (split o labels true word) sampler fuel
      {| d_hyps := [h]; d_final := None; d_calls := calls |}) as (r & calls' & R1 & R2).
    - unfold dmeas, hmeas. cbn [d_hyps map list_sum fold_right]. rewrite H2, Nat.sub_0_r, Nat.add_0_r. exact Hf.
    - split; [|split; [|split]]; cbn [d_hyps d_final].
      + constructor; [|constructor]. rewrite H2. auto.
      + discriminate.
      + intros h' x [<-|[]]. rewrite H2. apply Hc.
      + intros _ x Hx. exists h. split; [now left|]. rewrite H2. now apply Hc.
    - exists r, calls'. auto.
  Qed.

  Lemma sample_words_spec fuel unknown sampler words :
    has_start o labels -> Forall (fun w => w <> [] /\ 4 ^ length w < fuel) words ->
    forall calls,
    match sample_words fuel o (build_tree o labels) unknown sampler calls words with
    | Ok out => sentence_split o labels unknown words out
    | Err e => e = OtherException /\ (unknown = None \/ unknown = Some []) /\
        exists w, In w words /\ forall seq, ~ split o labels true w seq
    end.
  Proof.
    intros Hs. induction 1 as [|w words [Hw Hf] H IH]; intros calls; cbn [sample_words]; [constructor|].
    destruct (sample_split_spec fuel sampler calls w Hs Hw Hf) as (r & calls' & E & Hr). rewrite E. cbn [bind].
    specialize (IH calls'). destruct r as [seq|].
    - destruct (sample_words fuel o _ unknown sampler calls' words) as [out|e]; cbn [bind].
      + now constructor.
      + destruct IH as (K1 & K2 & w' & K3 & K4). split; [exact K1|]. split; [exact K2|]. exists w'.
        split; [now right|exact K4].
    - destruct unknown as [[|c u]|].
      + split; [reflexivity|]. split; [now right|]. exists w. split; [now left|exact Hr].
      + destruct (sample_words fuel o _ _ sampler calls' words) as [out|e]; cbn [bind].
        * apply ss_unknown; auto. discriminate.
        * destruct IH as (K1 & K2 & _). destruct K2; discriminate.
      + split; [reflexivity|]. split; [now left|]. exists w. split; [now left|exact Hr].
  Qed.
End Split.

(** reading the symbols of a split *)
Lemma split_decode o labels first word seq :
  o_merge o = Some at_at -> o_word_prefix o = None -> split o labels first word seq ->
  forall cur out, decode_from cur (seq ++ out) = (cur ++ word) :: decode_from [] out.
Proof.
  intros Hm Hw. assert (Hws : forall f, word_start o f = []) by (intros []; unfold word_start; [rewrite Hw|]; reflexivity).
  induction 1 as [first w H1 H2|first t w s seq H1 H2 H3 H4 IH]; intros cur out.
  - rewrite Hws in *. cbn [app decode_from]. destruct H2 as (_ & H2). rewrite Hm in H2.
    destruct (ends_with at_at w) eqn:E; [|reflexivity]. apply ends_with_inv in E. destruct E as (r & ->). now destruct (H2 r).
  - cbn [app decode_from]. destruct H3 as [(m & E1 & E2 & E3)|(E1 & _)]; [|congruence].
    rewrite Hm in E1. injection E1 as <-. rewrite Hws in E2. cbn [app] in E2. subst s.
    rewrite ends_with_app, app_length. replace (length t + length at_at - 2) with (length t) by (cbn; lia).
    rewrite firstn_app, Nat.sub_diag, firstn_all. cbn [firstn]. rewrite app_nil_r, IH. now rewrite <- app_assoc.
Qed.
Lemma split_concat o labels wp first word seq :
  o_merge o = None -> o_word_prefix o = Some wp -> split o labels first word seq ->
  concat seq = word_start o first ++ word.
Proof.
  intros Hm Hw. induction 1 as [first w H1 H2|first t w s seq H1 H2 H3 H4 IH].
  - cbn. now rewrite app_nil_r.
  - cbn [concat]. destruct H3 as [(m & E1 & _)|(_ & E2 & _)]; [congruence|].
    rewrite IH, E2. unfold word_start at 2. cbn [app]. now rewrite <- app_assoc.
Qed.
