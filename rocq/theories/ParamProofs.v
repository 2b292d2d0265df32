(** Proofs about parametrized parameters. *)
From Coq Require Import String.
From Verif Require Import Base PyDict ListLemmas ParamModel ParamSpec.
Local Open Scope nat_scope.

Section Proofs.
  Context {V S : Type}.
  Implicit Types (w : world V S) (m : module V S).

  Lemma in_base n (l : list string) : existsb (String.eqb n) l = true <-> In n l.
  Proof. rewrite existsb_exists. split; [intros (x & H & E); apply String.eqb_eq in E; now subst|intros H; exists n; split; [easy|apply String.eqb_refl]]. Qed.
  Lemma not_in_base n (l : list string) : existsb (String.eqb n) l = false <-> ~ In n l.
  Proof. rewrite <- in_base. destruct (existsb _ _); split; congruence. Qed.

  Definition prop_ok (i : nat) m (n : string) (pr : prop V S) : Prop :=
    pr_module pr = i /\ ~ In n (m_base m) /\ dget (m_attrs m) n = Some (match pr_orig pr with Some p => AParam p | None => ACall (pr_call pr) end).
  Record wf w : Prop := {
    wf_class : forall i m c, dget (w_mods w) i = Some m -> m_class m = Some c -> exists ps, dget (w_classes w) c = Some ps /\ dict_ok ps /\
                 forall n pr, dget ps n = Some pr -> prop_ok i m n pr;
    wf_owner : forall i j m m' c, dget (w_mods w) i = Some m -> dget (w_mods w) j = Some m' -> m_class m = Some c -> m_class m' = Some c -> i = j;
    wf_classes : forall c, dget (w_classes w) c <> None -> c < w_next w;
    wf_params : forall p, dget (w_params w) p <> None -> p < w_next w;
    wf_attr : forall i m n p, dget (w_mods w) i = Some m -> dget (m_attrs m) n = Some (AParam p) -> dget (w_params w) p <> None }.

  Lemma dget_neq_dset {K A} `{EqB K} (d : @dict K A) k v k' : dget (dset d k v) k' = if key_dec k k' then Some v else dget d k'.
  Proof. rewrite dget_dset. destruct (key_dec k k') as [-> |N]; [now rewrite keqb_refl|]. now rewrite (proj2 (keqb_neq _ _) N). Qed.

  Lemma start_wf w : start w -> wf w.
  Proof.
    intros (H1 & H2 & H3). split; try easy.
    - intros i m c Hm Hc. destruct (H1 i m Hm) as [X _]. congruence.
    - intros i j m m' c Hm _ Hc _. destruct (H1 i m Hm) as [X _]. congruence.
    - intros c. rewrite H2. easy.
    - intros i m n p Hm Hp. destruct (H1 i m Hm) as [_ X]. eauto.
  Qed.

  (** * primitive changes *)
  Lemma wf_new_class w i m : wf w -> dget (w_mods w) i = Some m -> m_class m = None ->
    wf (set_mod (set_class (fst (alloc w)) (w_next w) []) i (with_class m (Some (w_next w)))).
  Proof.
    intros [A B C D F] Hm HN. split; cbn [set_mod set_class alloc w_mods w_classes w_params w_next fst].
    - intros j m' c. rewrite !dget_neq_dset. destruct (key_dec i j) as [<- |N].
      + intros [= <-] Hc. cbn [with_class m_class] in Hc. apply (f_equal (fun o => match o with Some x => x | None => 0 end)) in Hc. subst c.
        exists []. split; [now destruct (key_dec (w_next w) (w_next w))|]. split; [constructor|]. easy.
      + intros Hj Hc. destruct (A j m' c Hj Hc) as (ps & E & X). exists ps. split; [|easy]. destruct (key_dec (w_next w) c) as [<- |_]; [|easy]. assert (X' : dget (w_classes w) (w_next w) <> None) by congruence. specialize (C _ X'). lia.
    - intros j k m1 m2 c. rewrite !dget_neq_dset. destruct (key_dec i j) as [<- |N], (key_dec i k) as [<- |N']; try easy.
      + intros [= <-] Hk X Hc. cbn [with_class m_class] in X. assert (c = w_next w) by congruence. subst c. clear X. destruct (A k m2 _ Hk Hc) as (ps & E & _). assert (X : dget (w_classes w) (w_next w) <> None) by congruence. specialize (C _ X). lia.
      + intros Hj [= <-] Hc X. cbn [with_class m_class] in X. assert (c = w_next w) by congruence. subst c. clear X. destruct (A j m1 _ Hj Hc) as (ps & E & _). assert (X : dget (w_classes w) (w_next w) <> None) by congruence. specialize (C _ X). lia.
      + eauto.
    - intros c. rewrite dget_neq_dset. destruct (key_dec (w_next w) c) as [<- |N]; [lia|]. intros X. specialize (C c X). lia.
    - intros p X. specialize (D p X). lia.
    - intros j m' n p. rewrite dget_neq_dset. destruct (key_dec i j) as [<- |N]; [intros [= <-]; cbn; eauto|eauto].
  Qed.
  Lemma wf_set_props w i m c ps' : wf w -> dget (w_mods w) i = Some m -> m_class m = Some c -> dict_ok ps' ->
    (forall n pr, dget ps' n = Some pr -> prop_ok i m n pr) -> wf (set_class w c ps').
  Proof.
    intros [A B C D F] Hm Hc HD HP. split; cbn [set_mod set_class w_mods w_classes w_params w_next]; eauto.
    - intros j m' c' Hj Hc'. rewrite dget_neq_dset. destruct (key_dec c c') as [<- |N]; [|eauto]. exists ps'. split; [easy|]. split; [easy|].
      assert (i = j) by eauto. subst j. rewrite Hm in Hj. injection Hj as <-. easy.
    - intros c'. rewrite dget_neq_dset. destruct (key_dec c c') as [<- |N]; [|eauto]. intros _. destruct (A i m c Hm Hc) as (ps & E & _). apply C. congruence.
  Qed.
  Lemma wf_set_param w p v : wf w -> p < w_next w -> wf (set_param w p v).
  Proof.
    intros [A B C D F] Hp. split; cbn [set_param w_mods w_classes w_params w_next]; eauto.
    - intros q. rewrite dget_neq_dset. destruct (key_dec p q) as [<- |N]; eauto.
    - intros i m n q Hm Hq. rewrite dget_neq_dset. destruct (key_dec p q); [easy|eauto].
  Qed.
  Lemma wf_set_own w o s : wf w -> wf (set_own w o s).
  Proof. intros [A B C D F]. split; cbn [set_own w_mods w_classes w_params w_next]; eauto. Qed.
  Lemma wf_alloc w : wf w -> wf (fst (alloc w)).
  Proof. intros [A B C D F]. split; cbn [alloc fst w_mods w_classes w_params w_next]; eauto; intros x Hx; [specialize (C x Hx)|specialize (D x Hx)]; lia. Qed.
  Lemma wf_set_attr w i m n a : wf w -> dget (w_mods w) i = Some m -> dget (class_props w (m_class m)) n = None ->
    (forall p, a = AParam p -> dget (w_params w) p <> None) -> wf (set_mod w i (with_attr m n a)).
  Proof.
    intros [A B C D F] Hm HN Ha. split; cbn [set_mod w_mods w_classes w_params w_next]; eauto.
    - intros j m' c. rewrite dget_neq_dset. destruct (key_dec i j) as [<- |N]; [|eauto]. intros [= <-] Hc. cbn [with_attr m_class] in Hc.
      destruct (A i m c Hm Hc) as (ps & E & HD & X). exists ps. split; [easy|]. split; [easy|]. intros k pr Hk. destruct (X k pr Hk) as (P1 & P2 & P3).
      split; [easy|]. split; [easy|]. cbn [with_attr m_attrs]. rewrite dget_dset_neq; [easy|]. intros <-. unfold class_props in HN. rewrite Hc, E in HN. congruence.
    - intros j k m1 m2 c. rewrite !dget_neq_dset. destruct (key_dec i j) as [<- |N], (key_dec i k) as [<- |N']; try easy; [intros [= <-]|intros ? [= <-]|]; cbn [with_attr m_class]; eauto.
    - intros j m' k p. rewrite dget_neq_dset. destruct (key_dec i j) as [<- |N]; [|eauto]. intros [= <-]. cbn [with_attr m_attrs]. rewrite dget_neq_dset.
      destruct (key_dec n k); [|eauto]. intros [= ->]. eauto.
  Qed.
  Lemma wf_revert w i m : wf w -> dget (w_mods w) i = Some m -> wf (set_mod w i (with_class m None)).
  Proof.
    intros [A B C D F] Hm. split; cbn [set_mod w_mods w_classes w_params w_next]; eauto.
    - intros j m' c. rewrite dget_neq_dset. destruct (key_dec i j) as [<- |N]; [intros [= <-]; easy|eauto].
    - intros j k m1 m2 c. rewrite !dget_neq_dset. destruct (key_dec i j) as [<- |N], (key_dec i k) as [<- |N']; try easy; [intros [= <-]; easy|intros ? [= <-]; easy|eauto].
    - intros j m' k p. rewrite dget_neq_dset. destruct (key_dec i j) as [<- |N]; [intros [= <-]; cbn; eauto|eauto].
  Qed.
  Lemma props_ok w i m n pr : wf w -> dget (w_mods w) i = Some m -> dget (class_props w (m_class m)) n = Some pr -> prop_ok i m n pr.
  Proof.
    intros H Hm Hp. unfold class_props in Hp. destruct (m_class m) as [c|] eqn:Hc; [|easy]. destruct (wf_class _ H i m c Hm Hc) as (ps & E & _ & X). rewrite E in Hp. eauto.
  Qed.
  Lemma props_dict w i m : wf w -> dget (w_mods w) i = Some m -> dict_ok (class_props w (m_class m)).
  Proof.
    intros H Hm. unfold class_props. destruct (m_class m) as [c|] eqn:Hc; [|constructor]. destruct (wf_class _ H i m c Hm Hc) as (ps & E & X & _). now rewrite E.
  Qed.

  (** * views: what an attribute access of a module depends on *)
  Definition view w (i : nat) : option (module V S * @dict string (prop V S)) :=
    match dget (w_mods w) i with None => None | Some m => Some (m, class_props w (m_class m)) end.
  Definition get_view w (i : nat) (v : option (module V S * @dict string (prop V S))) (n : string) : res (result V) :=
    match v with
    | None => Err KeyError
    | Some (m, ps) =>
        match dget ps n with
        | Some pr => let* _ := assert_ (pr_module pr =? i) in let* v := call_it w (pr_call pr) (pr_orig pr) in Ok (RTensor v)
        | None => match dget (m_attrs m) n with Some (AParam p) => Ok (RParam p) | Some _ => Ok RObject
                  | None => if existsb (String.eqb n) (m_base m) then Ok RObject else Err OtherException end
        end
    end.
  Lemma get_of_view w i n : get w i n = get_view w i (view w i) n.
  Proof. unfold get, get_view, view. now destruct (dget (w_mods w) i). Qed.
  Lemma view_set_mod w i m j : view (set_mod w i m) j = if key_dec i j then Some (m, class_props w (m_class m)) else view w j.
  Proof. unfold view. cbn [set_mod w_mods]. rewrite dget_neq_dset. now destruct (key_dec i j). Qed.
  Lemma view_set_class w i m c ps j : wf w -> dget (w_mods w) i = Some m -> m_class m = Some c ->
    view (set_class w c ps) j = if key_dec i j then Some (m, ps) else view w j.
  Proof.
    intros H Hm Hc. unfold view. cbn [set_class w_mods]. destruct (key_dec i j) as [<- |N].
    - rewrite Hm. f_equal. f_equal. rewrite Hc. cbn [class_props set_class w_classes]. now rewrite dget_dset_eq.
    - destruct (dget (w_mods w) j) as [m'|] eqn:Hj; [|easy]. f_equal. f_equal. unfold class_props. destruct (m_class m') as [c'|] eqn:Hc'; [|easy]. cbn [set_class w_classes].
      rewrite dget_dset_neq; [easy|]. intros <-. apply N. exact (wf_owner _ H _ _ _ _ _ Hm Hj Hc Hc').
  Qed.
  Lemma view_set_param w p v j : view (set_param w p v) j = view w j. Proof. reflexivity. Qed.
  Lemma view_set_own w o s j : view (set_own w o s) j = view w j. Proof. reflexivity. Qed.
  Lemma view_alloc w j : view (fst (alloc w)) j = view w j. Proof. reflexivity. Qed.

  (** the module gets its own class, if it has none yet: nothing can be seen of this *)
  Definition with_own_class w i m : world V S * module V S * nat :=
    match m_class m with
    | Some c => (w, m, c)
    | None => (set_mod (set_class (fst (alloc w)) (w_next w) []) i (with_class m (Some (w_next w))), with_class m (Some (w_next w)), w_next w)
    end.
  Lemma own_class w i m : wf w -> dget (w_mods w) i = Some m ->
    let '(w1, m1, c) := with_own_class w i m in
    wf w1 /\ dget (w_mods w1) i = Some m1 /\ m_class m1 = Some c /\ m_base m1 = m_base m /\ m_attrs m1 = m_attrs m /\ class_props w1 (Some c) = class_props w (m_class m) /\
    (forall j, i <> j -> view w1 j = view w j) /\ w_params w1 = w_params w /\ w_own w1 = w_own w.
  Proof.
    intros H Hm. unfold with_own_class. destruct (m_class m) as [c|] eqn:Hc; [split; [exact H|]; repeat split; easy|].
    assert (W := wf_new_class w i m H Hm Hc). split; [exact W|]. cbn [set_mod w_mods with_class m_class m_base m_attrs w_params w_own set_class alloc fst].
    rewrite dget_dset_eq. repeat split; try easy.
    - cbn [class_props set_mod set_class w_classes alloc fst]. now rewrite dget_dset_eq.
    - intros j N. rewrite view_set_mod. destruct (key_dec i j) as [X|_]; [easy|].
      unfold view. cbn [set_class alloc fst w_mods]. destruct (dget (w_mods w) j) as [m'|] eqn:Hj; [|easy]. f_equal. f_equal. unfold class_props.
      destruct (m_class m') as [c'|] eqn:Hc'; [|easy]. cbn [set_class alloc fst w_classes]. rewrite dget_dset_neq; [easy|]. intros <-.
      destruct (wf_class _ H j m' _ Hj Hc') as (ps & E & _). assert (X : dget (w_classes w) (w_next w) <> None) by congruence. apply (wf_classes _ H) in X. lia.
  Qed.
  Lemma register_eq w i n pz keep : register w i n pz keep =
    match dget (w_mods w) i with
    | None => (w, Err KeyError)
    | Some m =>
        let '(w, m, c) := with_own_class w i m in
        if class_has w m n then (w, Err ValueError)
        else
          match dget (m_attrs m) n with
          | None => (w, Err OtherException)
          | Some (AParam p) =>
              if keep then
                match pz with
                | Transform _ (Datatypes.S _) => (w, Err ValueError)
                | _ => (set_class w c (dset (class_props w (Some c)) n {| pr_module := i; pr_call := pz; pr_orig := Some p |}), Ok tt)
                end
              else
                let w := match pz, dget (w_params w) p with Own o _ (Some a), Some v => set_own w o (a v) | _, _ => w end in
                let w := set_mod w i (with_attr m n (ACall pz)) in
                (set_class w c (dset (class_props w (Some c)) n {| pr_module := i; pr_call := pz; pr_orig := None |}), Ok tt)
          | Some _ => (w, Err TypeError)
          end
    end.
  Proof. unfold register, with_own_class. destruct (dget (w_mods w) i) as [m|]; [|easy]. now destruct (m_class m). Qed.

  Lemma class_has_false w m n : class_has w m n = false <-> ~ In n (m_base m) /\ dget (class_props w (m_class m)) n = None.
  Proof.
    unfold class_has, dhas. rewrite orb_false_iff, not_in_base. destruct (dget (class_props w (m_class m)) n); split; intros [X Y]; easy.
  Qed.
  Lemma dset_props_ok w i m c n pr : wf w -> dget (w_mods w) i = Some m -> m_class m = Some c -> prop_ok i m n pr ->
    wf (set_class w c (dset (class_props w (Some c)) n pr)).
  Proof.
    intros H Hm Hc HP. eapply wf_set_props; eauto.
    - apply dict_ok_dset. rewrite <- Hc. eapply props_dict; eauto.
    - intros k pr'. rewrite dget_neq_dset. destruct (key_dec n k) as [<- |N]; [now intros [= <-]|]. rewrite <- Hc. eapply props_ok; eauto.
  Qed.
  Lemma ddel_props_ok w i m c n : wf w -> dget (w_mods w) i = Some m -> m_class m = Some c -> wf (set_class w c (ddel (class_props w (Some c)) n)).
  Proof.
    intros H Hm Hc. assert (HD : dict_ok (class_props w (Some c))) by (rewrite <- Hc; eapply props_dict; eauto). eapply wf_set_props; eauto.
    - now apply dict_ok_ddel.
    - intros k pr'. rewrite dget_ddel by easy. destruct (keqb n k); [easy|]. rewrite <- Hc. eapply props_ok; eauto.
  Qed.

  Definition pz_ok (pz : parametrization V S) (keep : bool) : Prop := keep = true -> match pz with Transform _ k => k = 0 | _ => True end.
  (** the effect of a successful registration *)
  Lemma register_ok w i m n p pz keep : wf w -> dget (w_mods w) i = Some m -> ~ In n (m_base m) -> dget (class_props w (m_class m)) n = None ->
    dget (m_attrs m) n = Some (AParam p) -> pz_ok pz keep ->
    exists w' m', register w i n pz keep = (w', Ok tt) /\ wf w' /\ (forall j, i <> j -> view w' j = view w j) /\
      view w' i = Some (m', dset (class_props w (m_class m)) n {| pr_module := i; pr_call := pz; pr_orig := if keep then Some p else None |}) /\
      m_base m' = m_base m /\ m_class m' <> None /\ m_attrs m' = (if keep then m_attrs m else dset (m_attrs m) n (ACall pz)) /\
      w_params w' = w_params w /\
      w_own w' = match keep, pz, dget (w_params w) p with false, Own o _ (Some a), Some v => dset (w_own w) o (a v) | _, _, _ => w_own w end.
  Proof.
    intros H Hm Hb Hn Hp Hz. rewrite register_eq, Hm. assert (OC := own_class w i m H Hm). destruct (with_own_class w i m) as [[w1 m1] c].
    destruct OC as (H1 & Hm1 & Hc1 & Eb & Ea & Ep & Hv & E1 & E2).
    assert (HN : class_has w1 m1 n = false) by (apply class_has_false; rewrite Eb, Hc1, Ep; easy). rewrite HN, Ea, Hp.
    destruct keep.
    - set (pr := {| pr_module := i; pr_call := pz; pr_orig := Some p |}).
      assert (HP : prop_ok i m1 n pr) by (split; [easy|]; split; [now rewrite Eb|now rewrite Ea]).
      exists (set_class w1 c (dset (class_props w1 (Some c)) n pr)), m1.
      split; [specialize (Hz eq_refl); destruct pz as [f [|k]|]; [easy|discriminate|easy]|].
      split; [eapply dset_props_ok; eauto|]. split; [|split; [|repeat split; try easy; congruence]].
      + intros j N. rewrite (view_set_class w1 i m1 c) by easy. destruct (key_dec i j); [easy|]. now apply Hv.
      + rewrite (view_set_class w1 i m1 c) by easy. destruct (key_dec i i); [|easy]. now rewrite Ep.
    - set (w2 := match pz, dget (w_params w1) p with Own o _ (Some a), Some v => set_own w1 o (a v) | _, _ => w1 end).
      set (pr := {| pr_module := i; pr_call := pz; pr_orig := None |}).
      assert (X2 : wf w2 /\ (forall j, view w2 j = view w1 j) /\ w_mods w2 = w_mods w1 /\ w_params w2 = w_params w /\ (forall c, class_props w2 c = class_props w1 c) /\
                   w_own w2 = match pz, dget (w_params w) p with Own o _ (Some a), Some v => dset (w_own w) o (a v) | _, _ => w_own w end).
      { unfold w2. rewrite E1. destruct pz as [f k|o g [a|]]; [easy| |easy]. destruct (dget (w_params w) p); [|easy].
        split; [now apply wf_set_own|]. cbn [set_own w_own w_mods w_params]. rewrite E2. easy. }
      destruct X2 as (H2 & V2 & M2 & P2 & C2 & O2). clearbody w2. set (m3 := with_attr m1 n (ACall pz)). set (w3 := set_mod w2 i m3).
      assert (Hm2 : dget (w_mods w2) i = Some m1) by congruence.
      assert (H3 : wf w3) by (apply wf_set_attr; [easy|easy|now rewrite C2, Hc1, Ep|easy]).
      assert (Hm3 : dget (w_mods w3) i = Some m3) by (unfold w3; cbn [set_mod w_mods]; apply dget_dset_eq).
      assert (C3 : forall c, class_props w3 c = class_props w1 c) by (intros c'; rewrite <- C2; reflexivity).
      assert (HP : prop_ok i m3 n pr) by (split; [easy|]; split; [cbn; now rewrite Eb|cbn [m3 with_attr m_attrs]; apply dget_dset_eq]).
      eexists (set_class w3 c (dset (class_props w3 (Some c)) n pr)), m3. split; [easy|].
      split; [eapply dset_props_ok; eauto|]. split; [|split; [|repeat split; try easy]].
      + intros j N. rewrite (view_set_class w3 i m3 c) by easy. destruct (key_dec i j); [easy|]. unfold w3. rewrite view_set_mod. destruct (key_dec i j); [easy|].
        rewrite V2. now apply Hv.
      + rewrite (view_set_class w3 i m3 c) by easy. destruct (key_dec i i); [|easy]. now rewrite C3, Ep.
      + cbn. congruence.
      + cbn [m3 with_attr m_attrs]. now rewrite Ea.
  Qed.
  Lemma register_wf w i n pz keep : wf w -> wf (fst (register w i n pz keep)).
  Proof.
    intros H. destruct (dget (w_mods w) i) as [m|] eqn:Hm; [|rewrite register_eq, Hm; easy].
    assert (OC := own_class w i m H Hm).
    destruct (class_has w m n) eqn:HC.
    { rewrite register_eq, Hm. destruct (with_own_class w i m) as [[w1 m1] c]. destruct OC as (H1 & Hm1 & Hc1 & Eb & Ea & Ep & _).
      destruct (class_has w1 m1 n) eqn:HN; [easy|]. apply class_has_false in HN. rewrite Eb, Hc1, Ep in HN. apply class_has_false in HN. congruence. }
    apply class_has_false in HC as HC'. destruct HC' as [X1 X2].
    destruct (dget (m_attrs m) n) as [[p|pz'|]|] eqn:Ha.
    - destruct (match pz with Transform _ (Datatypes.S _) => keep | _ => false end) eqn:Ez.
      + rewrite register_eq, Hm. destruct (with_own_class w i m) as [[w1 m1] c]. destruct OC as (H1 & Hm1 & Hc1 & Eb & Ea & Ep & _). rewrite Ea, Ha.
        destruct (class_has w1 m1 n); [easy|]. destruct pz as [f [|k]|]; try easy. now rewrite Ez.
      + destruct (register_ok w i m n p pz keep H Hm X1 X2 Ha) as (w' & m' & E & W & _).
        { intros ->. destruct pz as [f [|k]|]; easy. }
        now rewrite E.
    - rewrite register_eq, Hm. destruct (with_own_class w i m) as [[w1 m1] c]. destruct OC as (H1 & Hm1 & Hc1 & Eb & Ea & Ep & _). rewrite Ea, Ha. now destruct (class_has w1 m1 n).
    - rewrite register_eq, Hm. destruct (with_own_class w i m) as [[w1 m1] c]. destruct OC as (H1 & Hm1 & Hc1 & Eb & Ea & Ep & _). rewrite Ea, Ha. now destruct (class_has w1 m1 n).
    - rewrite register_eq, Hm. destruct (with_own_class w i m) as [[w1 m1] c]. destruct OC as (H1 & Hm1 & Hc1 & Eb & Ea & Ep & _). rewrite Ea, Ha. now destruct (class_has w1 m1 n).
  Qed.

  Lemma set_wf w i n v : wf w -> wf (fst (set w i n v)).
  Proof.
    intros H. unfold set. destruct (dget (w_mods w) i) as [m|] eqn:Hm; [|easy]. destruct (dget (class_props w (m_class m)) n) as [pr|] eqn:Hn.
    - destruct (props_ok w i m n pr H Hm Hn) as (P1 & P2 & P3). destruct (pr_module pr =? i); [|easy]. destruct (pr_orig pr) as [p|].
      + apply wf_set_param; [easy|]. apply (wf_params _ H). eapply (wf_attr _ H); eauto.
      + destruct (pr_call pr) as [|o g [a|]]; try easy. now apply wf_set_own.
    - apply wf_set_attr; easy.
  Qed.

  (** the effect of a successful removal *)
  Definition removed w i (ps : @dict string (prop V S)) m' (w' : world V S) : Prop :=
    wf w' /\ (forall j, i <> j -> view w' j = view w j) /\ exists m2, view w' i = Some (m2, ps) /\ m_base m2 = m_base m' /\ m_attrs m2 = m_attrs m' /\ (m_class m2 = None <-> ps = []).
  Lemma revert_ok w w0 i m c ps : wf w -> dget (w_mods w) i = Some m -> m_class m = Some c -> class_props w (Some c) = ps -> (forall j, i <> j -> view w j = view w0 j) ->
    removed w0 i ps m (match ps with [] => set_mod w i (with_class m None) | _ => w end).
  Proof.
    intros H Hm Hc Hps Hv. destruct ps as [|x ps].
    - split; [now apply wf_revert|]. split.
      + intros j N. rewrite view_set_mod. destruct (key_dec i j); [easy|]. now apply Hv.
      + exists (with_class m None). rewrite view_set_mod. destruct (key_dec i i); easy.
    - split; [easy|]. split; [easy|]. exists m. unfold view. rewrite Hm, Hc, Hps. easy.
  Qed.
  Lemma remove_keep w i m n pr p : wf w -> dget (w_mods w) i = Some m -> dget (class_props w (m_class m)) n = Some pr -> pr_orig pr = Some p ->
    exists w', remove w i n = (w', Ok tt) /\ removed w i (ddel (class_props w (m_class m)) n) m w' /\ w_params w' = w_params w /\ w_own w' = w_own w.
  Proof.
    intros H Hm Hn Ho. unfold remove. rewrite Hm. destruct (m_class m) as [c|] eqn:Hc; [|easy]. rewrite Hn, Ho.
    set (ps := ddel (class_props w (Some c)) n). set (w1 := set_class w c ps).
    assert (H1 : wf w1) by (eapply ddel_props_ok; eauto). eexists. split; [reflexivity|]. split.
    - apply revert_ok with c; try easy.
      + unfold w1. cbn [class_props set_class w_classes]. now rewrite dget_dset_eq.
      + intros j N. unfold w1. rewrite (view_set_class w i m c) by easy. now destruct (key_dec i j).
    - destruct ps; easy.
  Qed.
  Lemma remove_own w i m n pr v : wf w -> dget (w_mods w) i = Some m -> dget (class_props w (m_class m)) n = Some pr -> pr_orig pr = None -> call_it w (pr_call pr) None = Ok v ->
    exists w' p, remove w i n = (w', Ok tt) /\ removed w i (ddel (class_props w (m_class m)) n) (with_attr m n (AParam p)) w' /\
      w_params w' = dset (w_params w) p v /\ dget (w_params w) p = None /\ w_own w' = w_own w.
  Proof.
    intros H Hm Hn Ho Hv. unfold remove. rewrite Hm. destruct (m_class m) as [c|] eqn:Hc; [|easy]. rewrite Hn, Ho.
    assert (HDk : dict_ok (class_props w (Some c))) by (rewrite <- Hc; eapply props_dict; eauto).
    set (ps := ddel (class_props w (Some c)) n). set (w1 := set_class w c ps).
    assert (H1 : wf w1) by (eapply ddel_props_ok; eauto).
    assert (Hv1 : call_it w1 (pr_call pr) None = Ok v) by (destruct (pr_call pr); exact Hv). rewrite Hv1. cbn [alloc].
    assert (EN : w_next w1 = w_next w) by easy. rewrite EN.
    set (w2 := {| w_mods := w_mods w1; w_classes := w_classes w1; w_params := w_params w1; w_own := w_own w1; w_next := 1 + w_next w |}).
    assert (H2 : wf w2) by (apply (wf_alloc w1 H1)). set (w3 := set_param w2 (w_next w) v).
    assert (H3 : wf w3) by (apply wf_set_param; [easy|unfold w2; cbn; lia]).
    assert (Hm3 : dget (w_mods w3) i = Some m) by easy.
    assert (HC3 : class_props w3 (Some c) = ps) by (unfold w3, w2, w1; cbn [class_props set_param set_class w_classes]; now rewrite dget_dset_eq).
    assert (H4 : wf (set_mod w3 i (with_attr m n (AParam (w_next w))))).
    { apply wf_set_attr; try easy.
      - rewrite Hc, HC3. unfold ps. rewrite dget_ddel by easy. now rewrite keqb_refl.
      - intros p [= <-]. unfold w3. cbn [set_param w_params]. now rewrite dget_dset_eq. }
    eexists. exists (w_next w). split; [reflexivity|]. split; [|split; [|split]].
    - apply revert_ok with c; try easy.
      + cbn [set_mod w_mods]. apply dget_dset_eq.
      + intros j N. rewrite view_set_mod. destruct (key_dec i j); [easy|]. change (view w3 j) with (view w1 j). unfold w1. rewrite (view_set_class w i m c) by easy. now destruct (key_dec i j).
    - destruct ps; easy.
    - destruct (dget (w_params w) (w_next w)) eqn:E; [|easy]. assert (X : dget (w_params w) (w_next w) <> None) by congruence. apply (wf_params _ H) in X. lia.
    - destruct ps; easy.
  Qed.
  Lemma remove_wf w i n : wf w -> wf (fst (remove w i n)).
  Proof.
    intros H. destruct (dget (w_mods w) i) as [m|] eqn:Hm; [|unfold remove; rewrite Hm; easy]. destruct (dget (class_props w (m_class m)) n) as [pr|] eqn:Hn.
    - destruct (pr_orig pr) as [p|] eqn:Ho.
      + destruct (remove_keep w i m n pr p H Hm Hn Ho) as (w' & E & (W & _) & _). now rewrite E.
      + destruct (call_it w (pr_call pr) None) as [v|e] eqn:Ev.
        * destruct (remove_own w i m n pr v H Hm Hn Ho Ev) as (w' & p & E & (W & _) & _). now rewrite E.
        * unfold remove. rewrite Hm. destruct (m_class m) as [c|] eqn:Hc; [|easy]. rewrite Hn, Ho.
          assert (Ev1 : call_it (set_class w c (ddel (class_props w (Some c)) n)) (pr_call pr) None = Err e) by (destruct (pr_call pr); exact Ev).
          rewrite Ev1. cbn [fst]. eapply ddel_props_ok; eauto.
    - unfold remove. rewrite Hm. destruct (m_class m) as [c|]; [|easy]. now rewrite Hn.
  Qed.
  Lemma reachable_wf w : reachable w -> wf w.
  Proof. induction 1 as [w H|w w' _ IH H]; [now apply start_wf|]. destruct H; [now apply register_wf|now apply remove_wf|now apply set_wf]. Qed.

  (** * the operations, in every reachable state *)
  Lemma view_inv w i m ps : view w i = Some (m, ps) -> dget (w_mods w) i = Some m /\ class_props w (m_class m) = ps.
  Proof. unfold view. destruct (dget (w_mods w) i) as [m'|]; [|easy]. intros [= -> <-]. easy. Qed.
  Lemma call_same w w' pz orig : w_params w' = w_params w -> w_own w' = w_own w -> call_it w' pz orig = call_it w pz orig.
  Proof. intros E1 E2. unfold call_it. now rewrite E1, E2. Qed.
  Lemma get_same w w' i n : view w' i = view w i -> w_params w' = w_params w -> w_own w' = w_own w -> get w' i n = get w i n.
  Proof.
    intros Ev E1 E2. rewrite !get_of_view, Ev. unfold get_view. destruct (view w i) as [[m ps]|]; [|easy]. destruct (dget ps n) as [pr|]; [|easy].
    now rewrite (call_same w w').
  Qed.
  Lemma plain_inv w i n p : plain_param w i n p -> exists m, dget (w_mods w) i = Some m /\ ~ In n (m_base m) /\ dget (m_attrs m) n = Some (AParam p) /\ dget (class_props w (m_class m)) n = None.
  Proof.
    intros [HN (m & Hm & Hb & Ha)]. exists m. repeat split; try easy. destruct (dget (class_props w (m_class m)) n) as [pr|] eqn:E; [|easy].
    exfalso. apply (HN (pr_call pr) (pr_orig pr)). now exists m, pr.
  Qed.
  Lemma names_same w w' i : (match view w' i, view w i with Some (m', _), Some (m, _) => m_attrs m' = m_attrs m | None, None => True | _, _ => False end) ->
    named_params w' i = named_params w i.
  Proof. unfold named_params, view. destruct (dget (w_mods w') i) as [m'|], (dget (w_mods w) i) as [m|]; try easy. now intros ->. Qed.

  Lemma read_keep w i n f k p : reachable w -> parametrized w i n (Transform f k) (Some p) ->
    exists v, value w p = Some v /\ get w i n = Ok (RTensor (f v)) /\ In (n, p) (named_params w i).
  Proof.
    intros R (m & pr & Hm & Hn & Ec & Eo). apply reachable_wf in R as W. destruct (props_ok w i m n pr W Hm Hn) as (P1 & P2 & P3). rewrite Eo in P3.
    destruct (dget (w_params w) p) as [v|] eqn:Ev; [|exfalso; exact (wf_attr _ W i m n p Hm P3 Ev)]. exists v. split; [easy|]. split.
    - unfold get. rewrite Hm, Hn, P1, Nat.eqb_refl, Ec, Eo. cbn [assert_ bind call_it]. now rewrite Ev.
    - unfold named_params. rewrite Hm. apply in_flat_map. exists (n, AParam p). split; [now apply dget_In|now left].
  Qed.
  Lemma read_own w i n o g a s : reachable w -> parametrized w i n (Own o g a) None -> state_of w o = Some s -> get w i n = Ok (RTensor (g s)).
  Proof.
    intros R (m & pr & Hm & Hn & Ec & Eo) Es. apply reachable_wf in R as W. destruct (props_ok w i m n pr W Hm Hn) as (P1 & P2 & P3).
    unfold get. rewrite Hm, Hn, P1, Nat.eqb_refl, Ec, Eo. cbn [assert_ bind call_it]. unfold state_of in Es. now rewrite Es.
  Qed.

  Lemma register_keep w i n p f : reachable w -> plain_param w i n p ->
    exists w', register w i n (Transform f 0) true = (w', Ok tt) /\ reachable w' /\ parametrized w' i n (Transform f 0) (Some p) /\
      same_attrs_except w w' i n /\ same_values w w' /\ same_states w w' /\ forall j, named_params w' j = named_params w j.
  Proof.
    intros R HP. apply reachable_wf in R as W. destruct (plain_inv _ _ _ _ HP) as (m & Hm & Hb & Ha & Hn).
    destruct (register_ok w i m n p (Transform f 0) true W Hm Hb Hn Ha) as (w' & m' & E & W' & Hv & Hvi & Eb & Ecl & Ea & E1 & E2); [easy|].
    exists w'. split; [easy|]. split; [eapply reach_step; [exact R|]; rewrite <- (f_equal fst E : _ = w'); constructor|].
    destruct (view_inv _ _ _ _ Hvi) as [Hm' Hps]. split; [|split; [|split; [|split]]].
    - exists m'. eexists. split; [easy|]. rewrite Hps, dget_dset_eq. split; [reflexivity|easy].
    - intros j k N. destruct (Nat.eq_dec i j) as [<- |Nj]; [|apply get_same; [now apply Hv|easy|easy]].
      assert (Nk : n <> k) by congruence. rewrite !get_of_view, Hvi. unfold get_view, view. rewrite Hm, dget_dset_neq by easy. rewrite Ea, Eb.
      destruct (dget (class_props w (m_class m)) k); [|easy]. now rewrite (call_same w w').
    - intros q. unfold value. now rewrite E1.
    - intros q. unfold state_of. now rewrite E2.
    - intros j. apply names_same. destruct (Nat.eq_dec i j) as [<- |Nj]; [rewrite Hvi; unfold view; now rewrite Hm|rewrite (Hv j Nj); now destruct (view w j) as [[? ?]|]].
  Qed.
  Lemma register_own w i n p v o g a : reachable w -> plain_param w i n p -> value w p = Some v ->
    exists w', register w i n (Own o g a) false = (w', Ok tt) /\ reachable w' /\ parametrized w' i n (Own o g a) None /\
      (forall j k, (j, k) <> (i, n) -> (forall g' a', ~ parametrized w j k (Own o g' a') None) -> get w' j k = get w j k) /\ same_values w w' /\
      (forall o', o' <> o -> state_of w' o' = state_of w o') /\
      state_of w' o = match a with Some a => Some (a v) | None => state_of w o end.
  Proof.
    intros R HP Hval. apply reachable_wf in R as W. destruct (plain_inv _ _ _ _ HP) as (m & Hm & Hb & Ha & Hn).
    destruct (register_ok w i m n p (Own o g a) false W Hm Hb Hn Ha) as (w' & m' & E & W' & Hv & Hvi & Eb & Ecl & Ea & E1 & E2); [easy|].
    exists w'. split; [easy|]. split; [eapply reach_step; [exact R|]; rewrite <- (f_equal fst E : _ = w'); constructor|].
    destruct (view_inv _ _ _ _ Hvi) as [Hm' Hps]. unfold value in Hval. rewrite Hval in E2.
    assert (EO : forall o', o' <> o -> state_of w' o' = state_of w o').
    { intros o' N. unfold state_of. rewrite E2. destruct a; [|easy]. now rewrite dget_dset_neq by congruence. }
    assert (EC : forall pz orig, (forall g' a', ~ (pz = Own o g' a' /\ orig = None)) -> call_it w' pz orig = call_it w pz orig).
    { intros pz orig N. unfold call_it. rewrite E1. destruct pz as [|o' g' a']; [easy|]. destruct orig; [easy|]. specialize (EO o'). unfold state_of in EO.
      rewrite EO; [easy|]. intros ->. now apply (N g' a'). }
    split; [|split; [|split; [|split]]].
    - exists m'. eexists. split; [easy|]. rewrite Hps, dget_dset_eq. split; [reflexivity|easy].
    - intros j k N HU. destruct (Nat.eq_dec i j) as [<- |Nj].
      + assert (Nk : n <> k) by congruence. rewrite !get_of_view, Hvi. unfold get_view, view. rewrite Hm, dget_dset_neq by easy. rewrite Ea, Eb, dget_dset_neq by easy.
        destruct (dget (class_props w (m_class m)) k) as [pr|] eqn:Ek; [|easy]. rewrite EC; [easy|]. intros g' a' [X Y]. apply (HU g' a'). now exists m, pr.
      + rewrite !get_of_view, (Hv j Nj). unfold get_view. destruct (view w j) as [[mj ps]|] eqn:Vj; [|easy]. destruct (view_inv _ _ _ _ Vj) as [Hmj Hpj].
        destruct (dget ps k) as [pr|] eqn:Ek; [|easy]. rewrite EC; [easy|]. intros g' a' [X Y]. apply (HU g' a'). exists mj, pr. now rewrite Hpj.
    - intros q. unfold value. now rewrite E1.
    - exact EO.
    - unfold state_of. rewrite E2. destruct a; [apply dget_dset_eq|easy].
  Qed.

  Lemma get_same_values w w' j k : view w' j = view w j -> (forall m pr, dget (w_mods w) j = Some m -> dget (class_props w (m_class m)) k = Some pr ->
      call_it w' (pr_call pr) (pr_orig pr) = call_it w (pr_call pr) (pr_orig pr)) -> get w' j k = get w j k.
  Proof.
    intros Ev H. rewrite !get_of_view, Ev. unfold get_view. destruct (view w j) as [[m ps]|] eqn:E; [|easy]. destruct (view_inv _ _ _ _ E) as [Hm Hp].
    destruct (dget ps k) as [pr|] eqn:Ek; [|easy]. rewrite (H m pr); [easy|easy|]. now rewrite Hp.
  Qed.
  Lemma write_keep w i n pz p v : reachable w -> parametrized w i n pz (Some p) ->
    exists w', set w i n v = (w', Ok tt) /\ reachable w' /\ value w' p = Some v /\ (forall q, q <> p -> value w' q = value w q) /\ same_states w w' /\
      (forall j k pz' orig, parametrized w' j k pz' orig <-> parametrized w j k pz' orig) /\ (forall j, named_params w' j = named_params w j).
  Proof.
    intros R (m & pr & Hm & Hn & Ec & Eo). apply reachable_wf in R as W. destruct (props_ok w i m n pr W Hm Hn) as (P1 & P2 & P3).
    assert (E : set w i n v = (set_param w p v, Ok tt)) by (unfold set; now rewrite Hm, Hn, P1, Nat.eqb_refl, Eo).
    exists (set_param w p v). split; [easy|]. split; [eapply reach_step; [exact R|]; rewrite <- (f_equal fst E : _ = set_param w p v); constructor|].
    unfold value. cbn [set_param w_params]. rewrite dget_dset_eq. split; [easy|]. split; [intros q N; now rewrite dget_dset_neq by congruence|]. easy.
  Qed.
  Lemma write_own w i n o g a v : reachable w -> parametrized w i n (Own o g a) None ->
    match a with
    | None => set w i n v = (w, Err OtherException)
    | Some a => exists w', set w i n v = (w', Ok tt) /\ reachable w' /\ same_values w w' /\ state_of w' o = Some (a v) /\ (forall q, q <> o -> state_of w' q = state_of w q) /\
        (forall j k pz' orig, parametrized w' j k pz' orig <-> parametrized w j k pz' orig)
    end.
  Proof.
    intros R (m & pr & Hm & Hn & Ec & Eo). apply reachable_wf in R as W. destruct (props_ok w i m n pr W Hm Hn) as (P1 & P2 & P3).
    assert (E : set w i n v = match a with None => (w, Err OtherException) | Some a => (set_own w o (a v), Ok tt) end) by (unfold set; rewrite Hm, Hn, P1, Nat.eqb_refl, Eo, Ec; now destruct a).
    destruct a as [a|]; [|easy].
    exists (set_own w o (a v)). split; [easy|]. split; [eapply reach_step; [exact R|]; rewrite <- (f_equal fst E : _ = set_own w o (a v)); constructor|].
    unfold state_of. cbn [set_own w_own]. rewrite dget_dset_eq. split; [easy|]. split; [easy|]. split; [intros q N; now rewrite dget_dset_neq by congruence|]. easy.
  Qed.

  Lemma other_parametrized w i m n : wf w -> dget (w_mods w) i = Some m ->
    (ddel (class_props w (m_class m)) n <> [] <-> exists k pz orig, k <> n /\ parametrized w i k pz orig).
  Proof.
    intros W Hm. assert (HD := props_dict w i m W Hm). split.
    - intros X. destruct (ddel (class_props w (m_class m)) n) as [|[k pr] ps] eqn:E; [easy|]. exists k, (pr_call pr), (pr_orig pr).
      assert (G : dget (ddel (class_props w (m_class m)) n) k = Some pr) by (rewrite E; cbn [dget]; now rewrite keqb_refl).
      rewrite dget_ddel in G by easy. destruct (keqb n k) eqn:Ek; [easy|]. apply keqb_neq in Ek. split; [congruence|]. now exists m, pr.
    - intros (k & pz & orig & N & (m' & pr & Hm' & Hk & _)) X. rewrite Hm in Hm'. injection Hm' as <-.
      assert (G : dget (ddel (class_props w (m_class m)) n) k = Some pr) by (rewrite dget_ddel by easy; rewrite (proj2 (keqb_neq n k)); [easy|congruence]). rewrite X in G. easy.
  Qed.
  Lemma removed_effect w w' i m m' n : wf w -> dget (w_mods w) i = Some m -> m_base m' = m_base m -> removed w i (ddel (class_props w (m_class m)) n) m' w' ->
    (forall pz orig, ~ parametrized w' i n pz orig) /\ (is_parametrized w' i None = true <-> exists k pz orig, k <> n /\ parametrized w i k pz orig) /\
    (~ In n (m_base m) -> is_parametrized w' i (Some n) = false) /\ exists m2, dget (w_mods w') i = Some m2 /\ m_base m2 = m_base m /\ m_attrs m2 = m_attrs m' /\ class_props w' (m_class m2) = ddel (class_props w (m_class m)) n.
  Proof.
    intros W Hm HB (W' & Hv & m2 & Hvi & Eb & Ea & Ecl). destruct (view_inv _ _ _ _ Hvi) as [Hm2 Hps]. assert (HD := props_dict w i m W Hm).
    assert (NN : dget (class_props w' (m_class m2)) n = None) by (rewrite Hps, dget_ddel by easy; now rewrite keqb_refl).
    split; [|split; [|split]].
    - intros pz orig (m3 & pr & Hm3 & X & _). rewrite Hm2 in Hm3. injection Hm3 as <-. congruence.
    - rewrite <- (other_parametrized w i m n W Hm). unfold is_parametrized. rewrite Hm2. destruct (m_class m2); [|split; [easy|]; intros X; exfalso; apply X; now apply Ecl].
      split; [|easy]. intros _ X. apply Ecl in X. easy.
    - intros Nb. unfold is_parametrized. rewrite Hm2. destruct (m_class m2) eqn:E; [|easy]. apply class_has_false. rewrite E in *. rewrite Eb, HB. easy.
    - exists m2. repeat split; try easy. congruence.
  Qed.
  Lemma removed_get w w' i m m' n : wf w -> dget (w_mods w) i = Some m -> m_base m' = m_base m -> (forall k, k <> n -> dget (m_attrs m') k = dget (m_attrs m) k) ->
    removed w i (ddel (class_props w (m_class m)) n) m' w' ->
    (forall p v, dget (w_params w) p = Some v -> dget (w_params w') p = Some v) -> w_own w' = w_own w -> same_attrs_except w w' i n.
  Proof.
    intros W Hm HB HA HR HP HO j k N. assert (HR' := HR). destruct HR' as (W' & Hv & _).
    assert (EC : forall j m pr, dget (w_mods w) j = Some m -> dget (class_props w (m_class m)) k = Some pr -> call_it w' (pr_call pr) (pr_orig pr) = call_it w (pr_call pr) (pr_orig pr)).
    { intros j' mj pr Hj Hk. unfold call_it. rewrite HO. destruct (pr_call pr); [|easy]. destruct (pr_orig pr) as [p|] eqn:Eo; [|easy].
      destruct (props_ok w j' mj k pr W Hj Hk) as (_ & _ & P3). rewrite Eo in P3. apply (wf_attr _ W j' mj) in P3; [|easy].
      destruct (dget (w_params w) p) as [v|] eqn:Ev; [|easy]. now rewrite (HP p v Ev). }
    destruct (Nat.eq_dec i j) as [<- |Nj]; [|apply get_same_values; [now apply Hv|intros; now apply EC with j m0]].
    destruct (removed_effect w w' i m m' n W Hm HB HR) as (_ & _ & _ & m2 & Hm2 & Eb & Ea & Ep).
    assert (Nk : k <> n) by congruence. unfold get. rewrite Hm2, Hm, Ep, dget_ddel by (eapply props_dict; eauto). rewrite (proj2 (keqb_neq n k)) by congruence. rewrite Ea, Eb, HA by easy.
    destruct (dget (class_props w (m_class m)) k) as [pr|] eqn:Ek; [|easy]. now rewrite (EC i m pr).
  Qed.
  Lemma remove_keep_ok w i n pz p : reachable w -> parametrized w i n pz (Some p) ->
    exists w', remove w i n = (w', Ok tt) /\ reachable w' /\ plain_param w' i n p /\ get w' i n = Ok (RParam p) /\ same_attrs_except w w' i n /\ same_values w w' /\ same_states w w' /\
      is_parametrized w' i (Some n) = false /\ (is_parametrized w' i None = true <-> exists k pz orig, k <> n /\ parametrized w i k pz orig) /\
      (forall j, named_params w' j = named_params w j).
  Proof.
    intros R (m & pr & Hm & Hn & Ec & Eo). apply reachable_wf in R as W. destruct (props_ok w i m n pr W Hm Hn) as (P1 & P2 & P3). rewrite Eo in P3.
    destruct (remove_keep w i m n pr p W Hm Hn Eo) as (w' & E & HR & E1 & E2). exists w'. split; [easy|].
    split; [eapply reach_step; [exact R|]; rewrite <- (f_equal fst E : _ = w'); constructor|].
    destruct (removed_effect w w' i m m n W Hm eq_refl HR) as (N1 & N2 & N3 & m2 & Hm2 & Eb & Ea & Ep).
    assert (PP : plain_param w' i n p) by (split; [easy|]; exists m2; rewrite Eb, Ea; easy).
    split; [exact PP|]. split.
    { destruct (plain_inv _ _ _ _ PP) as (m3 & Hm3 & Hb3 & Ha3 & Hn3). unfold get. now rewrite Hm3, Hn3, Ha3. }
    split; [apply removed_get with m m; auto; intros q v X; now rewrite E1|]. split; [intros q; unfold value; now rewrite E1|]. split; [intros q; unfold state_of; now rewrite E2|].
    split; [now apply N3|]. split; [exact N2|]. intros j. apply names_same. destruct HR as (_ & Hv & _). destruct (Nat.eq_dec i j) as [<- |Nj].
    - unfold view. now rewrite Hm2, Hm.
    - rewrite (Hv j Nj). now destruct (view w j) as [[? ?]|].
  Qed.
  Lemma remove_own_ok w i n o g a s : reachable w -> parametrized w i n (Own o g a) None -> state_of w o = Some s ->
    exists w' p, remove w i n = (w', Ok tt) /\ reachable w' /\ value w p = None /\ plain_param w' i n p /\ get w' i n = Ok (RParam p) /\ value w' p = Some (g s) /\
      same_attrs_except w w' i n /\ (forall q, q <> p -> value w' q = value w q) /\ same_states w w' /\
      is_parametrized w' i (Some n) = false /\ (is_parametrized w' i None = true <-> exists k pz orig, k <> n /\ parametrized w i k pz orig).
  Proof.
    intros R (m & pr & Hm & Hn & Ec & Eo) Hs. apply reachable_wf in R as W. destruct (props_ok w i m n pr W Hm Hn) as (P1 & P2 & P3).
    assert (Ev : call_it w (pr_call pr) None = Ok (g s)) by (rewrite Ec; unfold state_of in Hs; cbn [call_it]; now rewrite Hs).
    destruct (remove_own w i m n pr (g s) W Hm Hn Eo Ev) as (w' & p & E & HR & E1 & Ep' & E2). exists w', p. split; [easy|].
    split; [eapply reach_step; [exact R|]; rewrite <- (f_equal fst E : _ = w'); constructor|].
    destruct (removed_effect w w' i m (with_attr m n (AParam p)) n W Hm eq_refl HR) as (N1 & N2 & N3 & m2 & Hm2 & Eb & Ea & Ep).
    assert (PP : plain_param w' i n p) by (split; [easy|]; exists m2; rewrite Eb, Ea; split; [easy|]; split; [easy|]; cbn [with_attr m_attrs]; apply dget_dset_eq).
    split; [easy|]. split; [exact PP|]. split.
    { destruct (plain_inv _ _ _ _ PP) as (m3 & Hm3 & Hb3 & Ha3 & Hn3). unfold get. now rewrite Hm3, Hn3, Ha3. }
    split; [unfold value; rewrite E1; apply dget_dset_eq|].
    split; [apply removed_get with m (with_attr m n (AParam p)); auto|].
    { intros k Nk. cbn [with_attr m_attrs]. now rewrite dget_dset_neq by congruence. }
    { intros q v X. rewrite E1, dget_dset_neq; [easy|]. intros <-. congruence. }
    split; [intros q Nq; unfold value; now rewrite E1, dget_dset_neq by congruence|]. split; [intros q; unfold state_of; now rewrite E2|].
    split; [now apply N3|exact N2].
  Qed.

  (** failures *)
  Lemma register_failed w i n pz keep e : reachable w -> snd (register w i n pz keep) = Err e ->
    let w' := fst (register w i n pz keep) in
    (forall j k, get w' j k = get w j k) /\ same_values w w' /\ same_states w w' /\ (forall j k pz' orig, parametrized w' j k pz' orig <-> parametrized w j k pz' orig).
  Proof.
    intros R. apply reachable_wf in R as W. destruct (dget (w_mods w) i) as [m|] eqn:Hm; [|rewrite register_eq, Hm; easy].
    assert (OC := own_class w i m W Hm). rewrite register_eq, Hm. destruct (with_own_class w i m) as [[w1 m1] c]. destruct OC as (H1 & Hm1 & Hc1 & Eb & Ea & Ep & Hv & E1 & E2).
    assert (X : (forall j k, get w1 j k = get w j k) /\ same_values w w1 /\ same_states w w1 /\ (forall j k pz' orig, parametrized w1 j k pz' orig <-> parametrized w j k pz' orig)).
    { split; [|split; [intros q; unfold value; now rewrite E1|split; [intros q; unfold state_of; now rewrite E2|]]].
      - intros j k. destruct (Nat.eq_dec i j) as [<- |N]; [|apply get_same; [now apply Hv|easy|easy]]. unfold get. rewrite Hm, Hm1, Hc1, Ep, Ea, Eb.
        destruct (dget (class_props w (m_class m)) k); [|easy]. now rewrite (call_same w w1).
      - intros j k pz' orig. unfold parametrized. destruct (Nat.eq_dec i j) as [<- |N].
        + rewrite Hm, Hm1. split; intros (m' & pr & [= <-] & X); [exists m, pr; now rewrite Hc1, Ep in X|exists m1, pr; now rewrite Hc1, Ep].
        + specialize (Hv j N). unfold view in Hv. destruct (dget (w_mods w1) j) as [ma|], (dget (w_mods w) j) as [mb|]; try easy.
          * apply (f_equal (fun o => match o with Some x => x | None => (m, []) end)) in Hv. apply pair_equal_spec in Hv as [-> Hp].
            split; intros (m' & pr & [= <-] & X); exists mb, pr; [now rewrite <- Hp|now rewrite Hp].
          * split; intros (? & ? & X & _); easy. }
    destruct (class_has w1 m1 n); [intros _; exact X|]. destruct (dget (m_attrs m1) n) as [[p| |]|]; try (intros _; exact X).
    destruct keep; [|easy]. destruct pz as [f [|k]|]; try (intros _; exact X); easy.
  Qed.
  Lemma register_twice w i n pz orig pz' keep : reachable w -> parametrized w i n pz orig -> register w i n pz' keep = (w, Err ValueError).
  Proof.
    intros R (m & pr & Hm & Hn & _). unfold register. rewrite Hm. destruct (m_class m) as [c|] eqn:Hc; [|easy].
    assert (X : class_has w m n = true) by (unfold class_has, dhas; rewrite Hc, Hn; now rewrite orb_true_r). now rewrite X.
  Qed.
End Proofs.

(** * Copies *)
Lemma Forall2_weaken {X Y} (P Q : X -> Y -> Prop) l l' : (forall x y, P x y -> Q x y) -> Forall2 P l l' -> Forall2 Q l l'.
Proof. intros H. induction 1; constructor; auto. Qed.
Section Copies.
  Context {V S : Type} (init : nat -> V).
  Definition copied (w : world V S) (next : nat) (a b : string * attr V S) : Prop :=
    fst b = fst a /\ match snd a with AParam p => exists q, snd b = AParam q /\ next <= q < w_next w /\ dget (w_params w) q = Some (init p) | x => snd b = x end.
  Lemma copy_attrs_ok next : forall l w acc acc0, next <= w_next w -> Forall2 (copied w next) acc0 acc ->
    exists w' acc', fold_left (copy_attr init) l (w, acc) = (w', acc') /\ w_next w <= w_next w' /\ Forall2 (copied w' next) (acc0 ++ l) acc' /\
      (forall p, p < w_next w -> dget (w_params w') p = dget (w_params w) p) /\ w_mods w' = w_mods w /\ w_classes w' = w_classes w /\ w_own w' = w_own w.
  Proof.
    induction l as [|[n a] l IH]; intros w acc acc0 Hn H; cbn [fold_left].
    - exists w, acc. rewrite app_nil_r. repeat split; auto.
    - assert (Hother : copied w next (n, a) (n, a) -> exists w' acc', fold_left (copy_attr init) l (w, acc ++ [(n, a)]) = (w', acc') /\ w_next w <= w_next w' /\ Forall2 (copied w' next) (acc0 ++ (n, a) :: l) acc' /\
        (forall p, p < w_next w -> dget (w_params w') p = dget (w_params w) p) /\ w_mods w' = w_mods w /\ w_classes w' = w_classes w /\ w_own w' = w_own w).
      { intros Hc. destruct (IH w (acc ++ [(n, a)]) (acc0 ++ [(n, a)]) Hn) as (w' & acc' & E & X); [apply Forall2_app; [exact H|constructor; [exact Hc|constructor]]|]. exists w', acc'. rewrite <- app_assoc in X. split; [exact E|exact X]. }
      destruct a as [p|o|]; cbn [copy_attr snd fst] in *; [|apply Hother; split; reflexivity..]. clear Hother. cbn [alloc].
      set (w1 := set_param _ _ _). assert (E1 : w_next w1 = 1 + w_next w) by reflexivity.
      destruct (IH w1 (acc ++ [(n, AParam (w_next w))]) (acc0 ++ [(n, AParam p)])) as (w' & acc' & E & X1 & X2 & X3 & X4); [lia| |].
      + apply Forall2_app.
        * eapply Forall2_weaken; [|exact H]. intros x y [Hf Hs]. split; [exact Hf|]. destruct (snd x) as [p'|o|]; [|exact Hs..]. destruct Hs as (q & Eq & Hq & Hv). exists q. split; [exact Eq|]. split; [lia|].
          unfold w1. cbn [set_param w_params]. rewrite dget_dset_neq by lia. exact Hv.
        * constructor; [|constructor]. split; [reflexivity|]. cbn [snd]. exists (w_next w). split; [reflexivity|]. split; [lia|]. unfold w1. cbn [set_param w_params]. apply dget_dset_eq.
      + exists w', acc'. rewrite <- app_assoc in X2. split; [exact E|]. split; [lia|]. split; [exact X2|]. split; [|exact X4]. intros q Hq. rewrite X3 by lia. unfold w1. cbn [set_param w_params]. apply dget_dset_neq. lia.
  Qed.
  Lemma deepcopy_ok (w : world V S) i m : wf w -> dget (w_mods w) i = Some m -> exists w' j m', deepcopy init w i = (w', j) /\ dget (w_mods w') j = Some m' /\ m_base m' = m_base m /\ m_class m' = m_class m /\
    w_next w <= j /\ (forall k, k <> j -> dget (w_mods w') k = dget (w_mods w) k) /\ (forall p, dget (w_params w) p <> None -> dget (w_params w') p = dget (w_params w) p) /\
    w_classes w' = w_classes w /\ w_own w' = w_own w /\
    Forall2 (fun a b => fst b = fst a /\ match snd a with AParam p => exists q, snd b = AParam q /\ dget (w_params w) q = None /\ dget (w_params w') q = Some (init p) | x => snd b = x end) (m_attrs m) (m_attrs m').
  Proof.
    intros W Hm. unfold deepcopy. rewrite Hm. destruct (copy_attrs_ok (w_next w) (m_attrs m) w [] [] (Nat.le_refl _) (Forall2_nil _)) as (w' & acc & E & X1 & X2 & X3 & X4 & X5 & X6). rewrite E. cbn [alloc].
    do 3 eexists. split; [reflexivity|]. cbn [set_mod w_mods w_params w_classes w_own]. split; [apply dget_dset_eq|]. cbn [m_base m_class m_attrs]. split; [reflexivity|]. split; [reflexivity|]. split; [exact X1|].
    split; [intros k Hk; rewrite X4; apply dget_dset_neq; congruence|]. split; [intros p Hp; apply X3, (wf_params _ W), Hp|]. split; [exact X5|]. split; [exact X6|].
    eapply Forall2_weaken; [|exact X2]. intros x y [Hf Hs]. split; [exact Hf|]. destruct (snd x) as [p|o|]; [|exact Hs..]. destruct Hs as (q & Eq & Hq & Hv). exists q. split; [exact Eq|]. split; [|exact Hv].
    destruct (dget (w_params w) q) eqn:Eqq; [|reflexivity]. exfalso. assert (Z : dget (w_params w) q <> None) by congruence. apply (wf_params _ W) in Z. lia.
  Qed.
End Copies.
