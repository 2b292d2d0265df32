(** Proofs for the names of parameters, get_deep, set_deep and apply. *)
From Coq Require Import String Ascii.
From Verif Require Import Base PyDict ListLemmas ModTreeModel ModTreeSpec ModTreeProofs.
From Verif Require SeqOrderModel SeqOrderProofs.
Local Open Scope nat_scope.
Import SeqOrderModel(split_on).

Lemma path_fun h (Hg : good_heap h) a ns b : path h a ns b -> forall b', path h a ns b' -> b = b'.
Proof.
  induction 1 as [|m n k ns m' Hin _ IH]; intros b' H; inversion H as [|? ? k' ? ? Hin' Hp]; subst; [easy|].
  apply IH. assert (k = k'); [|now subst]. destruct (Hg m) as (Hok & _).
  apply (In_dget (vars h m) n (AMod k)) in Hin; [|easy]. apply (In_dget (vars h m) n (AMod k')) in Hin'; [|easy]. congruence.
Qed.
Lemma param_path_fun h (Hg : good_heap h) a ns p p' : param_path h a ns p -> param_path h a ns p' -> p = p'.
Proof.
  intros (ns1 & n1 & m1 & -> & Hp1 & Hi1) (ns2 & n2 & m2 & E & Hp2 & Hi2). apply app_inj_tail in E as [<- <-].
  assert (m1 = m2) by (eapply path_fun; eauto). subst m2. destruct (Hg m1) as (Hok & _).
  apply (In_dget (vars h m1)) in Hi1; [|easy]. apply (In_dget (vars h m1)) in Hi2; [|easy]. congruence.
Qed.
Lemma param_path_good h a ns p : good_heap h -> param_path h a ns p -> Forall good_name ns.
Proof.
  intros Hg (ns' & n & m & -> & Hp & Hi). apply Forall_app. split; [eapply path_good; eauto|]. constructor; [|constructor].
  now destruct (proj2 (Hg m) _ _ Hi).
Qed.

(** ** named_parameters *)
Section Params.
Variables (h : heap) (root : nat).
Hypothesis (Hg : good_heap h) (Hroot : root < length h).

Lemma scan_params_spec ns0 m0 (Hp0 : path h root ns0 m0) items : incl items (vars h m0) -> forall memo out memo',
  scan_params (dotted ns0) items memo = (out, memo') ->
  exists fs : list found, out = map name_it fs
    /\ (forall x, In x memo' <-> In x memo \/ In x (map snd fs))
    /\ NoDup (map snd fs) /\ (forall x, In x (map snd fs) -> ~ In x memo)
    /\ Forall (fun f => param_path h root (fst f) (snd f) /\ depth f = S (length ns0)) fs
    /\ (forall n p, In (n, AParam p) items -> In p memo').
Proof.
  assert (Hgn : Forall good_name ns0) by (eapply path_good; eauto).
  induction items as [|(name, a) items IH]; intros Hinc memo out memo' E.
  - cbn in E. apply pair_equal_spec in E as [<- <-]. exists []. cbn. repeat split; try easy; [tauto|tauto|constructor].
  - assert (Hinc' : incl items (vars h m0)) by (intros x Hx; apply Hinc; now right).
    destruct a as [k|p|x]; cbn [scan_params] in E.
    + destruct (IH Hinc' _ _ _ E) as (fs & H1 & H3 & H4 & H5 & H6 & H7). exists fs. repeat (split; [easy|]).
      intros n p [H|Hin]; [discriminate|eauto].
    + destruct (mem p memo) eqn:Em.
      * destruct (IH Hinc' _ _ _ E) as (fs & H1 & H3 & H4 & H5 & H6 & H7). exists fs. repeat (split; [easy|]).
        intros n p' [[= <- <-]|Hin]; [|eauto]. apply H3. left. now apply mem_In.
      * destruct (scan_params (dotted ns0) items (p :: memo)) as [out1 memo1] eqn:E1.
        apply pair_equal_spec in E as [<- <-].
        destruct (IH Hinc' _ _ _ E1) as (fs & H1 & H3 & H4 & H5 & H6 & H7).
        rewrite key_dotted by easy. exists ((ns0 ++ [name], p) :: fs). cbn [map name_it fst snd]. split; [now rewrite H1|].
        split; [intros x; rewrite H3; cbn; tauto|].
        split; [constructor; [|easy]; intros Hk; apply (H5 _ Hk); now left|].
        split; [intros x [<-|Hx]; [now apply mem_nIn|]; intros Hm; apply (H5 _ Hx); now right|].
        split.
        -- constructor; [|easy]. split; [cbn; exists ns0, name, m0; split; [easy|]; split; [easy|]; apply Hinc; now left|].
           unfold depth. cbn. rewrite app_length. cbn. lia.
        -- intros n p' [[= <- <-]|Hin]; [|eauto]. apply H3. left. now left.
    + destruct (IH Hinc' _ _ _ E) as (fs & H1 & H3 & H4 & H5 & H6 & H7). exists fs. repeat (split; [easy|]).
      intros n p [H|Hin]; [discriminate|eauto].
Qed.

Lemma sorted_tail f fs : sorted (f :: fs) -> sorted fs /\ forall g, In g fs -> depth f <= depth g.
Proof.
  intros H. split.
  - intros i j a b Hij Ha Hb. apply (H (S i) (S j) a b); [lia|easy|easy].
  - intros g Hin. apply In_nth_error in Hin as (i & Hi). apply (H 0 (S i) f g); [lia|easy|easy].
Qed.

Lemma params_loop_spec mods : Forall (fun f : found => path h root (fst f) (snd f)) mods -> sorted mods -> forall memo,
  exists fs : list found, params_loop h (map name_it mods) memo = map name_it fs
    /\ NoDup (map snd fs) /\ (forall x, In x (map snd fs) -> ~ In x memo)
    /\ Forall (fun f => param_path h root (fst f) (snd f)) fs
    /\ (forall f n p, In f mods -> In (n, AParam p) (vars h (snd f)) -> In p memo \/ exists g, In g fs /\ snd g = p /\ depth g <= S (depth f)).
Proof.
  induction mods as [|(ns, m) mods IH]; intros Hp Hs memo.
  - exists []. cbn. repeat split; try easy; constructor.
  - inversion Hp as [|? ? Hp1 Hp2]; subst. cbn [fst snd] in Hp1. apply sorted_tail in Hs as (Hs & Hlow).
    cbn [map name_it fst snd params_loop].
    destruct (scan_params (dotted ns) (vars h m) memo) as [out memo'] eqn:E.
    destruct (scan_params_spec ns m Hp1 _ (incl_refl _) _ _ _ E) as (fs & -> & H3 & H4 & H5 & H6 & H7).
    destruct (IH Hp2 Hs memo') as (fs' & E' & H4' & H5' & H6' & H7'). rewrite E', <- map_app. exists (fs ++ fs'). split; [easy|].
    split; [rewrite map_app; apply NoDup_app_intro2; try easy; intros x Hx Hx'; apply (H5' _ Hx'), H3; now right|].
    split.
    { intros x Hx Hm. rewrite map_app in Hx. apply in_app_iff in Hx as [Hx|Hx]; [now apply (H5 _ Hx)|]. apply (H5' _ Hx), H3. now left. }
    split; [apply Forall_app; split; [eapply Forall_impl; [|exact H6]; now intros a [? ?]|easy]|].
    intros f n p Hf Hin.
    assert (Hcase : In p memo' -> In p memo \/ exists g, In g fs /\ snd g = p /\ depth g = S (length ns)).
    { intros Hm. apply H3 in Hm as [Hm|Hm]; [now left|]. right. apply in_map_iff in Hm as (g & <- & Hg'). exists g. split; [easy|]. split; [easy|].
      rewrite Forall_forall in H6. now apply H6. }
    destruct Hf as [<-|Hf].
    + destruct (Hcase (H7 _ _ Hin)) as [H|(g & Hg1 & Hg2 & Hg3)]; [now left|]. right. exists g. split; [apply in_app_iff; now left|].
      split; [easy|]. unfold depth in *. cbn [fst]. lia.
    + destruct (H7' f n p Hf Hin) as [H|(g & Hg1 & Hg2 & Hg3)].
      * destruct (Hcase H) as [H'|(g & Hg1 & Hg2 & Hg3)]; [now left|]. right. exists g. split; [apply in_app_iff; now left|]. split; [easy|].
        specialize (Hlow _ Hf). unfold depth in *. cbn [fst] in *. lia.
      * right. exists g. split; [apply in_app_iff; now right|easy].
Qed.

Theorem params_spec : exists l, named_parameters h root true = Ok l /\ names_of (param_path h root) l.
Proof.
  destruct (search h root Hg Hroot) as (mods & E & Hp & Hn & Hsort & Hall). unfold named_parameters. rewrite E. cbn [bind].
  destruct (params_loop_spec mods Hp Hsort []) as (fs & Ef & H4 & _ & H6 & H7). exists (map name_it fs). rewrite Ef. split; [easy|].
  assert (Hs : map snd (map name_it fs) = map snd fs) by (rewrite map_map; reflexivity).
  assert (Hcov : forall ns p, param_path h root ns p -> exists g, In g fs /\ snd g = p /\ depth g <= length ns).
  { intros ns p (ns' & n & m & -> & Hm & Hi). destruct (Hall _ _ Hm) as (f & Hf & <- & Hd).
    destruct (H7 f n p Hf Hi) as [[]|(g & Hg1 & Hg2 & Hg3)]. exists g. rewrite app_length. cbn. repeat (split; [easy|]). lia. }
  rewrite Forall_forall in H6. split.
  - rewrite map_map. cbn. apply NoDup_map_inj; [|eapply NoDup_map_inv; exact H4]. intros (n1, p1) (n2, p2) Hx Hy Heq. cbn in Heq.
    pose proof (H6 _ Hx) as Hx'. pose proof (H6 _ Hy) as Hy'. cbn in *.
    apply dotted_inj in Heq; [|eapply param_path_good; eauto..]. subst n2. f_equal. eapply param_path_fun; eauto.
  - rewrite Hs. split; [easy|]. split.
    + intros x. split.
      * intros Hx. apply in_map_iff in Hx as (f & <- & Hf). eexists. now apply H6.
      * intros (ns & Hns). destruct (Hcov _ _ Hns) as (f & Hf & <- & _). now apply in_map.
    + intros n x Hin. apply in_map_iff in Hin as (f & Ef' & Hf). apply pair_equal_spec in Ef' as [<- <-]. exists (fst f). split; [easy|].
      split; [now apply H6|]. intros ns' Hns'. destruct (Hcov _ _ Hns') as (f' & Hf' & Em & Hd).
      assert (f' = f); [|subst f'; exact Hd]. now apply (nodup_inj snd fs).
Qed.
End Params.

(** ** get_deep *)
Lemma split_join s : String.concat "." (split_on "." s) = s /\ split_on "." s <> [].
Proof.
  induction s as [|c s (IH & Hn)]; [split; [reflexivity|discriminate]|]. cbn [split_on]. destruct (Ascii.eqb_spec c ".") as [->|Hc].
  - split; [|discriminate]. destruct (split_on "." s) as [|x l] eqn:E; [easy|]. cbn in *. now rewrite <- IH.
  - destruct (split_on "." s) as [|x l] eqn:E; [easy|]. split; [|discriminate]. destruct l; cbn in *; now rewrite <- IH.
Qed.
Lemma split_dotfree s : forall x, In x (split_on "." s) -> dotfree x.
Proof.
  induction s as [|c s IH]; intros x; cbn [split_on].
  - intros [<-|[]] [].
  - destruct (Ascii.eqb_spec c ".") as [->|Hc].
    + intros [<-|H]; [easy|now apply IH].
    + destruct (split_on "." s) as [|y l]; [intros [<-|[]]; cbn; now intros [?|[]]|].
      intros [<-|H]; [|apply IH; now right]. cbn. intros [?|Hy]; [easy|]. now apply (IH y (or_introl eq_refl)).
Qed.
Lemma In_getattr h m n a : dict_ok (vars h m) -> In (n, a) (vars h m) <-> getattr h m n = Ok a.
Proof.
  intros Hok. unfold getattr. split.
  - intros Hin. apply (In_dget (vars h m)) in Hin; [|easy]. now rewrite Hin.
  - destruct (dget (vars h m) n) eqn:E; [|discriminate]. intros H. apply Ok_inj in H. subst. now apply dget_In.
Qed.
Lemma walk_path h (Hg : good_heap h) ns : forall m m', walk h m ns = Ok m' <-> path h m ns m'.
Proof.
  induction ns as [|n ns IH]; intros m m'; cbn [walk].
  - split; [intros [= ->]; constructor|intros H; now inversion H].
  - split.
    + intros E. apply bind_Ok in E as (a & Ea & E). apply In_getattr in Ea; [|apply Hg]. destruct a as [k| |]; try discriminate.
      econstructor; [exact Ea|]. now apply IH.
    + intros H. inversion H as [|? ? k ? ? Hin Hp]; subst. apply (proj1 (In_getattr h m n _ (proj1 (Hg m)))) in Hin. rewrite Hin. cbn. now apply IH.
Qed.
Lemma get_deep_value h (Hg : good_heap h) root ns n a : Forall good_name ns -> good_name n ->
  get_deep h root (dotted (ns ++ [n])) = Ok a <-> exists m, path h root ns m /\ In (n, a) (vars h m).
Proof.
  intros Hns Hn. unfold get_deep. destruct (String.eqb_spec (dotted (ns ++ [n])) "") as [E|_].
  - apply dotted_nil in E; [now apply app_eq_nil in E|]. apply Forall_app. split; [easy|now constructor].
  - rewrite split_dotted by (try (now apply Forall_app; split; [|constructor]); intros E; now apply app_eq_nil in E).
    rewrite removelast_last, last_last. split.
    + intros E. apply bind_Ok in E as (m & Em & E). exists m. apply walk_path in Em; [|easy]. split; [easy|]. apply In_getattr in E; [easy|apply Hg].
    + intros (m & Hm & Hin). apply walk_path in Hm; [|easy]. rewrite Hm. cbn. apply In_getattr; [apply Hg|easy].
Qed.
(** what [get_deep] finds has a good name *)
Lemma get_deep_inv h (Hg : good_heap h) root t a : get_deep h root t = Ok a ->
  (t = ""%string /\ a = AMod root) \/ exists ns n m, t = dotted (ns ++ [n]) /\ path h root ns m /\ In (n, a) (vars h m).
Proof.
  unfold get_deep. destruct (String.eqb_spec t "") as [->|Ht]; [intros [= <-]; now left|]. intros E. right.
  apply bind_Ok in E as (m & Em & E). destruct (split_join t) as (Ej & Hn).
  exists (removelast (split_on "." t)), (last (split_on "." t) ""%string), m. rewrite <- app_removelast_last by easy. split; [now symmetry|].
  apply walk_path in Em; [|easy]. apply In_getattr in E; [easy|apply Hg].
Qed.
Theorem get_deep_param h (Hg : good_heap h) root t p :
  get_deep h root t = Ok (AParam p) <-> exists ns, t = dotted ns /\ param_path h root ns p.
Proof.
  split.
  - intros E. apply get_deep_inv in E as [[_ H]|(ns & n & m & -> & Hp & Hi)]; [discriminate| |easy]. exists (ns ++ [n]). split; [easy|]. now exists ns, n, m.
  - intros (ns & -> & ns' & n & m & -> & Hp & Hi). apply get_deep_value; [easy|eapply path_good; eauto|now destruct (proj2 (Hg m) _ _ Hi)|]. now exists m.
Qed.
Theorem get_deep_module h (Hg : good_heap h) root t k :
  get_deep h root t = Ok (AMod k) <-> exists ns, t = dotted ns /\ path h root ns k.
Proof.
  split.
  - intros E. apply get_deep_inv in E as [[-> H]|(ns & n & m & -> & Hp & Hi)]; [| |easy].
    + injection H as ->. exists []. split; [reflexivity|constructor].
    + exists (ns ++ [n]). split; [easy|]. eapply path_snoc; eauto.
  - intros (ns & -> & Hp). destruct ns as [|n ns] using rev_ind; [inversion Hp; subst; reflexivity|]. clear IHns.
    pose proof (path_good _ _ _ _ Hg Hp) as Hgn. apply Forall_app in Hgn as (Hgn & Hn). inversion Hn; subst.
    apply path_snoc_inv in Hp as (m & Hm & Hi). apply get_deep_value; [easy..|]. now exists m.
Qed.
