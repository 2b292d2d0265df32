From Coq Require Import String Sorted.
From Verif Require Import Base ListLemmas PyDict FwdOutModel FwdOutSpec.
Local Open Scope nat_scope. Local Open Scope list_scope.

Lemma assert_ok b : assert_ b = Ok tt <-> b = true.
Proof. destruct b; cbn; split; congruence. Qed.
Lemma opt_eqb_iff a b : opt_eqb a b = true <-> a = b.
Proof. destruct a, b; cbn; rewrite ?Nat.eqb_eq; split; congruence. Qed.
Lemma dims_eqb_iff a b : dims_eqb a b = true <-> a = b.
Proof. revert b. induction a as [|x a IH]; intros [|y b]; cbn; try (split; congruence). rewrite andb_true_iff, Nat.eqb_eq, IH. split; [intros [-> ->]; reflexivity|intros H; injection H as -> ->; auto]. Qed.
Lemma subset_iff a b : subset a b = true <-> incl a b.
Proof.
  unfold subset. rewrite forallb_forall. split; intros H x Hx; specialize (H x Hx).
  - apply existsb_exists in H. destruct H as (y & Hy & E). apply Nat.eqb_eq in E. now subst y.
  - apply existsb_exists. exists x. split; [exact H|apply Nat.eqb_refl].
Qed.
Lemma filter_all {A} (p : A -> bool) l : (forall x, In x l -> p x = true) -> filter p l = l.
Proof. induction l as [|x l IH]; intros H; cbn; [reflexivity|]. rewrite (H x (or_introl eq_refl)). f_equal. apply IH. intros y Hy. apply H. now right. Qed.
Lemma split_perm {A} (p : A -> bool) l : Permutation l (filter p l ++ filter (fun x => negb (p x)) l).
Proof. induction l as [|x l IH]; cbn; [constructor|]. destruct (p x); cbn; [now constructor|]. apply Permutation_cons_app, IH. Qed.
Lemma remove1_spec d l : NoDup l -> In d l -> remove1 d l = Ok (filter (fun x => negb (x =? d)) l).
Proof.
  induction l as [|x l IH]; intros Hn Hi; [contradiction|]. inversion Hn as [|? ? Hx Hn']; subst. cbn. destruct (x =? d) eqn:E; cbn.
  - apply Nat.eqb_eq in E. subst x. f_equal. symmetry. apply filter_all. intros y Hy. destruct (y =? d) eqn:E; [apply Nat.eqb_eq in E; subst y; contradiction|reflexivity].
  - destruct Hi as [->|Hi]; [rewrite Nat.eqb_refl in E; discriminate|]. rewrite (IH Hn' Hi). reflexivity.
Qed.
Definition olist (o : option nat) : list nat := match o with Some d => [d] | None => [] end.
Definition no_axis (o : option nat) (l : list nat) : list nat := match o with Some d => filter (fun x => negb (x =? d)) l | None => l end.
Lemma take_axis_spec o l dims : NoDup l -> (forall d, o = Some d -> In d l) -> take_axis o l dims = Ok (no_axis o l, dims ++ olist o).
Proof. destruct o as [d|]; cbn; intros Hn Hi; [rewrite (remove1_spec d l Hn (Hi d eq_refl)); reflexivity|now rewrite app_nil_r]. Qed.
Lemma filter_one d l : NoDup l -> In d l -> filter (fun x => x =? d) l = [d].
Proof.
  induction l as [|x l IH]; intros Hn Hi; [contradiction|]. inversion Hn as [|? ? Hx Hn']; subst. cbn. destruct (x =? d) eqn:E.
  - apply Nat.eqb_eq in E. subst x. f_equal. clear IH Hi Hn. induction l as [|y l IH]; [reflexivity|]. cbn. destruct (y =? d) eqn:E; [apply Nat.eqb_eq in E; subst y; destruct Hx; now left|]. apply IH; [intros H; apply Hx; now right|now inversion Hn'].
  - destruct Hi as [->|Hi]; [rewrite Nat.eqb_refl in E; discriminate|auto].
Qed.
Lemma no_axis_perm o l : NoDup l -> (forall d, o = Some d -> In d l) -> Permutation l (olist o ++ no_axis o l).
Proof. destruct o as [d|]; cbn; intros Hn Hi; [|reflexivity]. rewrite (split_perm (fun x => x =? d) l) at 1. rewrite (filter_one d l Hn (Hi d eq_refl)). reflexivity. Qed.
Lemma no_axis_in o l d : In d (no_axis o l) <-> In d l /\ o <> Some d.
Proof.
  destruct o as [k|]; cbn; [|split; [intros H; split; [exact H|discriminate]|tauto]]. rewrite filter_In, negb_true_iff, Nat.eqb_neq. split; intros [H1 H2]; (split; [exact H1|congruence]).
Qed.
Lemma no_axis_nodup o l : NoDup l -> NoDup (no_axis o l).
Proof. destruct o; cbn; [apply NoDup_filter|trivial]. Qed.

Section P.
  Context {V : Type} (info : nat -> dim_info).
  Implicit Types t : @tensor V.
  Definition rest t : list nat := no_axis (t_time t) (no_axis (t_batch t) (t_dims t)).
  Definition dyn t := filter (fun d => is_dynamic_seq_length (info d)) (rest t).
  Definition other t := filter (fun d => negb (is_dynamic_seq_length (info d))) (rest t).
  Lemma rest_in t d : In d (rest t) <-> In d (t_dims t) /\ t_batch t <> Some d /\ t_time t <> Some d.
  Proof. unfold rest. rewrite !no_axis_in. tauto. Qed.
  Lemma dims_perm t : tensor_ok t -> Permutation (t_dims t) (olist (t_batch t) ++ olist (t_time t) ++ dyn t ++ other t).
  Proof.
    intros (Hn & Hb & Ht). rewrite (no_axis_perm (t_batch t) (t_dims t) Hn Hb) at 1. apply Permutation_app_head. rewrite (no_axis_perm (t_time t) (no_axis (t_batch t) (t_dims t))) at 1; [|apply no_axis_nodup, Hn|intros d E; apply no_axis_in; exact (Ht d E)].
    apply Permutation_app_head. apply split_perm.
  Qed.
  Lemma default_eq t : tensor_ok t -> default_dim_order info t =
    if (List.length (dyn t) <=? 1) && (List.length (other t) <=? 1) then Ok (olist (t_batch t) ++ olist (t_time t) ++ dyn t ++ other t) else Err OtherException.
  Proof.
    intros (Hn & Hb & Ht). unfold default_dim_order. rewrite (take_axis_spec (t_batch t) (t_dims t) [] Hn Hb). cbn [bind app]. rewrite take_axis_spec; [|apply no_axis_nodup, Hn|intros d E; apply no_axis_in; exact (Ht d E)]. cbn [bind]. fold (rest t). fold (dyn t).
    assert (Hr : NoDup (rest t)) by apply no_axis_nodup, no_axis_nodup, Hn. pose proof (split_perm (fun d => is_dynamic_seq_length (info d)) (rest t)) as Hp. fold (dyn t) in Hp. fold (other t) in Hp.
    destruct (dyn t) as [|d [|d' l]] eqn:Ed; cbn [List.length Nat.leb andb]; [| |reflexivity].
    - cbn [app] in Hp |- *. assert (Eo : other t = rest t). { unfold other. apply filter_all. intros x Hx. destruct (is_dynamic_seq_length (info x)) eqn:E; [|reflexivity]. exfalso. assert (Hin : In x (dyn t)) by (apply filter_In; auto). rewrite Ed in Hin. exact Hin. }
      rewrite Eo. cbn [bind]. destruct (rest t) as [|x [|y r]]; cbn; rewrite <- ?app_assoc, ?app_nil_r; reflexivity.
    - assert (Hd : In d (rest t) /\ is_dynamic_seq_length (info d) = true) by (apply (filter_In (fun d => is_dynamic_seq_length (info d))); fold (dyn t); rewrite Ed; now left). rewrite take_axis_spec; [|exact Hr|intros ? E; injection E as <-; exact (proj1 Hd)]. cbn [bind no_axis olist].
      assert (Eo : filter (fun x => negb (x =? d)) (rest t) = other t).
      { unfold other. apply filter_ext_in. intros x Hx. f_equal. destruct (is_dynamic_seq_length (info x)) eqn:E.
        - assert (Hin : In x (dyn t)) by (apply filter_In; auto). rewrite Ed in Hin. destruct Hin as [->|[]]. apply Nat.eqb_refl.
        - apply Nat.eqb_neq. intros ->. destruct Hd. congruence. }
      rewrite Eo. destruct (other t) as [|x [|y r]]; cbn; rewrite <- ?app_assoc, ?app_nil_r; reflexivity.
  Qed.
  Lemma has_seq_lens_eq d : is_dynamic_seq_length d = has_seq_lens d.
  Proof. unfold is_dynamic_seq_length, has_seq_lens, is_dynamic. destruct (d_size d), (d_ext d) as [[|]|], (d_batch d); reflexivity. Qed.
  Lemma rank_parts t d : tensor_ok t -> (In d (olist (t_batch t)) -> rank info t d = 0) /\ (In d (olist (t_time t)) -> rank info t d = 1) /\ (In d (dyn t) -> rank info t d = 2) /\ (In d (other t) -> rank info t d = 3).
  Proof.
    intros (Hn & Hb & Ht). unfold rank. rewrite <- has_seq_lens_eq.
    assert (Ho : forall o : option nat, o <> Some d -> opt_eqb o (Some d) = false) by (intros o H; destruct (opt_eqb o (Some d)) eqn:E; [apply opt_eqb_iff in E; contradiction|reflexivity]).
    split; [|split; [|split]].
    - destruct (t_batch t) as [b|]; cbn; [|contradiction]. intros [->|[]]. now rewrite Nat.eqb_refl.
    - destruct (t_time t) as [k|] eqn:E; cbn [olist]; [|contradiction]. intros [->|[]]. rewrite (Ho _ (proj2 (Ht d eq_refl))). cbn. now rewrite Nat.eqb_refl.
    - intros H. apply filter_In in H. destruct H as [H1 H2]. apply rest_in in H1. destruct H1 as (_ & H3 & H4). rewrite (Ho _ H3), (Ho _ H4), H2. reflexivity.
    - intros H. apply filter_In in H. destruct H as [H1 H2]. apply rest_in in H1. destruct H1 as (_ & H3 & H4). rewrite (Ho _ H3), (Ho _ H4). apply negb_true_iff in H2. rewrite H2. reflexivity.
  Qed.
  Lemma sorted_app (R : nat -> nat -> Prop) l1 l2 : StronglySorted R l1 -> StronglySorted R l2 -> (forall x y, In x l1 -> In y l2 -> R x y) -> StronglySorted R (l1 ++ l2).
  Proof.
    intros H1 H2 H. induction H1 as [|x l1 H1 IH Hx]; cbn; [exact H2|]. constructor; [apply IH; intros; apply H; [now right|assumption]|]. apply Forall_app. split; [exact Hx|]. apply Forall_forall. intros y Hy. apply H; [now left|exact Hy].
  Qed.
  Lemma sorted_short (R : nat -> nat -> Prop) l : List.length l <= 1 -> StronglySorted R l.
  Proof. destruct l as [|x [|y l]]; cbn; intros H; [constructor|repeat constructor|lia]. Qed.
  Lemma sorted_unique (f : nat -> nat) l m : StronglySorted (fun a b => f a < f b) l -> StronglySorted (fun a b => f a < f b) m -> Permutation l m -> l = m.
  Proof.
    intros Hl. revert m. induction Hl as [|a l Hl IH Ha]; intros m Hm Hp; [now apply Permutation_nil in Hp|]. destruct m as [|b m]; [now apply Permutation_sym, Permutation_nil in Hp|]. inversion Hm as [|? ? Hm' Hb]; subst.
    destruct (Nat.eq_dec a b) as [->|N]; [f_equal; apply IH; [exact Hm'|now apply Permutation_cons_inv in Hp]|]. exfalso. rewrite Forall_forall in Ha, Hb.
    assert (In a m) by (destruct (Permutation_in a Hp (or_introl eq_refl)); [congruence|assumption]). assert (In b l) by (destruct (Permutation_in b (Permutation_sym Hp) (or_introl eq_refl)); [congruence|assumption]).
    specialize (Ha b ltac:(assumption)). specialize (Hb a ltac:(assumption)). cbn beta in Ha, Hb. lia.
  Qed.
  Lemma sorted_in (f : nat -> nat) l x y : StronglySorted (fun a b => f a < f b) l -> In x l -> In y l -> f x = f y -> x = y.
  Proof.
    intros H. induction H as [|a l H IH Ha]; [contradiction|]. rewrite Forall_forall in Ha. intros [<-|Hx] [<-|Hy] E; auto; [specialize (Ha y Hy)|specialize (Ha x Hx)]; cbn beta in Ha; lia.
  Qed.
  Lemma one_rank t out n l : NoDup l -> default_order info t out -> (forall d, In d l -> In d out /\ rank info t d = n) -> List.length l <= 1.
  Proof.
    intros Hn [_ Hs] H. destruct l as [|x [|y l]]; cbn; try lia. exfalso. destruct (H x (or_introl eq_refl)) as [H1 H2]. destruct (H y (or_intror (or_introl eq_refl))) as [H3 H4]. inversion Hn as [|? ? Hx _]; subst. apply Hx. left. symmetry. eapply (sorted_in (rank info t)); eauto.
  Qed.
  Lemma default_iff t out : tensor_ok t -> (default_dim_order info t = Ok out <-> default_order info t out).
  Proof.
    intros Hok. pose proof (dims_perm t Hok) as Hp. rewrite (default_eq t Hok). destruct Hok as (Hn & Hb & Ht). assert (Hok : tensor_ok t) by (split; [exact Hn|split; assumption]).
    assert (Hr : NoDup (rest t)) by apply no_axis_nodup, no_axis_nodup, Hn.
    assert (Hsort : List.length (dyn t) <= 1 -> List.length (other t) <= 1 -> StronglySorted (fun a b => rank info t a < rank info t b) (olist (t_batch t) ++ olist (t_time t) ++ dyn t ++ other t)).
    { intros H1 H2. apply sorted_app; [apply sorted_short; destruct (t_batch t); cbn; lia|apply sorted_app; [apply sorted_short; destruct (t_time t); cbn; lia|apply sorted_app; [now apply sorted_short|now apply sorted_short|]|]|];
        intros x y Hx Hy; destruct (rank_parts t x Hok) as (X0 & X1 & X2 & X3); destruct (rank_parts t y Hok) as (Y0 & Y1 & Y2 & Y3); rewrite ?in_app_iff in Hy; intuition lia. }
    split.
    - destruct (List.length (dyn t) <=? 1) eqn:E1; cbn [andb]; [|discriminate]. destruct (List.length (other t) <=? 1) eqn:E2; [|discriminate]. apply Nat.leb_le in E1, E2. intros H. injection H as <-. split; [exact Hp|auto].
    - intros Hd. destruct Hd as [Hd1 Hd2]. assert (Hin : forall d, In d (rest t) -> In d out) by (intros d H; eapply Permutation_in; [exact Hd1|]; now apply rest_in in H).
      assert (H1 : List.length (dyn t) <= 1) by (eapply (one_rank t out 2); [apply NoDup_filter, Hr|split; eassumption|]; intros d H; split; [apply Hin; now apply filter_In in H|now apply (rank_parts t d Hok)]).
      assert (H2 : List.length (other t) <= 1) by (eapply (one_rank t out 3); [apply NoDup_filter, Hr|split; eassumption|]; intros d H; split; [apply Hin; now apply filter_In in H|now apply (rank_parts t d Hok)]).
      pose proof (Hsort H1 H2) as Hs. apply Nat.leb_le in H1, H2. rewrite H1, H2. cbn [andb]. f_equal. eapply sorted_unique; [exact Hs|exact Hd2|]. rewrite <- Hp. exact Hd1.
  Qed.
  Lemma default_err t e : tensor_ok t -> default_dim_order info t = Err e -> e = OtherException.
  Proof. intros Hok. rewrite (default_eq t Hok). destruct (_ && _); congruence. Qed.
  Lemma index_of_map (f : nat -> nat) dims d : In d dims -> index_of dims (map f dims) d = f d.
  Proof. induction dims as [|x dims IH]; cbn; [contradiction|]. intros H. destruct (x =? d) eqn:E; [apply Nat.eqb_eq in E; now subst x|]. destruct H as [->|H]; [rewrite Nat.eqb_refl in E; discriminate|auto]. Qed.
  Lemma make_output_spec t dims : NoDup (t_dims t) -> incl dims (t_dims t) -> incl (t_dims t) dims ->
    (Permutation (t_dims t) dims -> exists out, make_output_tensor t dims = Ok out /\ stored t out dims) /\
    (forall out, make_output_tensor t dims = Ok out -> Permutation (t_dims t) dims /\ stored t out dims).
  Proof.
    intros Hn H1 H2. assert (Hst : forall out, make_output_tensor t dims = Ok out -> stored t out dims).
    { intros out. unfold make_output_tensor. destruct (_ =? _) eqn:E; cbn; [|discriminate]. intros H. injection H as <-. split; [reflexivity|]. split; [|split; reflexivity]. intros f. cbn. f_equal. apply map_ext_in. intros d Hd. apply index_of_map, H2, Hd. }
    split.
    - intros Hp. assert (E : exists out, make_output_tensor t dims = Ok out). { unfold make_output_tensor. rewrite (Permutation_length Hp), Nat.eqb_refl. cbn. eexists. reflexivity. } destruct E as (out & E). exists out. auto.
    - intros out H. split; [|auto]. revert H. unfold make_output_tensor. destruct (_ =? _) eqn:E; cbn; [|discriminate]. apply Nat.eqb_eq in E. intros _. apply NoDup_Permutation_bis; [exact Hn|lia|exact H2].
  Qed.
  Lemma check_dim_refl d : check_dim info d d = true.
  Proof. unfold check_dim, is_dim_known, is_dynamic. destruct (info d) as [[s|] b [x|]]; cbn; destruct b; cbn; rewrite ?Nat.eqb_refl; reflexivity. Qed.
  Lemma check_dims_refl l : forallb (fun p => check_dim info (fst p) (snd p)) (combine l l) = true.
  Proof. induction l as [|d l IH]; [reflexivity|]. cbn [combine forallb fst snd]. now rewrite check_dim_refl, IH. Qed.
  Lemma check_expected_iff x (out t : @tensor V) : t_dims out = x_dims x -> t_dtype out = t_dtype t -> t_sparse out = t_sparse t ->
    (check_expected info x out = Ok tt <-> t_dtype t = x_dtype x /\ t_sparse t = x_sparse x).
  Proof.
    intros E1 E2 E3. unfold check_expected. rewrite E1, E2, E3, Nat.eqb_refl. cbn [assert_ bind].
    replace (forallb (fun p => check_dim info (fst p) (snd p)) (combine (x_dims x) (x_dims x))) with true by (symmetry; apply check_dims_refl). cbn [assert_ bind].
    destruct (String.eqb (x_dtype x) (t_dtype t)) eqn:E; cbn [assert_ bind].
    - apply String.eqb_eq in E. rewrite assert_ok, opt_eqb_iff. intuition congruence.
    - split; [discriminate|]. intros [H _]. apply String.eqb_neq in E. congruence.
  Qed.
  Lemma mark_ok c t name dims : tensor_ok t -> forall c', mark_as_output info c t name dims = (c', Ok tt) ->
    exists out, c' = {| c_outputs := c_outputs c ++ [(name, out)]; c_expected := c_expected c |} /\ ~ In name (dkeys (c_outputs c)) /\ accepted info (c_expected c) name t dims (t_dims out) /\ stored t out (t_dims out).
  Proof.
    intros Hok c' H. pose proof Hok as (Hn & _). unfold mark_as_output, prepare_output in H.
    destruct (match c_expected c with None => Ok None | Some e => match dget e name with Some x => Ok (Some x) | None => Err AssertionError end end) as [ex|] eqn:Ex; cbn [bind] in H; [|discriminate].
    set (dims' := match dims, ex with None, Some x => Some (x_dims x) | _, _ => dims end) in *.
    destruct (match dims', ex with Some d, Some x => assert_ (dims_eqb (x_dims x) d) | _, _ => Ok tt end) as [[]|] eqn:Eq; cbn [bind] in H; [|discriminate].
    destruct (match dims' with Some d => Ok d | None => default_dim_order info t end) as [ds|] eqn:Ed; cbn [bind] in H; [|discriminate].
    destruct (subset ds (t_dims t) && subset (t_dims t) ds) eqn:Es; cbn [assert_ bind] in H; [|discriminate]. apply andb_true_iff in Es. destruct Es as [S1 S2]. apply subset_iff in S1, S2.
    destruct (make_output_tensor t ds) as [out|] eqn:Eo; cbn [bind] in H; [|discriminate]. destruct (dhas (c_outputs c) name) eqn:Eh; cbn [negb assert_ bind] in H; [discriminate|]. injection H as <- Hc.
    destruct (proj2 (make_output_spec t ds Hn S1 S2) out Eo) as [Hp Hst]. pose proof Hst as (D1 & D2 & D3 & D4). exists out. rewrite D1.
    assert (Hni : ~ In name (dkeys (c_outputs c))) by (rewrite <- dhas_keys; congruence).
    split; [|split; [exact Hni|split; [|exact Hst]]].
    - f_equal. clear - Hni. induction (c_outputs c) as [|(k, v) l IH]; cbn; [reflexivity|]. cbn in Hni. destruct (String.eqb k name) eqn:E; [apply String.eqb_eq in E; tauto|]. f_equal. apply IH. tauto.
    - split; [exact Hp|]. split; [|split].
      + intros d ->. unfold dims' in Ed. cbn in Ed. congruence.
      + intros e E. rewrite E in Ex. destruct (dget e name) as [x|] eqn:Eg; [|discriminate]. injection Ex as <-. exists x. split; [reflexivity|].
        assert (Edx : ds = x_dims x). { unfold dims' in *. destruct dims as [d|]; [|congruence]. apply assert_ok, dims_eqb_iff in Eq. congruence. }
        split; [exact Edx|]. apply (check_expected_iff x out t); [congruence|exact D3|exact D4|exact Hc].
      + intros -> E. rewrite E in Ex. injection Ex as <-. cbn in dims'. unfold dims' in Ed. now apply default_iff.
  Qed.
  Lemma mark_accepts c t name dims order : tensor_ok t -> ~ In name (dkeys (c_outputs c)) -> accepted info (c_expected c) name t dims order -> exists c', mark_as_output info c t name dims = (c', Ok tt).
  Proof.
    intros Hok Hni (Hp & A1 & A2 & A3). pose proof Hok as (Hn & _). unfold mark_as_output, prepare_output.
    assert (Hh : dhas (c_outputs c) name = false) by (destruct (dhas (c_outputs c) name) eqn:E; [apply dhas_keys in E; contradiction|reflexivity]).
    assert (S1 : incl order (t_dims t)) by (intros d Hd; eapply Permutation_in; [apply Permutation_sym, Hp|exact Hd]). assert (S2 : incl (t_dims t) order) by (intros d Hd; eapply Permutation_in; [exact Hp|exact Hd]).
    destruct (proj1 (make_output_spec t order Hn S1 S2) Hp) as (out & Eo & Hst). apply subset_iff in S1, S2. destruct Hst as (D1 & D2 & D3 & D4).
    destruct (c_expected c) as [e|] eqn:Ee.
    - destruct (A2 e eq_refl) as (x & Eg & Ex & T1 & T2). rewrite Eg. cbn [bind].
      assert (Ed : match dims with Some _ => dims | None => Some (x_dims x) end = Some order) by (destruct dims as [d|]; [f_equal; symmetry; now apply A1|now rewrite Ex]). 
      replace (match dims with None => Some (x_dims x) | Some _ => dims end) with (Some order) by (destruct dims; symmetry; exact Ed). rewrite (proj2 (dims_eqb_iff (x_dims x) order) (eq_sym Ex)). cbn [assert_ bind]. rewrite S1, S2. cbn [andb assert_ bind]. rewrite Eo. cbn [bind]. rewrite Hh. cbn [negb assert_ bind].
      rewrite (proj2 (check_expected_iff x out t ltac:(congruence) D3 D4) (conj T1 T2)). eexists. reflexivity.
    - cbn [bind]. assert (Ed : match dims with Some d => Ok d | None => default_dim_order info t end = Ok order) by (destruct dims as [d|]; [f_equal; symmetry; now apply A1|apply default_iff; auto]).
      replace (match dims with None => dims | Some _ => dims end) with dims by (destruct dims; reflexivity). replace (match dims with Some _ => Ok tt | None => Ok tt end : res unit) with (@Ok unit tt) by (destruct dims; reflexivity). cbn [bind]. rewrite Ed. cbn [bind]. rewrite S1, S2. cbn [andb assert_ bind]. rewrite Eo. cbn [bind]. rewrite Hh. cbn [negb assert_ bind]. eexists. reflexivity.
  Qed.
  Definition result_of expected (m : string * @tensor V * option (list nat)) (o : string * @tensor V) : Prop :=
    fst o = mark_name m /\ accepted info expected (mark_name m) (mark_tensor m) (mark_dims m) (t_dims (snd o)) /\ stored (mark_tensor m) (snd o) (t_dims (snd o)).
  Lemma result_keys expected marks outs : Forall2 (result_of expected) marks outs -> dkeys outs = map mark_name marks.
  Proof. induction 1 as [|m o marks outs H _ IH]; cbn; [reflexivity|]. f_equal; [exact (proj1 H)|exact IH]. Qed.
  Lemma mark_all_ok marks : forall (c c' : @ctx V), Forall (fun m => tensor_ok (mark_tensor m)) marks -> mark_all info c marks = Ok c' ->
    exists outs, c_outputs c' = c_outputs c ++ outs /\ c_expected c' = c_expected c /\ Forall2 (result_of (c_expected c)) marks outs /\ (NoDup (dkeys (c_outputs c)) -> NoDup (dkeys (c_outputs c'))).
  Proof.
    induction marks as [|[[name t] dims] marks IH]; intros c c' Hok H; cbn [mark_all] in H.
    - injection H as <-. exists []. rewrite app_nil_r. repeat split; auto.
    - inversion Hok as [|? ? Hok1 Hok2]; subst. destruct (mark_as_output info c t name dims) as [c1 [[]|]] eqn:E; [|discriminate]. destruct (mark_ok c t name dims Hok1 c1 E) as (out & -> & Hni & A & S).
      destruct (IH _ _ Hok2 H) as (outs & E1 & E2 & F & N). cbn [c_outputs c_expected] in *. exists ((name, out) :: outs). split; [rewrite E1, <- app_assoc; reflexivity|]. split; [exact E2|]. split; [constructor; [split; [reflexivity|split; [exact A|exact S]]|exact F]|].
      intros Hn. apply N. unfold dkeys. rewrite map_app. cbn. apply NoDup_Add with (a := name) (l := map fst (c_outputs c)); [|split; [exact Hn|exact Hni]]. rewrite <- (app_nil_r (map fst (c_outputs c))) at 1. apply Add_app.
  Qed.
  Lemma mark_all_accepts marks : forall c : @ctx V, Forall (fun m => tensor_ok (mark_tensor m)) marks -> NoDup (dkeys (c_outputs c) ++ map mark_name marks) ->
    Forall (fun m => exists order, accepted info (c_expected c) (mark_name m) (mark_tensor m) (mark_dims m) order) marks -> exists c', mark_all info c marks = Ok c'.
  Proof.
    induction marks as [|[[name t] dims] marks IH]; intros c Hok Hn Ha; cbn [mark_all]; [eexists; reflexivity|]. inversion Hok as [|? ? Hok1 Hok2]; subst. inversion Ha as [|? ? (order & A) Ha2]; subst. cbn [map mark_name mark_tensor mark_dims fst snd] in *.
    assert (Hni : ~ In name (dkeys (c_outputs c))). { intros Hi. apply NoDup_remove_2 in Hn. apply Hn. apply in_app_iff. now left. }
    destruct (mark_accepts c t name dims order Hok1 Hni A) as (c1 & E). rewrite E. destruct (mark_ok c t name dims Hok1 c1 E) as (out & -> & _). apply IH; cbn [c_outputs c_expected]; [exact Hok2| |exact Ha2].
    unfold dkeys. rewrite map_app, <- app_assoc. exact Hn.
  Qed.
  Lemma check_complete c : check_outputs_complete c = Ok tt <-> complete (c_expected c) (dkeys (c_outputs (V := V) c)).
  Proof.
    unfold check_outputs_complete, complete. destruct (c_expected c) as [e|]; [|split; [discriminate|reflexivity]]. rewrite assert_ok, andb_true_iff, !forallb_forall. split.
    - intros [H1 H2] e' E k. injection E as <-. split; intros Hk; apply dhas_keys; auto.
    - intros H. split; intros k Hk; apply dhas_keys, (H e eq_refl), Hk.
  Qed.
  Lemma mark_err c t name dims c' e : tensor_ok t -> mark_as_output info c t name dims = (c', Err e) ->
    e = AssertionError \/ (e = OtherException /\ dims = None /\ c_expected c = None).
  Proof.
    intros Hok. unfold mark_as_output, prepare_output, make_output_tensor, check_expected, assert_.
    destruct (c_expected c) as [ex|] eqn:Ee; [destruct (dget ex name) as [x|]; cbn [bind]|]; [| |].
    - assert (Hd : exists ds, match dims with None => Some (x_dims x) | Some _ => dims end = Some ds) by (destruct dims; eexists; reflexivity). destruct Hd as (ds & Hd).
      replace (match dims with None => Some (x_dims x) | Some _ => dims end) with (Some ds) by (destruct dims; symmetry; exact Hd).
      repeat match goal with |- context [if ?b then _ else _] => destruct b; cbn [bind] end; intros H; inversion H; auto.
    - intros H. inversion H. auto.
    - cbn [bind]. destruct dims as [ds|]; cbn [bind].
      + repeat match goal with |- context [if ?b then _ else _] => destruct b; cbn [bind] end; intros H; inversion H; auto.
      + destruct (default_dim_order info t) as [ds|e0] eqn:Ed; cbn [bind].
        * repeat match goal with |- context [if ?b then _ else _] => destruct b; cbn [bind] end; intros H; inversion H; auto.
        * intros H. injection H as _ <-. apply (default_err t e0 Hok) in Ed. right. auto.
  Qed.
End P.
