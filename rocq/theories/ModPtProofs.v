(** Proofs for the conversion to torch modules. *)
From Coq Require Import String Ascii.
From Verif Require Import Base PyDict ListLemmas ModTreeModel ModTreeSpec ModTreeProofs ModParamProofs ModSetProofs.
Local Open Scope nat_scope.

(** the attributes of a module by their kind *)
Definition is_buffer (aux : nat -> bool) (as_buffers : bool) (p : nat) : bool := aux p && as_buffers.
Fixpoint own_params (f : nat -> bool) (items : list (string * attr)) : list (string * nat) :=
  match items with
  | [] => []
  | (n, AParam p) :: rest => if f p then (n, p) :: own_params f rest else own_params f rest
  | _ :: rest => own_params f rest
  end.
Fixpoint own_mods (items : list (string * attr)) : list (string * nat) :=
  match items with
  | [] => []
  | (n, AMod k) :: rest => (n, k) :: own_mods rest
  | _ :: rest => own_mods rest
  end.
Lemma In_own_params f items n p : In (n, p) (own_params f items) <-> In (n, AParam p) items /\ f p = true.
Proof.
  induction items as [|(n', a) items IH]; cbn; [tauto|]. destruct a as [k|q|x]; cbn.
  - rewrite IH. split; intros [H H']; (split; [|easy]); [now right|]. destruct H as [?|?]; [discriminate|easy].
  - destruct (f q) eqn:Ef; cbn; rewrite IH; split.
    + intros [[= -> ->]|[H H']]; [split; [now left|easy]|]. split; [now right|easy].
    + intros [[[= -> ->]|H] H']; [now left|]. now right.
    + intros [H H']. split; [now right|easy].
    + intros [[[= -> ->]|H] H']; [congruence|easy].
  - rewrite IH. split; intros [H H']; (split; [|easy]); [now right|]. destruct H as [?|?]; [discriminate|easy].
Qed.
Lemma In_own_mods items n k : In (n, k) (own_mods items) <-> In (n, AMod k) items.
Proof.
  induction items as [|(n', a) items IH]; cbn; [tauto|]. destruct a as [q|q|x]; cbn; rewrite IH; split.
  - intros [[= -> ->]|H]; [now left|now right].
  - intros [[= -> ->]|H]; [now left|now right].
  - intros H. now right.
  - intros [?|H]; [discriminate|easy].
  - intros H. now right.
  - intros [?|H]; [discriminate|easy].
Qed.
Lemma own_params_nodup f items : NoDup (map fst items) -> NoDup (map fst (own_params f items)).
Proof.
  induction items as [|(n', a) items IH]; cbn; [easy|]. intros H. inversion H as [|? ? Hn Hl]; subst. destruct a as [q|q|x]; [now apply IH| |now apply IH].
  destruct (f q); [|now apply IH]. cbn. constructor; [|now apply IH]. intros Hin. apply in_map_iff in Hin as ((n2, p2) & E & Hin). cbn in E. subst n2.
  apply In_own_params in Hin as (Hin & _). apply (in_map fst) in Hin. now apply Hn.
Qed.
Lemma own_mods_nodup items : NoDup (map fst items) -> NoDup (map fst (own_mods items)).
Proof.
  induction items as [|(n', a) items IH]; cbn; [easy|]. intros H. inversion H as [|? ? Hn Hl]; subst. destruct a as [q|q|x]; [|now apply IH|now apply IH].
  cbn. constructor; [|now apply IH]. intros Hin. apply in_map_iff in Hin as ((n2, p2) & E & Hin). cbn in E. subst n2.
  apply In_own_mods in Hin. apply (in_map fst) in Hin. now apply Hn.
Qed.

Section Convert.
Variables (h : heap) (aux : nat -> bool) (as_buffers : bool).
Hypothesis Hg : good_heap h.
Notation buf := (is_buffer aux as_buffers).

Lemma to_pt_inv fuel m t : to_pt fuel h aux as_buffers m = Ok t -> exists fuel' cs, fuel = S fuel'
  /\ t = PT (own_params (fun p => negb (buf p)) (vars h m)) (own_params buf (vars h m)) cs
  /\ Forall2 (fun nk nc => fst nk = fst nc /\ to_pt fuel' h aux as_buffers (snd nk) = Ok (snd nc)) (own_mods (vars h m)) cs.
Proof.
  destruct fuel as [|fuel]; [discriminate|]. cbn [to_pt]. intros E. exists fuel.
  revert t E. generalize (vars h m) as items. induction items as [|(n, a) items IH]; intros t E.
  - apply Ok_inj in E. subst t. exists []. split; [easy|]. split; [easy|constructor].
  - destruct a as [k|p|x].
    + apply bind_Ok in E as (c & Ec & E). apply bind_Ok in E as (u & Eu & E). apply bind_Ok in E as (t' & Et & E). apply Ok_inj in E.
      destruct (IH _ Et) as (cs & _ & -> & Hcs). exists ((n, c) :: cs). split; [easy|]. split; [now rewrite <- E|]. cbn [own_mods]. constructor; [easy|exact Hcs].
    + apply bind_Ok in E as (u & Eu & E). apply bind_Ok in E as (t' & Et & E).
      destruct (IH _ Et) as (cs & _ & -> & Hcs). exists cs. split; [easy|]. cbn [own_params own_mods]. unfold is_buffer in *. 
      destruct (aux p && as_buffers); apply Ok_inj in E; split; try exact Hcs; now rewrite <- E.
    + destruct (IH _ E) as (cs & _ & -> & Hcs). exists cs. split; [easy|]. split; [easy|exact Hcs].
Qed.
Lemma check_good n : good_name n -> check_name n = Ok tt.
Proof.
  intros (Hne & Hd). unfold check_name. rewrite (proj1 (has_dot_false n) Hd). destruct (String.eqb_spec n ""); [easy|reflexivity].
Qed.
Lemma to_pt_total : acyclic h -> forall m, exists fuel t, to_pt fuel h aux as_buffers m = Ok t.
Proof.
  intros (rank & Hr). assert (H : forall f m, rank m < f -> exists t, to_pt f h aux as_buffers m = Ok t).
  { induction f as [|f IH]; intros m Hm; [lia|]. cbn [to_pt].
    assert (Hinc : incl (vars h m) (vars h m)) by apply incl_refl. revert Hinc. generalize (vars h m) at 1 3 as items.
    induction items as [|(n, a) items IHi]; intros Hinc; [now eexists|].
    assert (Hinc' : incl items (vars h m)) by (intros x Hx; apply Hinc; now right).
    assert (Hn : good_name n) by (destruct (proj2 (Hg m) n a); [apply Hinc; now left|easy]).
    destruct (IHi Hinc') as (t & Et). destruct a as [k|p|x].
    - destruct (IH k) as (c & Ec); [assert (Hin : In (n, AMod k) (vars h m)) by (apply Hinc; now left); specialize (Hr _ _ _ Hin); lia|].
      rewrite Ec, check_good by easy. cbn [bind]. rewrite Et. now eexists.
    - rewrite check_good by easy. cbn [bind]. rewrite Et. cbn [bind]. destruct (aux p && as_buffers); now eexists.
    - rewrite Et. now eexists. }
  intros m. destruct (H (S (rank m)) m) as (t & E); [lia|]. now exists (S (rank m)), t.
Qed.
(** a converted module does not contain itself *)
Lemma to_pt_path a ns b : path h a ns b -> forall fuel t, to_pt fuel h aux as_buffers a = Ok t -> exists fuel' t', to_pt fuel' h aux as_buffers b = Ok t' /\ fuel = length ns + fuel'.
Proof.
  induction 1 as [m|m n k ns m' Hin _ IH]; intros fuel t E; [now exists fuel, t|].
  apply to_pt_inv in E as (f & cs & -> & -> & Hcs). apply In_own_mods in Hin.
  apply In_nth_error in Hin as (i & Hi). destruct (nth_error cs i) as [nc|] eqn:Ei.
  - destruct (Forall2_nth _ _ _ i _ _ Hcs Hi Ei) as (_ & Ec). destruct (IH _ _ Ec) as (f' & t' & E' & ->). exists f', t'. split; [easy|]. cbn. lia.
  - apply nth_error_None in Ei. apply Forall2_len in Hcs. assert (i < length (own_mods (vars h m))) by (apply nth_error_Some; congruence). lia.
Qed.
Lemma to_pt_cycle m ns : path h m ns m -> ns <> [] -> forall fuel t, to_pt fuel h aux as_buffers m <> Ok t.
Proof.
  intros Hp Hne fuel. induction fuel as [fuel IH] using lt_wf_ind. intros t E. destruct (to_pt_path _ _ _ Hp _ _ E) as (f' & t' & E' & Hf).
  destruct ns as [|n ns]; [easy|]. apply (IH f') with (t := t'); [cbn in Hf; lia|easy].
Qed.

(** the paths of all parameters and buffers of the tree, as in state_dict *)
Fixpoint sp (t : pt) : list (list string * nat) :=
  match t with
  | PT params buffers children =>
      map (fun np => ([fst np], snd np)) params ++ map (fun np => ([fst np], snd np)) buffers
      ++ flat_map (fun nc => map (fun x => (fst nc :: fst x, snd x)) (sp (snd nc))) children
  end.
(** as in named_modules *)
Fixpoint spp (get : pt -> list (string * nat)) (t : pt) : list (list string * nat) :=
  map (fun np => ([fst np], snd np)) (get t)
  ++ match t with PT _ _ children => flat_map (fun nc => map (fun x => (fst nc :: fst x, snd x)) (spp get (snd nc))) children end.

Lemma param_path_cons (m : nat) n k ns p : In (n, AMod k) (vars h m) -> param_path h k ns p -> param_path h m (n :: ns) p.
Proof. intros Hin (ns' & n' & m' & -> & Hp & Hi). exists (n :: ns'), n', m'. split; [easy|]. split; [econstructor; eauto|easy]. Qed.
Lemma param_path_inv m ns p : param_path h m ns p <->
  (exists n, ns = [n] /\ In (n, AParam p) (vars h m)) \/ (exists n k ns', ns = n :: ns' /\ In (n, AMod k) (vars h m) /\ param_path h k ns' p).
Proof.
  split.
  - intros (ns' & n & m' & -> & Hp & Hi). inversion Hp as [|? x k ns2 ? Hin Hp']; subst.
    + left. now exists n.
    + right. exists x, k, (ns2 ++ [n]). split; [easy|]. split; [easy|]. now exists ns2, n, m'.
  - intros [(n & -> & Hi)|(n & k & ns' & -> & Hin & Hp)]; [|eapply param_path_cons; eauto]. exists [], n, m. split; [easy|]. split; [constructor|easy].
Qed.

Lemma In_children (F : pt -> list (list string * nat)) f mods cs : Forall2 (fun nk nc => fst nk = fst nc /\ to_pt f h aux as_buffers (snd nk) = Ok (snd nc)) mods cs ->
  forall ns p (P : nat -> list string -> Prop), (forall k c ns, to_pt f h aux as_buffers k = Ok c -> In (ns, p) (F c) <-> P k ns) ->
  In (ns, p) (flat_map (fun nc : string * pt => map (fun x => (fst nc :: fst x, snd x)) (F (snd nc))) cs)
  <-> exists n k ns', ns = n :: ns' /\ In (n, k) mods /\ P k ns'.
Proof.
  intros HF ns p P HP. induction HF as [|(n, k) (n', c) mods cs (E1 & E2) _ IH]; cbn.
  - split; [intros []|]. now intros (n & k & ns' & _ & [] & _).
  - cbn in E1, E2. subst n'. rewrite in_app_iff, IH, in_map_iff. split.
    + intros [((ns', q) & Ex & Hin)|(n2 & k2 & ns' & -> & Hin & Hp)].
      * cbn in Ex. injection Ex as <- <-. exists n, k, ns'. split; [easy|]. split; [now left|]. now apply (HP k c).
      * exists n2, k2, ns'. split; [easy|]. split; [now right|easy].
    + intros (n2 & k2 & ns' & -> & [[= <- <-]|Hin] & Hp).
      * left. exists (ns', p). split; [easy|]. now apply (HP k c).
      * right. now exists n2, k2, ns'.
Qed.
Lemma In_single (l : list (string * nat)) ns p : In (ns, p) (map (fun np : string * nat => ([fst np], snd np)) l) <-> exists n, ns = [n] /\ In (n, p) l.
Proof.
  rewrite in_map_iff. split.
  - intros ((n, q) & E & Hin). cbn in E. injection E as <- <-. now exists n.
  - intros (n & -> & Hin). now exists (n, p).
Qed.
Lemma sp_spec fuel : forall m t ns p, to_pt fuel h aux as_buffers m = Ok t -> In (ns, p) (sp t) <-> param_path h m ns p.
Proof.
  induction fuel as [fuel IH] using lt_wf_ind. intros m t ns p E. apply to_pt_inv in E as (f & cs & -> & -> & Hcs). cbn [sp].
  rewrite !in_app_iff, !In_single, param_path_inv.
  rewrite (In_children sp f _ _ Hcs ns p (fun k ns => param_path h k ns p)) by (intros k c ns' Ec; apply (IH f (Nat.lt_succ_diag_r f) k c ns' p Ec)).
  split.
  - intros [(n & -> & Hin)|[(n & -> & Hin)|(n & k & ns' & -> & Hin & Hp)]].
    + apply In_own_params in Hin as (Hin & _). left. now exists n.
    + apply In_own_params in Hin as (Hin & _). left. now exists n.
    + apply In_own_mods in Hin. right. now exists n, k, ns'.
  - intros [(n & -> & Hin)|(n & k & ns' & -> & Hin & Hp)].
    + destruct (buf p) eqn:Eb; [right; left|left]; exists n; (split; [easy|]); apply In_own_params; (split; [easy|]); [easy|]. now rewrite Eb.
    + right. right. apply In_own_mods in Hin. now exists n, k, ns'.
Qed.
Lemma spp_spec get (f0 : bool) (Hget : forall a b c, get (PT a b c) = if f0 then a else b) fuel : forall m t ns p, to_pt fuel h aux as_buffers m = Ok t ->
  In (ns, p) (spp get t) <-> param_path h m ns p /\ buf p = negb f0.
Proof.
  induction fuel as [fuel IH] using lt_wf_ind. intros m t ns p E. apply to_pt_inv in E as (f & cs & -> & -> & Hcs). cbn [spp].
  rewrite in_app_iff, In_single, param_path_inv, Hget.
  rewrite (In_children (spp get) f _ _ Hcs ns p (fun k ns => param_path h k ns p /\ buf p = negb f0)) by (intros k c ns' Ec; apply (IH f (Nat.lt_succ_diag_r f) k c ns' p Ec)).
  assert (Hown : forall n, In (n, p) (if f0 then own_params (fun p => negb (buf p)) (vars h m) else own_params buf (vars h m)) <-> In (n, AParam p) (vars h m) /\ buf p = negb f0).
  { intros n. destruct f0; rewrite In_own_params; [rewrite negb_true_iff|]; tauto. }
  split.
  - intros [(n & -> & Hin)|(n & k & ns' & -> & Hin & Hp & Hb)].
    + apply Hown in Hin as (Hin & Hb). split; [|easy]. left. now exists n.
    + apply In_own_mods in Hin. split; [|easy]. right. now exists n, k, ns'.
  - intros ([(n & -> & Hin)|(n & k & ns' & -> & Hin & Hp)] & Hb).
    + left. exists n. split; [easy|]. now apply Hown.
    + right. apply In_own_mods in Hin. now exists n, k, ns'.
Qed.

(** no name twice *)
Lemma sp_nodup fuel : forall m t, to_pt fuel h aux as_buffers m = Ok t -> NoDup (map fst (sp t)).
Proof.
  induction fuel as [fuel IH] using lt_wf_ind. intros m t E. apply to_pt_inv in E as (f & cs & -> & -> & Hcs). cbn [sp].
  destruct (Hg m) as (Hok & _). rewrite !map_app, !map_map. cbn [fst].
  assert (Hs : forall g, NoDup (map (fun x : string * nat => [fst x]) (own_params g (vars h m)))).
  { intros g. rewrite <- (map_map fst (fun n : string => [n])). apply NoDup_map_inj; [congruence|]. apply own_params_nodup, Hok. }
  assert (Hin1 : forall g ns, In ns (map (fun x : string * nat => [fst x]) (own_params g (vars h m))) -> exists n p, ns = [n] /\ In (n, AParam p) (vars h m) /\ g p = true).
  { intros g ns H. apply in_map_iff in H as ((n, p) & <- & H). exists n, p. split; [easy|]. now apply In_own_params in H. }
  assert (Hin2 : forall ns, In ns (map fst (flat_map (fun nc : string * pt => map (fun x => (fst nc :: fst x, snd x)) (sp (snd nc))) cs)) -> length ns >= 2).
  { intros ns H. apply in_map_iff in H as ((ns', p) & <- & H). apply in_flat_map in H as ((n, c) & Hc & H). apply in_map_iff in H as ((ns2, q) & E & H).
    cbn in E. injection E as <- <-. cbn [fst length].
    apply In_nth_error in Hc as (i & Hi). destruct (nth_error (own_mods (vars h m)) i) as [nk|] eqn:Ei.
    - destruct (Forall2_nth _ _ _ i _ _ Hcs Ei Hi) as (_ & Ec). cbn in Ec, H. pose proof (proj1 (sp_spec f _ _ _ _ Ec) H) as (ns3 & n3 & m3 & -> & _).
      rewrite app_length. cbn. lia.
    - apply nth_error_None in Ei. apply Forall2_len in Hcs. assert (i < length cs) by (apply nth_error_Some; congruence). lia. }
  apply NoDup_app_intro2; [apply Hs|apply NoDup_app_intro2; [apply Hs| |]|].
  - assert (Hn : NoDup (map fst cs)).
    { replace (map fst cs) with (map fst (own_mods (vars h m))); [now apply own_mods_nodup|]. clear -Hcs. induction Hcs as [|a b l l' [E _] _ IH]; [easy|]. cbn. now rewrite E, IH. }
    assert (Hall : forall nc, In nc cs -> NoDup (map fst (sp (snd nc)))).
    { intros nc Hnc. apply In_nth_error in Hnc as (i & Hi). destruct (nth_error (own_mods (vars h m)) i) as [nk|] eqn:Ei.
      - destruct (Forall2_nth _ _ _ i _ _ Hcs Ei Hi) as (_ & Ec). eapply (IH f); [lia|exact Ec].
      - apply nth_error_None in Ei. apply Forall2_len in Hcs. assert (i < length cs) by (apply nth_error_Some; congruence). lia. }
    clear -Hn Hall. induction cs as [|(n, c) cs IHc]; [constructor|]. cbn in *. inversion Hn as [|? ? Hn1 Hn2]; subst. rewrite map_app, map_map. cbn [fst].
    apply NoDup_app_intro2.
    + rewrite <- (map_map fst (fun ns => n :: ns)). apply NoDup_map_inj; [congruence|]. apply (Hall (n, c)). now left.
    + apply IHc; [easy|]. intros nc Hnc. apply Hall. now right.
    + intros ns H1 H2. apply in_map_iff in H1 as ((ns1, p1) & <- & _). cbn in H2. apply in_map_iff in H2 as ((ns2, p2) & E & H2). cbn in E.
      apply in_flat_map in H2 as ((n', c') & Hc & H2). apply in_map_iff in H2 as ((ns3, p3) & E3 & _). cbn in E3.
      apply Hn1. apply (in_map fst) in Hc. cbn in Hc. assert (n = n') by congruence. now subst.
  - intros ns H1 H2. apply Hin2 in H2. apply Hin1 in H1 as (n & p & -> & _). cbn in H2. lia.
  - intros ns H1 H2. apply in_app_iff in H2 as [H2|H2].
    + apply Hin1 in H1 as (n & p & -> & Hi & Hb). apply Hin1 in H2 as (n' & p' & E & Hi' & Hb'). injection E as <-.
      assert (p = p'). { apply (In_dget (vars h m)) in Hi; [|easy]. apply (In_dget (vars h m)) in Hi'; [|easy]. congruence. }
      subst p'. rewrite Hb' in Hb. discriminate.
    + apply Hin2 in H2. apply Hin1 in H1 as (n & p & -> & _). cbn in H2. lia.
Qed.

(** the names which torch builds *)
Lemma sp_nonnil fuel m t ns p : to_pt fuel h aux as_buffers m = Ok t -> In (ns, p) (sp t) -> ns <> [].
Proof. intros E H. pose proof (proj1 (sp_spec _ _ _ _ _ E) H) as (ns' & n & m' & -> & _). clear H. intros H. now apply app_eq_nil in H. Qed.
Lemma state_dict_sp fuel : forall m t pre, to_pt fuel h aux as_buffers m = Ok t -> state_dict pre t = map (fun x => ((pre ++ dotted (fst x))%string, snd x)) (sp t).
Proof.
  induction fuel as [fuel IH] using lt_wf_ind. intros m t pre E. pose proof E as E0. apply to_pt_inv in E as (f & cs & -> & -> & Hcs). cbn [state_dict sp].
  rewrite !map_app, !map_map. cbn [fst snd]. f_equal. f_equal.
  clear E0. induction Hcs as [|(n, k) (n', c) mods cs (E1 & E2) _ IHc]; [reflexivity|]. cbn [flat_map fst snd]. cbn in E1, E2. subst n'. rewrite map_app, <- IHc. f_equal.
  rewrite (IH f) with (m := k) by (try lia; easy). rewrite map_map. apply map_ext_in. intros (ns, p) Hin. cbn [fst snd].
  destruct ns as [|a ns]; [now apply (sp_nonnil _ _ _ _ _ E2) in Hin|]. rewrite dotted_cons, !append_assoc. reflexivity.
Qed.
Theorem state_dict_spec fuel m t : to_pt fuel h aux as_buffers m = Ok t ->
  NoDup (map fst (state_dict "" t)) /\ forall n p, In (n, p) (state_dict "" t) <-> exists ns, n = dotted ns /\ param_path h m ns p.
Proof.
  intros E. rewrite (state_dict_sp _ _ _ ""%string E). cbn [append]. split.
  - rewrite map_map. cbn [fst]. rewrite <- (map_map fst dotted). apply NoDup_map_inj; [|eapply sp_nodup; eauto].
    intros x y Hx Hy. apply in_map_iff in Hx as ((ns & p) & <- & Hx). apply in_map_iff in Hy as ((ns' & p') & <- & Hy). cbn.
    apply (sp_spec _ _ _ _ _ E) in Hx, Hy. apply dotted_inj; eapply param_path_good; eauto.
  - intros n p. rewrite in_map_iff. split.
    + intros ((ns, q) & Ex & Hin). cbn in Ex. injection Ex as <- <-. exists ns. split; [easy|]. now apply (sp_spec _ _ _ _ _ E).
    + intros (ns & -> & Hp). exists (ns, p). split; [easy|]. now apply (sp_spec _ _ _ _ _ E).
Qed.

Lemma own_spp get fuel : forall m t ns0, Forall good_name ns0 -> to_pt fuel h aux as_buffers m = Ok t ->
  own get (pt_modules (dotted ns0) t) = map (fun x => (dotted (ns0 ++ fst x), snd x)) (spp get t).
Proof.
  induction fuel as [fuel IH] using lt_wf_ind. intros m t ns0 Hns0 E. pose proof E as E0. apply to_pt_inv in E as (f & cs & -> & -> & Hcs).
  cbn [pt_modules spp]. unfold own. cbn [flat_map fst snd]. rewrite map_app, map_map. f_equal.
  - apply map_ext. intros (n, p). cbn [fst snd]. now rewrite key_dotted.
  - assert (Hgm : forall n k, In (n, k) (own_mods (vars h m)) -> good_name n).
    { intros n k Hin. apply In_own_mods in Hin. now destruct (proj2 (Hg m) _ _ Hin). }
    clear E0. revert Hgm. induction Hcs as [|(n, k) (n', c) mods cs (E1 & E2) _ IHc]; intros Hgm; [reflexivity|]. cbn [flat_map fst snd]. cbn in E1, E2. subst n'.
    rewrite flat_map_app, map_app, <- IHc by (intros n2 k2 H; apply (Hgm n2 k2); now right). f_equal. rewrite key_dotted by easy.
    change (flat_map _ (pt_modules (dotted (ns0 ++ [n])) c)) with (own get (pt_modules (dotted (ns0 ++ [n])) c)).
    rewrite (IH f) with (m := k); [|lia| |easy].
    + rewrite map_map. apply map_ext. intros (ns, p). cbn [fst snd]. now rewrite <- app_assoc.
    + apply Forall_app. split; [easy|]. constructor; [|constructor]. apply (Hgm n k). now left.
Qed.
Lemma members_spec l : forall memo, NoDup (map snd (members l memo)) /\ incl (members l memo) l
  /\ forall p, In p (map snd (members l memo)) <-> In p (map snd l) /\ ~ In p memo.
Proof.
  induction l as [|(n, p) l IH]; intros memo; cbn [members].
  - split; [constructor|]. split; [easy|]. intros p. cbn. tauto.
  - destruct (mem p memo) eqn:Em.
    + apply mem_In in Em. destruct (IH memo) as (H1 & H2 & H3). split; [easy|]. split; [intros x Hx; right; now apply H2|].
      intros q. rewrite H3. cbn. split; [tauto|]. intros ([<-|H] & Hq); [easy|tauto].
    + apply mem_nIn in Em. destruct (IH (p :: memo)) as (H1 & H2 & H3). cbn [map snd]. split; [|split].
      * constructor; [|easy]. rewrite H3. intros (_ & H). apply H. now left.
      * intros x [<-|Hx]; [now left|]. right. now apply H2.
      * intros q. cbn [In]. rewrite H3. destruct (Nat.eq_dec p q) as [->|Hne]; cbn; tauto.
Qed.
(** what torch.nn.Module.named_parameters ([f0]) and named_buffers give *)
Theorem named_spec get (f0 : bool) (Hget : forall a b c, get (PT a b c) = if f0 then a else b) fuel m t : to_pt fuel h aux as_buffers m = Ok t ->
  let l := members (own get (pt_modules "" t)) [] in
  NoDup (map snd l) /\ (forall p, In p (map snd l) <-> (exists ns, param_path h m ns p) /\ buf p = negb f0)
  /\ forall n p, In (n, p) l -> exists ns, n = dotted ns /\ param_path h m ns p.
Proof.
  intros E. change ""%string with (dotted []). rewrite (own_spp get fuel m t []) by (try constructor; easy).
  cbn [app]. destruct (members_spec (map (fun x : list string * nat => (dotted (fst x), snd x)) (spp get t)) []) as (H1 & H2 & H3). cbn zeta. split; [easy|]. split.
  - intros p. rewrite H3, map_map. cbn [snd]. rewrite in_map_iff. split.
    + intros (((ns, q) & <- & Hin) & _). apply (spp_spec get f0 Hget _ _ _ _ _ E) in Hin as (Hp & Hb). split; [now exists ns|easy].
    + intros ((ns & Hp) & Hb). split; [|easy]. exists (ns, p). split; [easy|]. now apply (spp_spec get f0 Hget _ _ _ _ _ E).
  - intros n p Hin. apply H2 in Hin. apply in_map_iff in Hin as ((ns, q) & Ex & Hin). cbn in Ex. injection Ex as <- <-.
    apply (spp_spec get f0 Hget _ _ _ _ _ E) in Hin as (Hp & _). now exists ns.
Qed.
End Convert.
