(** C42, C43, C44: the optimizer of the PyTorch engine. *)
From Coq Require Import String QArith Sorted.
From Verif Require Import Base ListLemmas PyDict OptimModel OptimSpec OptimProofs.
Local Open Scope string_scope. Local Open Scope nat_scope. Local Open Scope list_scope.
Local Notation length := List.length.

(** Saving always works. *)
Theorem C42_save : forall (St H : Type) names (o : optimizer St H), well_formed names o -> exists k, save_optimizer names o = Ok k.
Proof. intros St H names o W. destruct (save_spec names o W) as (k&_&E&_). now exists k. Qed.
Print Assumptions C42_save.

(** The optimizer [A] of one model (with parameter names [NA]) is saved, and the optimizer [B] of a model with the names [NB] loads the file. Either this is refused with a ValueError; or afterwards each parameter of [B] has exactly the state that the parameter with the same name had in [A], whatever the orders of the parameters are; [B] still has its parameters in its groups; the settings of the groups are those of [A]; and every trainable parameter of [B] was in the same group of [A]. *)
Theorem C42_state_by_name : forall (St H : Type) NA NB (A B : optimizer St H) grad k, well_formed NA A -> well_formed NB B -> save_optimizer NA A = Ok k ->
  load_optimizer NB grad B k = Err ValueError \/
  exists B', load_optimizer NB grad B k = Ok B' /\ map snd (p_groups B') = map snd (p_groups B) /\ map fst (p_groups B') = map fst (p_groups A) /\
    (forall b s, In (b, s) (p_state B') <-> exists n a, In b (params B) /\ In (n, b) NB /\ In (n, a) NA /\ In (a, s) (p_state A)) /\
    (forall i b n, in_group B i b -> In (n, b) NB -> grad b = true -> exists a, in_group A i a /\ In (n, a) NA).
Proof.
  intros St H NA NB A B grad k WA WB Hk. destruct (load_spec NA NB A B grad k WA WB Hk) as (nsA&nsB&_&_&[(B'&E&R)|(E&_)]); [right|now left]. exists B'. split; [exact E|exact R].
Qed.
Print Assumptions C42_state_by_name.

(** It is not refused if there are as many groups, every trainable parameter of [B] was in the same group of [A], and, in case that all parameters have the same order, the groups have the same sizes. *)
Theorem C42_load_succeeds : forall (St H : Type) NA NB (A B : optimizer St H) grad k, well_formed NA A -> well_formed NB B -> save_optimizer NA A = Ok k ->
  length (p_groups A) = length (p_groups B) -> (forall ns, in_order NA A ns -> in_order NB B ns -> sizes A = sizes B) ->
  (forall i b n, in_group B i b -> In (n, b) NB -> grad b = true -> exists a, in_group A i a /\ In (n, a) NA) ->
  exists B', load_optimizer NB grad B k = Ok B'.
Proof.
  intros St H NA NB A B grad k WA WB Hk Hl Hs Ht. destruct (load_spec NA NB A B grad k WA WB Hk) as (nsA&nsB&FA&FB&[(B'&E&R)|(E&Hn)]); [now exists B'|]. exfalso. apply Hn. split; [exact Hl|]. split; [|exact Ht]. intros ->. exact (Hs nsB FA FB).
Qed.
Print Assumptions C42_load_succeeds.

(** A file from before the names were stored: loading goes by the position, and is refused exactly if the groups have other sizes. *)
Theorem C42_old_file : forall (St H : Type) NA NB (A B : optimizer St H) grad k, well_formed NA A -> well_formed NB B -> save_optimizer NA A = Ok k ->
  let old := mk_ckpt (k_groups k) (k_state k) None in
  (sizes A = sizes B -> exists B', load_optimizer NB grad B old = Ok B' /\ map snd (p_groups B') = map snd (p_groups B) /\ map fst (p_groups B') = map fst (p_groups A) /\
     forall b s, In (b, s) (p_state B') <-> exists i a, nth_error (params B) i = Some b /\ nth_error (params A) i = Some a /\ In (a, s) (p_state A)) /\
  (sizes A <> sizes B -> load_optimizer NB grad B old = Err ValueError).
Proof.
  intros St H NA NB A B grad k WA WB Hk old. destruct (save_spec NA A WA) as (k'&ns&E&_&_&K1&K2&K3&K4). rewrite Hk in E. apply Ok_inj in E. subst k'. unfold load_optimizer. cbn [k_names old]. split.
  - intros Hs. assert (Hl : length (params A) = length (params B)).
    { unfold sizes in Hs. unfold params. clear - Hs. revert Hs. generalize (p_groups A), (p_groups B). intros l. induction l as [|x l IH]; intros [|y l'] Hs; try discriminate; [reflexivity|]. cbn in *. injection Hs as H1 H2. rewrite !app_length. f_equal; auto. }
    destruct (load_numbers B old) as (B'&EB&R1&R2&R3); [cbn [k_groups old]; rewrite K1; now rewrite Hl|cbn [k_groups old]; now rewrite K3|]. exists B'. split; [exact EB|]. split; [exact R1|]. split; [rewrite R2; exact K2|]. intros b s. rewrite R3. cbn [k_state old]. split.
    + intros (i&Hi&Hb). apply K4 in Hi. destruct Hi as (a&Ha&Hs'). exists i, a. auto.
    + intros (i&a&Hb&Ha&Hs'). exists i. split; [|exact Hb]. apply K4. eauto.
  - intros Hs. unfold load_state_dict. cbn [k_groups old]. destruct (length (p_groups B) =? length (k_groups k)) eqn:El; cbn [negb]; [|reflexivity]. apply Nat.eqb_eq in El.
    destruct (forallb _ _) eqn:Ef; [|reflexivity]. exfalso. apply Hs. rewrite <- K3. unfold sizes. rewrite forallb_forall in Ef. clear - Ef El. revert Ef El. generalize (k_groups k), (p_groups B). intros l l'. revert l. induction l' as [|y l' IH]; intros [|x l] Ef Eg; try discriminate; [reflexivity|]. cbn [map]. cbn in Eg. injection Eg as Eg. f_equal; [|apply IH; [|exact Eg]; intros z Hz; apply Ef; now right].
    specialize (Ef (y, x) (or_introl eq_refl)). cbn in Ef. apply Nat.eqb_eq in Ef. now symmetry.
Qed.
Print Assumptions C42_old_file.

Definition ex_NA : list (string * nat) := [("enc.weight", 10); ("enc.bias", 11); ("dec.weight", 12)].
Definition ex_NB : list (string * nat) := [("dec.weight", 5); ("new.mean", 6); ("enc.weight", 7); ("enc.bias", 8)].
Definition ex_A : optimizer nat string := mk_optimizer [("wd", [10; 12]); ("no wd", [11])] [(10, 100); (11, 110); (12, 120)].
Definition ex_B : optimizer nat string := mk_optimizer [("a", [5; 7]); ("b", [6; 8])] [].
Example C42_ex : well_formed ex_NA ex_A /\ well_formed ex_NB ex_B /\
  match save_optimizer ex_NA ex_A with
  | Ok k => k_groups k = [("wd", [0; 1]); ("no wd", [2])] /\ k_state k = [(0, 100); (2, 110); (1, 120)] /\ k_names k = Some ["enc.weight"; "dec.weight"; "enc.bias"] /\
      load_optimizer ex_NB (fun p => negb (p =? 6)) ex_B k = Ok (mk_optimizer [("wd", [5; 7]); ("no wd", [6; 8])] [(7, 100); (8, 110); (5, 120)]) /\
      load_optimizer ex_NB (fun p => true) ex_B k = Err ValueError
  | Err _ => False
  end.
Proof.
  assert (T : forall (l : list nat), nodup Nat.eq_dec l = l -> NoDup l) by (intros l <-; apply NoDup_nodup). assert (T' : forall (l : list string), nodup string_dec l = l -> NoDup l) by (intros l <-; apply NoDup_nodup).
  split; [|split; [|vm_compute; repeat split]]; (split; [apply T'; reflexivity|]; split; [apply T; reflexivity|]; split; [apply T; reflexivity|]; split; [intros x Hx; cbn in *; tauto|]; split; [apply T; reflexivity|intros x Hx; cbn in *; tauto]).
Qed.

(** Finding: without the condition on the sizes it can be refused: when a parameter that is not trainable has moved to the other group and the order is the same. With another order it would have been accepted. *)
Theorem C42_frozen_moved_refuted : ~ (forall (St H : Type) NA NB (A B : optimizer St H) grad k, well_formed NA A -> well_formed NB B -> save_optimizer NA A = Ok k ->
  length (p_groups A) = length (p_groups B) ->
  (forall i b n, in_group B i b -> In (n, b) NB -> grad b = true -> exists a, in_group A i a /\ In (n, a) NA) ->
  exists B', load_optimizer NB grad B k = Ok B').
Proof.
  intros X. set (A := mk_optimizer [(tt, [0; 1]); (tt, [])] [] : optimizer nat unit). set (B := mk_optimizer [(tt, [0]); (tt, [1])] [] : optimizer nat unit). set (N := [("w", 0); ("frozen", 1)]).
  assert (T : forall (l : list nat), nodup Nat.eq_dec l = l -> NoDup l) by (intros l <-; apply NoDup_nodup). assert (T' : forall (l : list string), nodup string_dec l = l -> NoDup l) by (intros l <-; apply NoDup_nodup).
  destruct (X nat unit N N A B (fun p => p =? 0) (mk_ckpt [(tt, [0; 1]); (tt, [])] [] (Some ["w"; "frozen"]))) as (B'&E).
  - split; [apply T'; reflexivity|]; split; [apply T; reflexivity|]; split; [apply T; reflexivity|]; split; [intros x Hx; cbn in *; tauto|]; split; [apply T; reflexivity|intros x Hx; cbn in *; tauto].
  - split; [apply T'; reflexivity|]; split; [apply T; reflexivity|]; split; [apply T; reflexivity|]; split; [intros x Hx; cbn in *; tauto|]; split; [apply T; reflexivity|intros x Hx; cbn in *; tauto].
  - reflexivity.
  - reflexivity.
  - intros i b n (h&ps&Hg&Hb) Hn Hgr. apply Nat.eqb_eq in Hgr. subst b. destruct i as [|[|[|i]]]; cbn in Hg; try discriminate; injection Hg as <- <-; [|destruct Hb as [Hb|[]]; discriminate]. exists 0. split; [exists tt, [0; 1]; split; [reflexivity|now left]|exact Hn].
  - discriminate.
Qed.
Print Assumptions C42_frozen_moved_refuted.

(** ** C43 *)
(** With a weight decay and an optimizer that has this option: two groups, which together contain every parameter of the network exactly once (also if modules share parameters); the first one, with the weight decay, has exactly those for which the documented rule says so; the second one has none. Within each group they are sorted by name. *)
Theorem C43_weight_decay_groups : forall net kwargs o w, distinct_names net -> In "weight_decay" kwargs -> o_weight_decay o = Some w -> ~ (w == 0)%Q ->
  exists a b keys, get_param_groups net kwargs o = Ok ([mk_group a (Some w); mk_group b (Some 0%Q)], keys) /\
    NoDup (a ++ b) /\ (forall p, In p (a ++ b) <-> occurs net p) /\ (forall m pn p, first_place net m pn p -> (In p a <-> decays o m pn p)) /\
    sorted_by_name net a /\ sorted_by_name net b.
Proof.
  intros net kwargs o w Hd Hk Hw Hz. unfold get_param_groups. assert (E : has_wd kwargs = true) by (unfold has_wd; apply existsb_exists; exists "weight_decay"; split; [exact Hk|reflexivity]). rewrite E, Hw. cbn [negb].
  destruct (Qeq_bool w 0) eqn:Ez; [apply Qeq_bool_iff in Ez; contradiction|]. cbv zeta.
  destruct (group_spec net (in_wd o) Hd) as (a&Ea&Na&Sa&Ha). destruct (group_spec net (fun x => negb (in_wd o x)) Hd) as (b&Eb&Nb&Sb&Hb). rewrite Ea. cbn [bind]. rewrite Eb. cbn [bind].
  assert (U : forall m pn m' pn' p, first_place net m pn p -> first_place net m' pn' p -> m = m' /\ pn = pn').
  { intros m pn m' pn' p H1 H2. apply visit_in in H1, H2. pose proof (proj1 (visit_spec net [])) as Hp. revert Hp H1 H2. generalize (visit net []). intros l. induction l as [|x l IH]; [intros _ []|]. cbn [map]. intros Hp [-> |H1] [E2|H2]; inversion Hp as [|? ? Hx Hl]; subst.
    - now injection E2 as -> ->.
    - exfalso. apply Hx, in_map_iff. now exists (m', pn', p).
    - exfalso. apply Hx, in_map_iff. now exists (m, pn, p).
    - now apply IH. }
  exists a, b. eexists. split; [reflexivity|]. split; [|split; [|split; [|split; [exact Sa|exact Sb]]]].
  - apply NoDup_app_intro2; [exact Na|exact Nb|]. intros p Hpa Hpb. apply Ha in Hpa. apply Hb in Hpb. destruct Hpa as (m&pn&F1&E1), Hpb as (m'&pn'&F2&E2). destruct (U _ _ _ _ _ F1 F2). subst. rewrite E1 in E2. discriminate.
  - intros p. rewrite in_app_iff, Ha, Hb. split; [intros [(m&pn&F&_)|(m&pn&F&_)]; now apply first_place_occurs in F|]. intros Ho. destruct (occurs_first_place net p Ho) as (m&pn&F). destruct (in_wd o (m, pn, p)) eqn:Ei; [left|right]; exists m, pn; (split; [exact F|]); [exact Ei|now rewrite Ei].
  - intros m pn p F. rewrite Ha, <- in_wd_decays. split; [|intros Hi; now exists m, pn]. intros (m'&pn'&F'&Hi). destruct (U _ _ _ _ _ F F'). now subst.
Qed.
Print Assumptions C43_weight_decay_groups.

(** Without weight decay, or if the optimizer does not know it: one group with every parameter of the network exactly once. *)
Theorem C43_one_group : forall net kwargs o, distinct_names net -> o_weight_decay o = None \/ (In "weight_decay" kwargs /\ exists w, o_weight_decay o = Some w /\ (w == 0)%Q) ->
  exists ps keys, get_param_groups net kwargs o = Ok ([mk_group ps None], keys) /\ NoDup ps /\ forall p, In p ps <-> occurs net p.
Proof.
  intros net kwargs o Hd Hw. destruct (whole_spec net Hd) as (W1&W2). unfold get_param_groups. exists (map snd (named_parameters net)), (keys_left o false). split; [|split; assumption].
  destruct Hw as [Hw|(Hk&w&Hw&Hz)]; rewrite Hw.
  - destruct (has_wd kwargs); reflexivity.
  - assert (E : has_wd kwargs = true) by (unfold has_wd; apply existsb_exists; exists "weight_decay"; split; [exact Hk|reflexivity]). rewrite E. cbn [negb]. apply Qeq_bool_iff in Hz. now rewrite Hz.
Qed.
Print Assumptions C43_one_group.

Definition ex_net : network := [mk_module "" false false []; mk_module "emb" true false [("weight", 0)]; mk_module "lin" false true [("weight", 1); ("bias", 2)]; mk_module "out" false false [("weight", 0); ("scale", 3)]].
Definition ex_opts (w : Q) : opts := mk_opts (Some w) false None None ["betas"].
Example C43_ex : distinct_names ex_net /\ get_param_groups ex_net ["lr"; "betas"; "weight_decay"] (ex_opts (1 # 100)) = Ok ([mk_group [1; 3] (Some (1 # 100)); mk_group [0; 2] (Some 0%Q)], ["weight_decay"; "betas"]) /\
  get_param_groups ex_net ["lr"; "betas"] (mk_opts None false None None []) = Ok ([mk_group [0; 1; 2; 3] None], []).
Proof.
  split; [|split; reflexivity]. assert (G : forall m pn p, first_place ex_net m pn p -> In (full_name m pn, p) [("emb.weight", 0); ("lin.weight", 1); ("lin.bias", 2); ("out.scale", 3)]).
  { intros m pn p F. apply visit_in in F. change (In (place (m, pn, p)) (map place (visit ex_net []))). now apply in_map. }
  intros m pn p m' pn' p' F F' E. apply G in F, F'. rewrite E in F. apply (fst_inj [("emb.weight", 0); ("lin.weight", 1); ("lin.bias", 2); ("out.scale", 3)] (full_name m' pn')); [|exact F|exact F'].
  assert (T' : forall (l : list string), nodup string_dec l = l -> NoDup l) by (intros l <-; apply NoDup_nodup). apply T'. reflexivity.
Qed.

(** Finding: the user function that decides about weight decay gets only the last part of the name of the parameter, in the argument called [full_param_name]; so asking for a full name there never matches. *)
Theorem C43_full_param_name_refuted : ~ (forall net kwargs w name a b keys, distinct_names net -> In "weight_decay" kwargs -> ~ (w == 0)%Q ->
  get_param_groups net kwargs (mk_opts (Some w) false (Some (fun _ full_param_name _ => Some (String.eqb full_param_name name))) None []) = Ok ([mk_group a (Some w); mk_group b (Some 0%Q)], keys) ->
  forall m pn p, first_place net m pn p -> (In p a <-> full_name m pn = name)).
Proof.
  intros X. destruct (X ex_net ["weight_decay"] (1 # 100)%Q "lin.weight" [] [0; 2; 1; 3] ["weight_decay"] (proj1 C43_ex) (or_introl eq_refl)) with (m := mk_module "lin" false true [("weight", 1); ("bias", 2)]) (pn := "weight") (p := 1) as (_&F).
  - discriminate.
  - reflexivity.
  - apply visit_in. right. left. reflexivity.
  - exact (F eq_refl).
Qed.
Print Assumptions C43_full_param_name_refuted.

(** Which options are accepted when there is a weight decay: exactly those that the class of the optimizer has, ["epsilon"] standing for ["eps"]. *)
Theorem C43_accepted_options : forall net kwargs o w u, distinct_names net -> In "weight_decay" kwargs -> o_weight_decay o = Some w -> ~ (w == 0)%Q ->
  ~ In "lr" (o_other o) -> ~ In "learning_rate" (o_other o) ->
  (is_ok (create_optimizer net kwargs o u) = true <-> forall k, In k (o_other o) -> In k kwargs \/ (k = "epsilon" /\ In "eps" kwargs)).
Proof.
  intros net kwargs o w u Hd Hk Hw Hz Hlr Hlr'. unfold create_optimizer. assert (E : existsb (fun k => String.eqb k "learning_rate" || String.eqb k "lr") (o_other o) = false).
  { apply not_true_is_false. intros E. apply existsb_exists in E. destruct E as (k&Hin&E). apply orb_true_iff in E. rewrite !String.eqb_eq in E. destruct E; subst k; contradiction. }
  rewrite E. destruct (C43_weight_decay_groups net kwargs o w Hd Hk Hw Hz) as (a&b&keys&Eg&_). assert (Ek : keys = ["weight_decay"] ++ o_other o).
  { revert Eg. unfold get_param_groups. assert (Eh : has_wd kwargs = true) by (unfold has_wd; apply existsb_exists; exists "weight_decay"; split; [exact Hk|reflexivity]). rewrite Eh, Hw. cbn [negb].
    destruct (Qeq_bool w 0) eqn:Ez; [apply Qeq_bool_iff in Ez; contradiction|]. cbv zeta. destruct (mapM _ _); [|discriminate]. cbn [bind]. destruct (mapM _ _); [|discriminate]. cbn [bind]. intros X. apply Ok_inj in X. injection X as _ _ <-. unfold keys_left. now rewrite Hw. }
  rewrite Eg. cbn [bind snd fst]. assert (M : forall x l, existsb (String.eqb x) l = true <-> In x l).
  { intros x l. rewrite existsb_exists. split; [intros (y&Hy&Hxy); apply String.eqb_eq in Hxy; now subst|]. intros Hx. exists x. split; [exact Hx|apply String.eqb_refl]. }
  assert (R : forallb (fun k => existsb (String.eqb k) kwargs) (rename_eps kwargs keys) = true <-> forall k, In k (o_other o) -> In k kwargs \/ (k = "epsilon" /\ In "eps" kwargs)).
  { rewrite forallb_forall. subst keys. unfold rename_eps. destruct (existsb (String.eqb "eps") kwargs) eqn:Ee.
    - apply M in Ee. destruct (existsb (String.eqb "epsilon") (["weight_decay"] ++ o_other o)) eqn:Ep; cbn [andb].
      + split.
        * intros X k Hin. destruct (String.eqb k "epsilon") eqn:E1; [right; apply String.eqb_eq in E1; auto|]. destruct (String.eqb k "eps") eqn:E2; [apply String.eqb_eq in E2; subst; auto|]. left. apply M, X. apply in_or_app. left. apply filter_In. split; [now right|]. rewrite E1, E2. reflexivity.
        * intros X k Hin. apply M. apply in_app_or in Hin. destruct Hin as [Hin|[<-|[]]]; [|exact Ee]. apply filter_In in Hin. destruct Hin as [Hin Hn]. destruct Hin as [<-|Hin]; [exact Hk|]. destruct (X k Hin) as [Y|[-> _]]; [exact Y|discriminate].
      + split.
        * intros X k Hin. left. apply M, X. now right.
        * intros X k [<-|Hin]; apply M; [exact Hk|]. destruct (X k Hin) as [Y|[-> _]]; [exact Y|]. exfalso. apply not_true_iff_false in Ep. apply Ep, M. now right.
    - cbn [andb]. split.
      + intros X k Hin. left. apply M, X. now right.
      + intros X k [<-|Hin]; apply M; [exact Hk|]. destruct (X k Hin) as [Y|[_ Y]]; [exact Y|]. exfalso. apply not_true_iff_false in Ee. now apply Ee, M. }
  destruct (forallb _ _); cbn; [split; [intros _; now apply R|reflexivity]|]. split; [discriminate|]. intros X. apply R in X. discriminate.
Qed.
Print Assumptions C43_accepted_options.

(** Finding: with the weight decay set to zero, the options for excluding modules are not removed, and the optimizer refuses them. *)
Theorem C43_unused_option_refuted : ~ (forall net kwargs o u, distinct_names net -> In "lr" kwargs -> In "weight_decay" kwargs -> (forall k, In k (o_other o) -> In k kwargs /\ k <> "lr" /\ k <> "learning_rate") -> exists u', create_optimizer net kwargs o u = Ok u').
Proof.
  intros X. destruct (X ex_net ["lr"; "weight_decay"] (mk_opts (Some 0%Q) true None None []) (new_updater None 1) (proj1 C43_ex)) as (u'&E); [now left|right; now left|intros k []|discriminate].
Qed.
Print Assumptions C43_unused_option_refuted.

(** ** C44 *)
(** After any number of settings of the learning rate and of the training step, the effective learning rate is the configured function of the last ones (or the last learning rate itself), and all parameter groups have it. *)
Theorem C44_effective_learning_rate : forall f cs u, cs <> [] -> let u' := run_calls f cs u in
  u_effective u' = scheduled f (last_step (u_step u, u_epoch u, u_continuous u) cs) (last_lr (u_lr u) cs) /\
  option_map (map fst) (u_groups u') = option_map (map fst) (u_groups u) /\
  forall gs g lr, u_groups u' = Some gs -> In (g, lr) gs -> lr = u_effective u'.
Proof. exact run_calls_effective. Qed.
Print Assumptions C44_effective_learning_rate.

Example C44_ex : forall u', create_optimizer ex_net ["lr"; "weight_decay"] (mk_opts (Some (1 # 100)) false None None []) (new_updater None 1) = Ok u' ->
  let f := Some (fun step epoch (c : option Q) lr => (lr * inject_Z (Z.of_nat step))%Q) in
  u_groups (run_calls f [SetLearningRate (1 # 2); SetTrainStep 6 1 None] u') = Some [(mk_group [1; 3] (Some (1 # 100)), (6 # 2)%Q); (mk_group [0; 2] (Some 0%Q), (6 # 2)%Q)] .
Proof. intros u' [= <-]. reflexivity. Qed.

(** Finding: the option [learning_rate_multiplier] has no effect: the factor is lost with the first setting of the learning rate, which the engine does at the start of each epoch. *)
Theorem C44_multiplier_refuted : ~ (forall net kwargs o u u' mult v, create_optimizer net kwargs o u = Ok u' -> o_lr_multiplier o = Some mult ->
  forall gs g lr, u_groups (set_learning_rate None v u') = Some gs -> In (g, lr) gs -> (lr == v * mult)%Q) /\
  forall net kwargs o o' u u1 u2 v, o_weight_decay o = o_weight_decay o' -> o_blacklist o = o_blacklist o' -> o_include o = o_include o' -> o_other o = o_other o' ->
    create_optimizer net kwargs o u = Ok u1 -> create_optimizer net kwargs o' u = Ok u2 -> set_learning_rate None v u1 = set_learning_rate None v u2.
Proof.
  split.
  - intros X. specialize (X ex_net ["lr"; "weight_decay"] (mk_opts None false None (Some 3%Q) []) (new_updater None 1) _ 3%Q 1%Q eq_refl eq_refl). cbn in X. specialize (X _ _ _ eq_refl (or_introl eq_refl)). discriminate.
  - intros net kwargs o o' u u1 u2 v E1 E2 E3 E4. destruct o as [w bl inc mu ot], o' as [w' bl' inc' mu' ot']. cbn in E1, E2, E3, E4. subst w' bl' inc' ot'. unfold create_optimizer. cbn [o_other o_lr_multiplier].
    change (get_param_groups net kwargs (mk_opts w bl inc mu ot)) with (get_param_groups net kwargs (mk_opts w bl inc mu' ot)). destruct (existsb _ ot); [discriminate|]. destruct (get_param_groups net kwargs _) as [[gs ks]|]; [|discriminate]. cbn [bind snd fst]. destruct (forallb _ _); [|discriminate]. intros [= <-] [= <-].
    unfold set_learning_rate, update_effective. cbn. now rewrite !map_map.
Qed.
Print Assumptions C44_multiplier_refuted.
