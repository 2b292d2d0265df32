From Coq Require Import String QArith Sorted.
From Verif Require Import Base ListLemmas PyDict OptimModel OptimSpec.
Local Open Scope string_scope. Local Open Scope nat_scope. Local Open Scope list_scope.
Local Notation length := List.length.
Local Notation concat := List.concat.

(** ** Dictionaries and numbers *)
Lemma to_dict_nodup {V} (l : list (string * V)) : NoDup (map fst l) -> to_dict l = l.
Proof.
  unfold to_dict. intros H. assert (G : forall d, NoDup (map fst (d ++ l)) -> fold_left (fun d kv => dset d (fst kv) (snd kv)) l d = d ++ l).
  { clear H. induction l as [|[k v] l IH]; intros d H; cbn [fold_left]; [now rewrite app_nil_r|]. cbn [fst snd].
    assert (E : dset d k v = d ++ [(k, v)]).
    { assert (Hk : ~ In k (map fst d)). { rewrite map_app in H. cbn in H. apply NoDup_remove_2 in H. intros Hi. apply H. apply in_or_app. now left. }
      clear - Hk. induction d as [|[a w] d IHd]; [reflexivity|]. cbn [dset]. destruct (keqb a k) eqn:E; [apply keqb_eq in E; subst; exfalso; apply Hk; now left|]. cbn [app]. f_equal. apply IHd. intros Hi. apply Hk. now right. }
    rewrite E, IH by (rewrite <- app_assoc; exact H). now rewrite <- app_assoc. }
  apply (G []). exact H.
Qed.
Lemma index_of_ge p l : forall s i, index_of p l s = Some i -> s <= i.
Proof. induction l as [|y l IH]; intros s i H; cbn [index_of] in H; [discriminate|]. destruct (y =? p); [injection H as <-; lia|]. apply IH in H. lia. Qed.
Lemma index_of_spec p l : NoDup l -> forall s i, index_of p l s = Some (s + i) <-> nth_error l i = Some p.
Proof.
  induction l as [|y l IH]; intros Hn s i; cbn [index_of].
  - destruct i; split; discriminate.
  - inversion Hn as [|? ? Hy Hl]; subst. destruct (Nat.eqb_spec y p) as [->|Hne].
    + destruct i as [|i]; cbn [nth_error]; [rewrite Nat.add_0_r; tauto|]. split; [intros [= E]; lia|]. intros E. apply nth_error_In in E. contradiction.
    + destruct i as [|i]; cbn [nth_error].
      * split; [|intros [= ->]; congruence]. intros H. apply index_of_ge in H. lia.
      * rewrite <- IH with (s := S s) by exact Hl. rewrite Nat.add_succ_r, Nat.add_succ_l. reflexivity.
Qed.
Lemma number_spec ps p i : NoDup ps -> number ps p = Ok i <-> nth_error ps i = Some p.
Proof.
  intros Hn. unfold number. rewrite <- (index_of_spec p ps Hn 0 i). cbn [Nat.add]. destruct (index_of p ps 0); split; congruence.
Qed.
Lemma combine_seq_dget (l : list string) n : NoDup l -> forall s i, dget (combine l (seq s (length l))) n = Some (s + i) <-> nth_error l i = Some n.
Proof.
  induction l as [|y l IH]; intros Hn s i; cbn [length seq combine dget].
  - destruct i; split; discriminate.
  - inversion Hn as [|? ? Hy Hl]; subst. destruct (keqb y n) eqn:E.
    + apply keqb_eq in E. subst y. destruct i as [|i]; cbn [nth_error]; [rewrite Nat.add_0_r; tauto|]. split; [intros [= E]; lia|]. intros E. apply nth_error_In in E. contradiction.
    + apply keqb_neq in E. destruct i as [|i]; cbn [nth_error].
      * split; [|intros [= ->]; congruence]. intros H. apply dget_In in H. apply in_combine_r in H. apply in_seq in H. lia.
      * rewrite <- IH with (s := S s) by exact Hl. rewrite Nat.add_succ_r, Nat.add_succ_l. reflexivity.
Qed.
Lemma map_fst_combine {A B} (a : list A) (b : list B) : length a = length b -> map fst (combine a b) = a.
Proof. revert b. induction a as [|x a IH]; intros [|y b] H; try discriminate; [reflexivity|]. cbn. f_equal. apply IH. now injection H. Qed.
Lemma positions_spec l n i : NoDup l -> dget (positions l) n = Some i <-> nth_error l i = Some n.
Proof.
  intros Hn. unfold positions. rewrite to_dict_nodup by (rewrite map_fst_combine by (now rewrite seq_length); exact Hn). apply (combine_seq_dget l n Hn 0 i).
Qed.
Lemma name_of_spec names p n : NoDup (map snd names) -> name_of names p = Ok n <-> In (n, p) names.
Proof.
  intros Hn. unfold name_of. set (d := map (fun np => (snd np, fst np)) names). assert (Hd : dict_ok d) by (unfold dict_ok, dkeys, d; rewrite map_map; exact Hn).
  assert (E : dget d p = Some n <-> In (n, p) names).
  { split; intros H.
    - apply dget_In in H. unfold d in H. apply in_map_iff in H. destruct H as ((a&b)&[= -> ->]&H). exact H.
    - apply In_dget; [exact Hd|]. unfold d. apply in_map_iff. exists (n, p). split; [reflexivity|exact H]. }
  rewrite <- E. destruct (dget d p); split; congruence.
Qed.
Lemma lookup_spec {V} (d : list (string * V)) n v : NoDup (map fst d) -> lookup d n = Ok v <-> In (n, v) d.
Proof.
  intros Hn. unfold lookup. assert (E : dget d n = Some v <-> In (n, v) d) by (split; [apply dget_In|now apply In_dget]). rewrite <- E. destruct (dget d n); split; congruence.
Qed.
Lemma same_setb a b : same_set a b = true <-> forall x, In x a <-> In x b.
Proof.
  unfold same_set. rewrite andb_true_iff, !forallb_forall. unfold mems.
  assert (E : forall x l, existsb (String.eqb x) l = true <-> In x l).
  { intros x l. rewrite existsb_exists. split; [intros (y&Hy&H); apply String.eqb_eq in H; now subst|]. intros H. exists x. split; [exact H|apply String.eqb_refl]. }
  setoid_rewrite E. firstorder.
Qed.
Lemma mems_In x l : mems x l = true <-> In x l.
Proof. unfold mems. rewrite existsb_exists. split; [intros (y&Hy&H); apply String.eqb_eq in H; now subst|]. intros H. exists x. split; [exact H|apply String.eqb_refl]. Qed.

Lemma Forall2_nth_iff_ {A B} (R : A -> B -> Prop) a : forall b, length a = length b /\ (forall i x y, nth_error a i = Some x -> nth_error b i = Some y -> R x y) -> Forall2 R a b.
Proof.
  induction a as [|x a IH]; intros [|y b] (Hl&Hn); try discriminate; constructor; [exact (Hn 0 x y eq_refl eq_refl)|]. apply IH. split; [now injection Hl|]. intros i u v Hu Hv. exact (Hn (S i) u v Hu Hv).
Qed.
Lemma NoDup_app_disj {A} (a b : list A) : NoDup (a ++ b) -> forall x, In x a -> ~ In x b.
Proof.
  induction a as [|y a IH]; intros Hn x []; inversion Hn as [|? ? Hy Ha]; subst; [intros Hb; apply Hy, in_or_app; now right|now apply IH].
Qed.

(** ** Numbering the parameters *)
Section Load.
Context {St H : Type}.
Implicit Types (gs : list (H * list nat)).
Lemma renumber (f : nat -> res nat) gs : forall s, (forall i p, nth_error (all_params gs) i = Some p -> f p = Ok (s + i)) ->
  exists gs', mapM (fun g => let* is := mapM f (snd g) in Ok (fst g, is)) gs = Ok gs' /\ all_params gs' = seq s (length (all_params gs)) /\ map fst gs' = map fst gs /\ map (fun g => length (snd g)) gs' = map (fun g => length (snd g)) gs.
Proof.
  induction gs as [|[h ps] gs IH]; intros s Hf; cbn [mapM].
  - exists []. split; [reflexivity|]. cbn. tauto.
  - cbn [all_params flat_map snd fst] in *. fold (all_params gs) in *.
    assert (E : mapM f ps = Ok (seq s (length ps))).
    { apply mapM_Ok_Forall2. assert (Hp : forall i p, nth_error ps i = Some p -> f p = Ok (s + i)) by (intros i p Hi; apply Hf; rewrite nth_error_app1; [exact Hi|apply nth_error_Some; rewrite Hi; discriminate]).
      clear Hf IH. revert s Hp. induction ps as [|p ps IH]; intros s Hp; [constructor|]. cbn [length seq]. constructor; [rewrite (Hp 0 p eq_refl); f_equal; lia|]. apply IH. intros i q Hi. rewrite (Hp (S i) q Hi). f_equal. lia. }
    destruct (IH (s + length ps)) as (gs'&E'&A1&A2&A3).
    { intros i p Hi. rewrite (Hf (length ps + i) p); [f_equal; lia|]. rewrite nth_error_app2 by lia. now replace (length ps + i - length ps) with i by lia. }
    exists ((h, seq s (length ps)) :: gs'). rewrite E. cbn [bind]. rewrite E'. cbn [bind]. split; [reflexivity|]. cbn [all_params flat_map snd fst map]. fold (all_params gs'). rewrite A1, A2, A3, app_length, seq_app, seq_length. tauto.
Qed.

Lemma combine_seq_nth (l : list nat) : forall s i, dget (combine (seq s (length l)) l) (s + i) = nth_error l i.
Proof.
  induction l as [|y l IH]; intros s i; cbn [length seq combine dget]; [now destruct i|]. destruct i as [|i].
  - rewrite Nat.add_0_r. cbn. now rewrite Nat.eqb_refl.
  - cbn [keqb EqB_nat nth_error]. destruct (Nat.eqb_spec s (s + S i)); [lia|]. rewrite Nat.add_succ_r, <- Nat.add_succ_l. apply IH.
Qed.
(** Loading a state with the numbers 0, 1, ... *)
Lemma load_numbers (o : optimizer St H) k : all_params (k_groups k) = seq 0 (length (params o)) -> map (fun g => length (snd g)) (k_groups k) = sizes o ->
  exists o', load_state_dict o k = Ok o' /\ map snd (p_groups o') = map snd (p_groups o) /\ map fst (p_groups o') = map fst (k_groups k) /\
    (forall p s, In (p, s) (p_state o') <-> exists i, In (i, s) (k_state k) /\ nth_error (params o) i = Some p).
Proof.
  intros Hs Hl. unfold load_state_dict. assert (El : length (p_groups o) = length (k_groups k)) by (apply (f_equal (@List.length nat)) in Hl; unfold sizes in Hl; now rewrite !map_length in Hl).
  rewrite El, Nat.eqb_refl. cbn [negb].
  assert (Ef : forallb (fun ab => length (snd (fst ab)) =? length (snd (snd ab))) (combine (p_groups o) (k_groups k)) = true).
  { unfold sizes in Hl. clear Hs. revert Hl El. generalize (p_groups o). generalize (k_groups k). intros a. induction a as [|x a IH]; intros [|y b] Hl El; try discriminate; [reflexivity|]. cbn in *. injection Hl as H1 H2. rewrite H1, Nat.eqb_refl. cbn. apply IH; [exact H2|lia]. }
  rewrite Ef. cbn [negb]. eexists. split; [reflexivity|]. cbn [p_groups p_state]. split; [|split].
  - clear - El. revert El. generalize (p_groups o). generalize (k_groups k). intros a b. revert a. induction b as [|y b IH]; intros [|x a] El; try discriminate; [reflexivity|]. cbn. f_equal. apply IH. now injection El.
  - clear - El. revert El. generalize (p_groups o). generalize (k_groups k). intros a b. revert a. induction b as [|y b IH]; intros [|x a] El; try discriminate; [reflexivity|]. cbn. f_equal. apply IH. now injection El.
  - intros p s. rewrite Hs. change (all_params (p_groups o)) with (params o). rewrite in_flat_map. split.
    + intros ([i s']&Hi&Hp). cbn [fst snd] in Hp. pose proof (combine_seq_nth (params o) 0 i) as Ec. cbn [Nat.add] in Ec. rewrite Ec in Hp. destruct (nth_error (params o) i) as [q|] eqn:E; [|contradiction]. destruct Hp as [[= -> ->]|[]]. exists i. tauto.
    + intros (i&Hi&Hp). exists (i, s). split; [exact Hi|]. cbn [fst snd]. pose proof (combine_seq_nth (params o) 0 i) as Ec. cbn [Nat.add] in Ec. rewrite Ec, Hp. now left.
Qed.

(** ** Saving *)
Lemma names_exist names (ps : list nat) : NoDup (map snd names) -> incl ps (map snd names) -> exists ns, mapM (name_of names) ps = Ok ns /\ Forall2 (fun p n => In (n, p) names) ps ns.
Proof.
  intros Hn Hi. induction ps as [|p ps IH]; [exists []; split; [reflexivity|constructor]|]. destruct IH as (ns&E&F); [intros x Hx; apply Hi; now right|].
  assert (Hp : In p (map snd names)) by (apply Hi; now left). apply in_map_iff in Hp. destruct Hp as ([n q]&Eq&Hp). cbn in Eq. subst q.
  exists (n :: ns). cbn [mapM]. rewrite (proj2 (name_of_spec names p n Hn) Hp). cbn [bind]. rewrite E. split; [reflexivity|now constructor].
Qed.
Lemma save_spec names (o : optimizer St H) : well_formed names o -> exists k ns, save_optimizer names o = Ok k /\ k_names k = Some ns /\ in_order names o ns /\
  all_params (k_groups k) = seq 0 (length (params o)) /\ map fst (k_groups k) = map fst (p_groups o) /\ map (fun g => length (snd g)) (k_groups k) = sizes o /\
  (forall i s, In (i, s) (k_state k) <-> exists p, nth_error (params o) i = Some p /\ In (p, s) (p_state o)).
Proof.
  intros (W1&W2&W3&W4&W5&W6). destruct (names_exist names (params o) W2 W4) as (ns&En&Fn). unfold save_optimizer, opt_param_names. change (all_params (p_groups o)) with (params o). rewrite En. cbn [bind].
  unfold state_dict. change (all_params (p_groups o)) with (params o).
  destruct (renumber (number (params o)) (p_groups o) 0) as (gs&Eg&A1&A2&A3); [intros i p Hi; now apply number_spec|]. rewrite Eg. cbn [bind].
  assert (Es : exists st, mapM (fun e => let* i := number (params o) (fst e) in Ok (i, snd e)) (p_state o) = Ok st /\ forall i s, In (i, s) st <-> exists p, nth_error (params o) i = Some p /\ In (p, s) (p_state o)).
  { clear W5. revert W6. induction (p_state o) as [|[p s] l IH]; intros Hi; [exists []; split; [reflexivity|]; intros; split; [intros []|intros (?&_&[])]|].
    destruct IH as (st&E&HI); [intros x Hx; apply Hi; now right|]. assert (Hp : In p (params o)) by (apply Hi; now left). apply In_nth_error in Hp. destruct Hp as (i&Hp).
    exists ((i, s) :: st). cbn [mapM fst snd]. rewrite (proj2 (number_spec _ p i W3) Hp). cbn [bind]. rewrite E. split; [reflexivity|]. intros j t. split.
    - intros [[= <- <-]|Hj]; [exists p; split; [exact Hp|now left]|]. apply HI in Hj. destruct Hj as (q&Hq&Hj). exists q. split; [exact Hq|now right].
    - intros (q&Hq&[[= <- <-]|Hj]); [|right; apply HI; now exists q]. left. f_equal. eapply (proj1 (NoDup_nth_error (params o)) W3); [apply nth_error_Some; rewrite Hp; discriminate|congruence]. }
  destruct Es as (st&Est&HI). rewrite Est. cbn [bind]. eexists. exists ns. split; [reflexivity|]. cbn [k_names k_groups k_state]. split; [reflexivity|]. split; [exact Fn|]. split; [exact A1|]. split; [exact A2|]. split; [exact A3|exact HI].
Qed.
Lemma in_order_nth names (o : optimizer St H) ns i : in_order names o ns -> match nth_error (params o) i, nth_error ns i with Some p, Some n => In (n, p) names | None, None => True | _, _ => False end.
Proof.
  unfold in_order. intros F. revert i. induction F as [|p n ps ns Hp F IH]; intros [|i]; cbn [nth_error]; auto. apply IH.
Qed.
Lemma in_order_nodup names (o : optimizer St H) ns : well_formed names o -> in_order names o ns -> NoDup ns.
Proof.
  intros (W1&W2&W3&_) F. unfold in_order in F. revert W3 F. generalize (params o). intros ps Hn F. induction F as [|p n ps ns Hp F IH]; [constructor|]. inversion Hn as [|? ? Hp' Hn']; subst. constructor; [|now apply IH].
  intros Hi. apply Hp'. clear - W1 Hp F Hi. induction F as [|q m ps ns Hq F IH]; [destruct Hi|]. destruct Hi as [-> |Hi]; [left|right; now apply IH].
  pose proof (NoDup_map_inj fst names) as X. assert (E : (n, q) = (n, p)); [|congruence]. clear X IH F.
  assert (G : forall l : list (string * nat), NoDup (map fst l) -> In (n, q) l -> In (n, p) l -> q = p).
  { induction l as [|[a b] l IHl]; [intros _ []|]. cbn. intros Hnd [[= -> ->]|H1] [[= ->]|H2]; [reflexivity| | |inversion Hnd; auto].
    - exfalso. inversion Hnd as [|? ? X _]; subst. apply X, in_map_iff. now exists (n, p).
    - subst. exfalso. inversion Hnd as [|? ? X _]; subst. apply X, in_map_iff. now exists (n, q). }
  f_equal. now apply (G names).
Qed.

Lemma Forall2_flat_split {A B H1 H2 : Type} (R : A -> B -> Prop) (a : list (H1 * list A)) : forall b : list (H2 * list B), map (fun g => length (snd g)) a = map (fun g => length (snd g)) b ->
  Forall2 R (flat_map snd a) (flat_map snd b) -> Forall2 (fun x y => Forall2 R (snd x) (snd y)) a b.
Proof.
  induction a as [|[h x] a IH]; intros [|[h' y] b] Hl F; try discriminate; [constructor|]. cbn in *. injection Hl as E1 E2. apply Forall2_app_inv_l in F. destruct F as (l1&l2&F1&F2&E).
  assert (E3 : length l1 = length y) by (rewrite <- E1; symmetry; now apply Forall2_len in F1). assert (Hy : y = l1 /\ flat_map snd b = l2).
  { clear - E E3. revert l1 E E3. induction y as [|u y IHy]; intros [|v l1] E E3; try discriminate; [now split|]. cbn in E. injection E as -> E. destruct (IHy l1 E) as [-> E']; [now injection E3|]. now split. }
  destruct Hy. subst. constructor; [exact F1|]. apply IH; assumption.
Qed.
Lemma seq_nth_F2 (l : list nat) : Forall2 (fun p i => nth_error l i = Some p) l (seq 0 (length l)).
Proof.
  assert (G : forall m pre : list nat, Forall2 (fun p i => nth_error (pre ++ m) i = Some p) m (seq (length pre) (length m))).
  { induction m as [|x m IH]; intros pre; cbn [length seq]; [constructor|]. constructor; [rewrite nth_error_app2 by lia; now rewrite Nat.sub_diag|]. specialize (IH (pre ++ [x])). rewrite <- app_assoc, app_length in IH. cbn [length app] in IH. rewrite Nat.add_1_r in IH. exact IH. }
  apply (G l []).
Qed.

Definition matches (names : list (string * nat)) (ckpt_names critical : list string) (kg sg : H * list nat) : Prop :=
  forall n, In n critical -> ((exists i, In i (snd kg) /\ nth_error ckpt_names i = Some n) <-> (exists p, In p (snd sg) /\ In (n, p) names)).
Lemma F2_In_l {A B} (R : A -> B -> Prop) a b x : Forall2 R a b -> In x a -> exists y, In y b /\ R x y.
Proof. induction 1 as [|u v a b Hu F IH]; intros []; [subst; exists v; split; [now left|exact Hu]|]. destruct IH as (y&Hy&Hr); [assumption|]. exists y. split; [now right|exact Hr]. Qed.
Lemma F2_In_r {A B} (R : A -> B -> Prop) a b y : Forall2 R a b -> In y b -> exists x, In x a /\ R x y.
Proof. induction 1 as [|u v a b Hu F IH]; intros []; [subst; exists u; split; [now left|exact Hu]|]. destruct IH as (x&Hx&Hr); [assumption|]. exists x. split; [now right|exact Hr]. Qed.

Lemma remap_spec names self_pos ckpt_names critical : NoDup (map snd names) -> forall (sgs kgs : list (H * list nat)) s, length kgs = length sgs ->
  (forall i p, nth_error (all_params sgs) i = Some p -> exists n, name_of names p = Ok n /\ lookup self_pos n = Ok (s + i)) ->
  (forall i, In i (all_params kgs) -> i < length ckpt_names) ->
  (exists gs, remap_groups names self_pos ckpt_names critical kgs sgs = Ok gs /\ all_params gs = seq s (length (all_params sgs)) /\ map fst gs = map fst kgs /\
     map (fun g => length (snd g)) gs = map (fun g => length (snd g)) sgs /\ Forall2 (matches names ckpt_names critical) kgs sgs) \/
  (remap_groups names self_pos ckpt_names critical kgs sgs = Err ValueError /\ ~ Forall2 (matches names ckpt_names critical) kgs sgs).
Proof.
  intros Hn. induction sgs as [|[h ps] sgs IH]; intros [|[h' is] kgs] s Hl Hs Hk; try discriminate; cbn [remap_groups].
  { left. exists []. split; [reflexivity|]. cbn. repeat split. constructor. }
  injection Hl as Hl. cbn [all_params flat_map snd fst] in Hs, Hk. fold (all_params sgs) in Hs. fold (all_params kgs) in Hk.
  unfold remap_group. cbn [fst snd].
  assert (E1 : exists ns, mapM (name_of names) ps = Ok ns /\ Forall2 (fun p n => In (n, p) names) ps ns /\ mapM (fun n => lookup self_pos n) ns = Ok (seq s (length ps))).
  { assert (Hp : forall i p, nth_error ps i = Some p -> exists n, name_of names p = Ok n /\ lookup self_pos n = Ok (s + i)) by (intros i p Hi; apply Hs; rewrite nth_error_app1; [exact Hi|apply nth_error_Some; rewrite Hi; discriminate]).
    clear - Hp Hn. revert s Hp. induction ps as [|p ps IH]; intros s Hp; [exists []; repeat split; constructor|]. destruct (Hp 0 p eq_refl) as (n&En&El). destruct (IH (S s)) as (ns&A&B&C).
    { intros i q Hi. destruct (Hp (S i) q Hi) as (m&Em&Elm). exists m. split; [exact Em|]. rewrite Elm. f_equal. lia. }
    exists (n :: ns). cbn [mapM length seq]. rewrite En. cbn [bind]. rewrite A. split; [reflexivity|]. split; [constructor; [now apply name_of_spec in En|exact B]|]. rewrite El. cbn [bind]. rewrite C, Nat.add_0_r. reflexivity. }
  destruct E1 as (ns&E1&F1&E2). rewrite E1. cbn [bind].
  assert (E3 : exists ks, mapM (nth_name ckpt_names) is = Ok ks /\ Forall2 (fun i n => nth_error ckpt_names i = Some n) is ks).
  { assert (Hi : forall i, In i is -> i < length ckpt_names) by (intros i Hi; apply Hk, in_or_app; now left). clear - Hi. induction is as [|i is IH]; [exists []; split; [reflexivity|constructor]|]. destruct IH as (ks&E&F); [intros; apply Hi; now right|].
    destruct (nth_error ckpt_names i) as [n|] eqn:En; [|exfalso; apply nth_error_None in En; specialize (Hi i (or_introl eq_refl)); lia]. exists (n :: ks). cbn [mapM]. unfold nth_name at 1. rewrite En. cbn [bind]. rewrite E. split; [reflexivity|now constructor]. }
  destruct E3 as (ks&E3&F3). rewrite E3. cbn [bind].
  assert (Em : same_set (filter (fun n => mems n critical) ks) (filter (fun n => mems n critical) ns) = true <-> matches names ckpt_names critical (h', is) (h, ps)).
  { rewrite same_setb. unfold matches. cbn [snd]. setoid_rewrite filter_In. setoid_rewrite mems_In.
    assert (X1 : forall n, In n ks <-> exists i, In i is /\ nth_error ckpt_names i = Some n) by (intros n; split; [intros X; exact (F2_In_r _ _ _ _ F3 X)|intros (i&Hi&X); destruct (F2_In_l _ _ _ _ F3 Hi) as (m&Hm&Y); congruence]).
    assert (X2 : forall n, In n ns <-> exists p, In p ps /\ In (n, p) names).
    { intros n; split; [intros X; exact (F2_In_r _ _ _ _ F1 X)|]. intros (p&Hp&X). destruct (F2_In_l _ _ _ _ F1 Hp) as (m&Hm&Y). apply name_of_spec in X, Y; [|exact Hn|exact Hn]. congruence. }
    setoid_rewrite X1. setoid_rewrite X2. split; [intros X n Hc; specialize (X n); tauto|intros X n; specialize (X n); tauto]. }
  destruct (same_set _ _) eqn:Es.
  - cbn [negb]. rewrite E2. cbn [bind]. destruct (IH kgs (s + length ps) Hl) as [(gs&Eg&A1&A2&A3&A4)|(Eg&A)].
    + intros i p Hi. destruct (Hs (length ps + i) p) as (n&En&Eln); [rewrite nth_error_app2 by lia; now replace (length ps + i - length ps) with i by lia|]. exists n. split; [exact En|]. rewrite Eln. f_equal. lia.
    + intros i Hi. apply Hk, in_or_app. now right.
    + left. rewrite Eg. cbn [bind]. eexists. split; [reflexivity|]. cbn [all_params flat_map snd fst map]. fold (all_params gs). rewrite A1, A2, A3, app_length, seq_app, seq_length. repeat split. constructor; [now apply Em|exact A4].
    + right. rewrite Eg. split; [reflexivity|]. intros F. inversion F; subst. contradiction.
  - right. split; [reflexivity|]. intros F. inversion F as [|? ? ? ? Hm _]; subst. apply Em in Hm. discriminate.
Qed.

Lemma critical_spec names (o : optimizer St H) (grad : nat -> bool) (ns : list string) : well_formed names o -> in_order names o ns ->
  exists c, mapM (fun n => let* p := lookup names n in Ok (if grad p then [n] else [])) ns = Ok c /\
    forall n, In n (concat c) <-> exists p, In p (params o) /\ In (n, p) names /\ grad p = true.
Proof.
  intros (W1&W2&_) F. unfold in_order in F. induction F as [|p n ps ns Hp F IH]; [exists []; split; [reflexivity|]; intros n; cbn; split; [intros []|intros (?&[]&_)]|].
  destruct IH as (c&E&HI). cbn [mapM]. rewrite (proj2 (lookup_spec names n p W1) Hp). cbn [bind]. rewrite E. eexists. split; [reflexivity|]. intros m. cbn [concat]. rewrite in_app_iff, HI. split.
  - intros [Hm|(q&Hq&Hm)]; [|exists q; split; [now right|exact Hm]]. destruct (grad p) eqn:Eg; [|destruct Hm]. destruct Hm as [<-|[]]. exists p. split; [now left|tauto].
  - intros (q&[<-|Hq]&Hm&Hg); [|right; now exists q]. left. rewrite Hg. left. apply name_of_spec in Hp, Hm; [|exact W2|exact W2]. congruence.
Qed.
End Load.

Section Final.
Context {St H : Type}.
Variables (NA NB : list (string * nat)) (A B : optimizer St H) (grad : nat -> bool) (k : ckpt St H).
Hypotheses (WA : well_formed NA A) (WB : well_formed NB B) (Hk : save_optimizer NA A = Ok k).

(** The state of the parameter of [B] with the name [n] is that of the parameter of [A] with this name. *)
Definition by_name (B' : optimizer St H) : Prop :=
  forall b s, In (b, s) (p_state B') <-> exists n a, In b (params B) /\ In (n, b) NB /\ In (n, a) NA /\ In (a, s) (p_state A).
Definition result_ok (B' : optimizer St H) : Prop :=
  map snd (p_groups B') = map snd (p_groups B) /\ map fst (p_groups B') = map fst (p_groups A) /\ by_name B' /\
  forall i b n, in_group B i b -> In (n, b) NB -> grad b = true -> exists a, in_group A i a /\ In (n, a) NA.
Definition can_load (nsA nsB : list string) : Prop :=
  length (p_groups A) = length (p_groups B) /\ (nsA = nsB -> sizes A = sizes B) /\
  forall i b n, in_group B i b -> In (n, b) NB -> grad b = true -> exists a, in_group A i a /\ In (n, a) NA.

Lemma fst_inj (l : list (string * nat)) n p q : NoDup (map fst l) -> In (n, p) l -> In (n, q) l -> p = q.
Proof.
  induction l as [|[a b] l IH]; [intros _ []|]. cbn. intros Hn [[= -> ->]|H1] [[= E]|H2]; inversion Hn as [|? ? Hx Hl]; subst; auto.
  - exfalso. apply Hx, in_map_iff. now exists (n, q).
  - exfalso. apply Hx, in_map_iff. now exists (n, p).
Qed.
Lemma snd_inj (l : list (string * nat)) n m p : NoDup (map snd l) -> In (n, p) l -> In (m, p) l -> n = m.
Proof.
  induction l as [|[a b] l IH]; [intros _ []|]. cbn. intros Hn [[= -> ->]|H1] [[= E]|H2]; inversion Hn as [|? ? Hx Hl]; subst; auto.
  - exfalso. apply Hx, in_map_iff. now exists (m, p).
  - exfalso. apply Hx, in_map_iff. now exists (n, p).
Qed.
Lemma in_order_index names (o : optimizer St H) ns p n : well_formed names o -> in_order names o ns -> In p (params o) -> In (n, p) names -> exists i, nth_error (params o) i = Some p /\ nth_error ns i = Some n.
Proof.
  intros (W1&W2&_) F Hp Hn. apply In_nth_error in Hp. destruct Hp as (i&Hi). exists i. split; [exact Hi|]. pose proof (in_order_nth names o ns i F) as X. rewrite Hi in X. destruct (nth_error ns i) as [m|]; [|contradiction]. f_equal. exact (snd_inj _ _ _ _ W2 X Hn).
Qed.

Lemma load_spec : exists nsA nsB, in_order NA A nsA /\ in_order NB B nsB /\
  ((exists B', load_optimizer NB grad B k = Ok B' /\ result_ok B') \/ (load_optimizer NB grad B k = Err ValueError /\ ~ can_load nsA nsB)).
Proof.
  destruct (save_spec NA A WA) as (k'&nsA&Ek&Kn&FA&K1&K2&K3&K4). rewrite Hk in Ek. injection Ek as <-.
  pose proof WA as (A1&A2&A3&A4&A5&A6). pose proof WB as (B1&B2&B3&B4&B5&B6).
  destruct (names_exist NB (params B) B2 B4) as (nsB&EB&FB). exists nsA, nsB. split; [exact FA|]. split; [exact FB|].
  pose proof (in_order_nodup NA A nsA WA FA) as NdA. pose proof (in_order_nodup NB B nsB WB FB) as NdB.
  assert (LA : length nsA = length (params A)) by (symmetry; exact (Forall2_len _ _ _ FA)). assert (LB : length nsB = length (params B)) by (symmetry; exact (Forall2_len _ _ _ FB)).
  assert (KA : Forall2 (fun g kg => Forall2 (fun p i => nth_error (params A) i = Some p) (snd g) (snd kg)) (p_groups A) (k_groups k)).
  { apply Forall2_flat_split; [symmetry; exact K3|]. change (flat_map snd (k_groups k)) with (all_params (k_groups k)). rewrite K1. apply seq_nth_F2. }
  unfold load_optimizer. rewrite Kn. assert (Elen : length (k_groups k) = length (p_groups A)) by (apply (f_equal (@List.length H)) in K2; now rewrite !map_length in K2).
  destruct (Nat.eqb_spec (length (p_groups B)) (length (k_groups k))) as [Eg|Eg]; cbn [negb]; [|right; split; [reflexivity|]; intros (X&_); congruence].
  unfold opt_param_names. change (all_params (p_groups B)) with (params B). rewrite EB. cbn [bind].
  destruct (names_eqb nsB nsA) eqn:En.
  - (* the same order *)
    unfold names_eqb in En. destruct (list_eq_dec string_dec nsB nsA) as [En'|]; [|discriminate]. subst nsB. clear En.
    destruct (list_eq_dec Nat.eq_dec (sizes A) (sizes B)) as [Es|Es].
    + left. destruct (load_numbers B k) as (B'&EB'&R1&R2&R3); [rewrite K1; f_equal; congruence|now rewrite K3|]. exists B'. split; [exact EB'|]. split; [exact R1|]. split; [congruence|]. split.
      * intros b s. rewrite R3. split.
        -- intros (i&Hi&Hb). apply K4 in Hi. destruct Hi as (a&Ha&Hs). pose proof (in_order_nth NA A nsA i FA) as X. pose proof (in_order_nth NB B nsA i FB) as Y. rewrite Ha in X. rewrite Hb in Y. destruct (nth_error nsA i) as [n|]; [|contradiction]. exists n, a. split; [exact (nth_error_In _ _ Hb)|tauto].
        -- intros (n&a&Hb&Hnb&Hna&Hs). destruct (in_order_index NB B nsA b n WB FB Hb Hnb) as (i&Hi&Hn). exists i. split; [|exact Hi]. apply K4. exists a. split; [|exact Hs]. assert (Ha : In a (params A)) by (apply A6, in_map_iff; now exists (a, s)). destruct (in_order_index NA A nsA a n WA FA Ha Hna) as (j&Hj&Hn'). assert (i = j); [|congruence]. eapply (proj1 (NoDup_nth_error nsA) NdA); [apply nth_error_Some; rewrite Hn; discriminate|congruence].
      * intros i b n (h&ps&Hg&Hb) Hn _. assert (F : Forall2 (fun g g' => Forall2 (fun p q => exists n, In (n, p) NB /\ In (n, q) NA) (snd g) (snd g')) (p_groups B) (p_groups A)).
        { apply Forall2_flat_split; [symmetry; exact Es|]. change (Forall2 (fun p q => exists n, In (n, p) NB /\ In (n, q) NA) (params B) (params A)). clear - FA FB. unfold in_order in *. revert FA FB. generalize (params A), (params B). intros pa pb FA. revert pb. induction FA as [|p n pa ns Hp FA IH]; intros pb FB; inversion FB; subst; constructor; [now exists n|now apply IH]. }
        destruct (nth_error (p_groups A) i) as [[h' ps']|] eqn:Ea; [|exfalso; apply nth_error_None in Ea; pose proof (Forall2_len _ _ _ F); assert (i < length (p_groups B)) by (apply nth_error_Some; rewrite Hg; discriminate); lia].
        pose proof (Forall2_nth _ _ _ _ _ _ F Hg Ea) as X. cbn [snd] in X. destruct (F2_In_l _ _ _ _ X Hb) as (a&Ha&m&Hm1&Hm2). assert (m = n) by exact (snd_inj _ _ _ _ B2 Hm1 Hn). subst m. exists a. split; [now exists h', ps'|exact Hm2].
    + right. split; [|intros (_&X&_); now apply Es, X]. unfold load_state_dict. rewrite Eg, Nat.eqb_refl. cbn [negb].
      destruct (forallb _ _) eqn:Ef; [|reflexivity]. exfalso. apply Es. rewrite <- K3. unfold sizes. rewrite forallb_forall in Ef. clear - Ef Eg. revert Ef Eg. generalize (k_groups k), (p_groups B). intros l l'. revert l. induction l' as [|y l' IH]; intros [|x l] Ef Eg; try discriminate; [reflexivity|]. cbn [map]. cbn in Eg. injection Eg as Eg. f_equal; [|apply IH; [|exact Eg]; intros z Hz; apply Ef; now right].
      specialize (Ef (y, x) (or_introl eq_refl)). cbn in Ef. apply Nat.eqb_eq in Ef. now symmetry.
  - (* another order *)
    assert (Hne : nsA <> nsB) by (intros ->; unfold names_eqb in En; destruct (list_eq_dec string_dec nsB nsB); congruence). clear En.
    destruct (critical_spec NB B grad nsB WB FB) as (c&Ec&Hc). rewrite Ec. cbn [bind].
    destruct (existsb _ (concat c)) eqn:Ex.
    { right. split; [reflexivity|]. intros (_&_&X). apply existsb_exists in Ex. destruct Ex as (n&Hn&Hh). apply Hc in Hn. destruct Hn as (b&Hb&Hnb&Hg). unfold params in Hb. apply in_flat_map in Hb. destruct Hb as ([h ps]&Hin&Hb). apply In_nth_error in Hin. destruct Hin as (i&Hi).
      destruct (X i b n) as (a&(h'&ps'&Ha&Ha')&Hna); [now exists h, ps|exact Hnb|exact Hg|]. apply negb_true_iff in Hh. assert (Hp : In a (params A)) by (apply in_flat_map; exists (h', ps'); split; [exact (nth_error_In _ _ Ha)|exact Ha']).
      destruct (in_order_index NA A nsA a n WA FA Hp Hna) as (j&_&Hj). apply (positions_spec nsA n j NdA) in Hj. unfold dhas in Hh. rewrite Hj in Hh. discriminate. }
    assert (Hs : forall i p, nth_error (all_params (p_groups B)) i = Some p -> exists n, name_of NB p = Ok n /\ lookup (positions nsB) n = Ok (0 + i)).
    { intros i p Hi. change (all_params (p_groups B)) with (params B) in Hi. pose proof (in_order_nth NB B nsB i FB) as X. rewrite Hi in X. destruct (nth_error nsB i) as [n|] eqn:E; [|contradiction]. exists n. split; [now apply name_of_spec|]. unfold lookup. apply (positions_spec nsB n i NdB) in E. now rewrite E. }
    assert (Hi : forall i, In i (all_params (k_groups k)) -> i < length nsA) by (intros i Hi; rewrite K1 in Hi; apply in_seq in Hi; lia).
    assert (Hgr : forall i kg ga, nth_error (k_groups k) i = Some kg -> nth_error (p_groups A) i = Some ga -> forall n, (exists j, In j (snd kg) /\ nth_error nsA j = Some n) <-> (exists a, In a (snd ga) /\ In (n, a) NA)).
    { intros i kg ga Hkg Hga n. pose proof (Forall2_nth _ _ _ _ _ _ KA Hga Hkg) as F. split.
      - intros (j&Hj&Hn). destruct (F2_In_r _ _ _ _ F Hj) as (a&Ha&Ej). exists a. split; [exact Ha|]. pose proof (in_order_nth NA A nsA j FA) as X. rewrite Ej, Hn in X. exact X.
      - intros (a&Ha&Hn). destruct (F2_In_l _ _ _ _ F Ha) as (j&Hj&Ej). exists j. split; [exact Hj|]. pose proof (in_order_nth NA A nsA j FA) as X. rewrite Ej in X. destruct (nth_error nsA j) as [m|]; [|contradiction]. f_equal. exact (snd_inj _ _ _ _ A2 X Hn). }
    destruct (remap_spec NB (positions nsB) nsA (concat c) B2 (p_groups B) (k_groups k) 0 (eq_sym Eg) Hs Hi) as [(gs&Egs&G1&G2&G3&G4)|(Egs&G)]; rewrite Egs; cbn [bind].
    + left. set (idx := flat_map _ (combine nsA (seq 0 (length nsA)))).
      assert (Hidx : forall i j, dget idx i = Some j <-> exists n, nth_error nsA i = Some n /\ nth_error nsB j = Some n).
      { assert (Hin : forall i j, In (i, j) idx <-> exists n, nth_error nsA i = Some n /\ nth_error nsB j = Some n).
        { intros i j. unfold idx. rewrite in_flat_map. split.
          - intros ([n i']&Hni&Hd). cbn [fst snd] in Hd. destruct (dget (positions nsB) n) as [j'|] eqn:E; [|contradiction]. destruct Hd as [[= -> ->]|[]]. exists n. split; [|now apply positions_spec].
            assert (Ed : dget (combine nsA (seq 0 (length nsA))) n = Some (0 + i)) by (apply In_dget; [unfold dict_ok, dkeys; rewrite map_fst_combine by (now rewrite seq_length); exact NdA|exact Hni]). now apply combine_seq_dget in Ed.
          - intros (n&H1&H2). exists (n, i). split; [|cbn [fst snd]; apply (positions_spec nsB n j NdB) in H2; rewrite H2; now left]. apply dget_In. apply (combine_seq_dget nsA n NdA 0 i). exact H1. }
        intros i j. rewrite <- Hin. split; [apply dget_In|]. intros Hj. destruct (dget idx i) as [j'|] eqn:E.
        - apply dget_In in E. apply Hin in E, Hj. destruct E as (n&E1&E2), Hj as (m&E3&E4). assert (n = m) by congruence. subst m. f_equal. symmetry. eapply (proj1 (NoDup_nth_error nsB) NdB); [apply nth_error_Some; rewrite E4; discriminate|congruence].
        - exfalso. apply dget_None in E. apply E, in_map_iff. now exists (i, j). }
      match goal with |- context [mk_ckpt gs ?st _] => set (st' := st) end.
      destruct (load_numbers B (mk_ckpt gs st' (Some nsA))) as (B'&EB'&R1&R2&R3); [cbn [k_groups]; exact G1|cbn [k_groups]; exact G3|]. exists B'. split; [exact EB'|]. split; [exact R1|]. cbn [k_groups] in R2. split; [congruence|]. split.
      * intros b s. rewrite R3. cbn [k_state]. unfold st'. split.
        -- intros (j&Hj&Hb). apply in_flat_map in Hj. destruct Hj as ([i s']&Hi'&Hd). cbn [fst snd] in Hd. destruct (dget idx i) as [j'|] eqn:E; [|contradiction]. destruct Hd as [[= -> ->]|[]]. apply Hidx in E. destruct E as (n&E1&E2). apply K4 in Hi'. destruct Hi' as (a&Ha&Hs'). exists n, a. split; [exact (nth_error_In _ _ Hb)|]. pose proof (in_order_nth NA A nsA i FA) as X. rewrite Ha, E1 in X. pose proof (in_order_nth NB B nsB j FB) as Y. rewrite Hb, E2 in Y. tauto.
        -- intros (n&a&Hb&Hnb&Hna&Hs'). destruct (in_order_index NB B nsB b n WB FB Hb Hnb) as (j&Hj&Hn). exists j. split; [|exact Hj]. assert (Ha : In a (params A)) by (apply A6, in_map_iff; now exists (a, s)). destruct (in_order_index NA A nsA a n WA FA Ha Hna) as (i&Hi'&Hn'). apply in_flat_map. exists (i, s). split; [apply K4; now exists a|]. cbn [fst snd]. rewrite (proj2 (Hidx i j)); [now left|now exists n].
      * intros i b n (h&ps&Hg&Hb) Hn Hgr'. destruct (nth_error (k_groups k) i) as [kg|] eqn:Ekg; [|exfalso; apply nth_error_None in Ekg; assert (i < length (p_groups B)) by (apply nth_error_Some; rewrite Hg; discriminate); lia].
        destruct (nth_error (p_groups A) i) as [[h' ps']|] eqn:Ega; [|exfalso; apply nth_error_None in Ega; assert (i < length (p_groups B)) by (apply nth_error_Some; rewrite Hg; discriminate); lia].
        pose proof (Forall2_nth _ _ _ _ _ _ G4 Ekg Hg) as X. assert (Hcr : In n (concat c)) by (apply Hc; exists b; split; [apply in_flat_map; exists (h, ps); split; [exact (nth_error_In _ _ Hg)|exact Hb]|tauto]).
        destruct (proj2 (X n Hcr)) as (j&Hj&Hnj); [now exists b|]. destruct (proj1 (Hgr i kg (h', ps') Ekg Ega n)) as (a&Ha&Hna); [now exists j|]. exists a. split; [now exists h', ps'|exact Hna].
    + right. split; [reflexivity|]. intros (_&_&X). apply G. clear G Egs. apply Forall2_nth_iff_. split; [lia|]. intros i kg sg Hkg Hsg n Hn.
      destruct (nth_error (p_groups A) i) as [[h' ps']|] eqn:Ega; [|exfalso; apply nth_error_None in Ega; assert (i < length (p_groups B)) by (apply nth_error_Some; rewrite Hsg; discriminate); lia].
      rewrite (Hgr i kg (h', ps') Hkg Ega n). cbn [snd]. destruct sg as [h ps]. cbn [snd]. split.
      * intros (a&Ha&Hna). apply Hc in Hn. destruct Hn as (b&Hb&Hnb&Hg). unfold params in Hb. apply in_flat_map in Hb. destruct Hb as ([h2 ps2]&Hin&Hb). apply In_nth_error in Hin. destruct Hin as (i2&Hi2).
        destruct (X i2 b n) as (a2&(h3&ps3&Ha2&Ha2')&Hna2); [now exists h2, ps2|exact Hnb|exact Hg|]. assert (a2 = a) by exact (fst_inj _ _ _ _ A1 Hna2 Hna). subst a2.
        assert (i2 = i).
        { clear - A3 Ega Ha Ha2 Ha2'. unfold params in A3. revert i i2 A3 Ega Ha2. induction (p_groups A) as [|[h x] l IH]; intros [|i] [|i2] A3 E1 E2; try discriminate; [reflexivity| | |].
          - exfalso. cbn in *. injection E1 as -> ->. apply nth_error_In in E2. apply (NoDup_app_disj _ _ A3 a Ha). apply in_flat_map. exists (h3, ps3). now split.
          - exfalso. cbn in *. injection E2 as -> ->. apply nth_error_In in E1. apply (NoDup_app_disj _ _ A3 a Ha2'). apply in_flat_map. exists (h', ps'). now split.
          - f_equal. cbn in *. apply IH; try assumption. now apply NoDup_app_r in A3. }
        subst i2. rewrite Hsg in Hi2. injection Hi2 as <- <-. now exists b.
      * intros (b&Hb&Hnb). apply Hc in Hn. destruct Hn as (b2&Hb2&Hnb2&Hg). assert (b2 = b) by exact (fst_inj _ _ _ _ B1 Hnb2 Hnb). subst b2. destruct (X i b n) as (a&(h3&ps3&Ha&Ha')&Hna); [now exists h, ps|exact Hnb|exact Hg|]. rewrite Ega in Ha. injection Ha as <- <-. now exists a.
Qed.
End Final.

(** ** Parameter groups *)
Lemma mem_In x l : mem x l = true <-> In x l.
Proof. unfold mem. rewrite existsb_exists. split; [intros (y&Hy&H); apply Nat.eqb_eq in H; now subst|]. intros H. exists x. split; [exact H|apply Nat.eqb_refl]. Qed.
Lemma visit_params_spec m l : forall v r v', visit_params m l v = (r, v') ->
  (forall q, In q v' <-> In q v \/ In q (map snd l)) /\ NoDup (map snd r) /\ (forall x, In x r -> ~ In (snd x) v) /\
  (forall m' pn p, In (m', pn, p) r <-> m' = m /\ exists b a, l = b ++ (pn, p) :: a /\ ~ In p v /\ ~ In p (map snd b)).
Proof.
  induction l as [|[k q] l IH]; intros v r v' E; cbn [visit_params] in E.
  - injection E as <- <-. split; [cbn; tauto|]. split; [constructor|]. split; [intros x []|]. intros m' pn p. split; [intros []|]. intros (_&b&a&Hb&_). destruct b; discriminate.
  - destruct (mem q v) eqn:Em.
    + apply mem_In in Em. destruct (IH _ _ _ E) as (I1&I2&I3&I4). split; [intros x; rewrite I1; cbn; intuition (subst; tauto)|]. split; [exact I2|]. split; [exact I3|].
      intros m' pn p. rewrite I4. split.
      * intros (->&b&a&->&Hv&Hb). split; [reflexivity|]. exists ((k, q) :: b), a. split; [reflexivity|]. split; [exact Hv|]. intros [<-|Hx]; contradiction.
      * intros (->&b&a&Hl&Hv&Hb). split; [reflexivity|]. destruct b as [|[k' q'] b]; cbn in Hl; injection Hl as -> -> Hl; [contradiction|]. exists b, a. split; [exact Hl|]. split; [exact Hv|]. intros Hx. apply Hb. now right.
    + assert (Hq : ~ In q v) by (rewrite <- mem_In, Em; discriminate). destruct (visit_params m l (q :: v)) as [r0 v0] eqn:E0. injection E as <- <-. destruct (IH _ _ _ E0) as (I1&I2&I3&I4).
      split; [intros x; rewrite I1; cbn; intuition|]. split; [cbn [map]; constructor; [|exact I2]; intros Hi; apply in_map_iff in Hi; destruct Hi as (x&Hx&Hi); apply (I3 x Hi); rewrite Hx; now left|].
      split; [intros x [<-|Hx]; [exact Hq|]; intros Hv; apply (I3 x Hx); now right|].
      intros m' pn p. split.
      * intros [[= <- <- <-]|Hi]; [split; [reflexivity|]; exists [], l; split; [reflexivity|]; split; [exact Hq|intros []]|]. apply I4 in Hi. destruct Hi as (->&b&a&->&Hv&Hb). split; [reflexivity|]. exists ((k, q) :: b), a. split; [reflexivity|]. split; [intros Hx; apply Hv; now right|]. intros [<-|Hx]; [apply Hv; now left|contradiction].
      * intros (->&b&a&Hl&Hv&Hb). destruct b as [|[k' q'] b]; cbn in Hl; injection Hl as -> -> Hl; [now left|]. right. apply I4. split; [reflexivity|]. exists b, a. split; [exact Hl|]. split; [|intros Hx; apply Hb; now right]. intros [<-|Hx]; [apply Hb; now left|contradiction].
Qed.
Lemma visit_spec net : forall v, NoDup (map snd (visit net v)) /\ (forall x, In x (visit net v) -> ~ In (snd x) v) /\
  (forall m pn p, In (m, pn, p) (visit net v) <-> first_place net m pn p /\ ~ In p v).
Proof.
  induction net as [|m net IH]; intros v; cbn [visit].
  - split; [constructor|]. split; [intros x []|]. intros m pn p. split; [intros []|]. intros ((be&af&b&a&E&_)&_). destruct be; discriminate.
  - destruct (visit_params m (m_params m) v) as [r v'] eqn:E. destruct (visit_params_spec _ _ _ _ _ E) as (P1&P2&P3&P4). destruct (IH v') as (I1&I2&I3).
    split; [|split].
    + rewrite map_app. apply NoDup_app_intro2; [exact P2|exact I1|]. intros x Hx Hy. apply in_map_iff in Hx, Hy. destruct Hx as ([[m1 n1] p1]&<-&Hx), Hy as (y&Hyx&Hy). apply (I2 y Hy). rewrite Hyx. apply P1. right. apply P4 in Hx. destruct Hx as (_&b&a&->&_). rewrite map_app. apply in_or_app. right. now left.
    + intros x Hx. apply in_app_or in Hx. destruct Hx as [Hx|Hx]; [now apply P3|]. intros Hv. apply (I2 x Hx). apply P1. now left.
    + intros m' pn p. rewrite in_app_iff, P4, I3, P1. split.
      * intros [(->&b&a&E'&Hv&Hb)|((be&af&b&a&->&E'&H1&H2)&Hv)].
        -- split; [|exact Hv]. exists [], net, b, a. split; [reflexivity|]. split; [exact E'|]. split; [intros ? []|exact Hb].
        -- split; [|tauto]. exists (m :: be), af, b, a. split; [reflexivity|]. split; [exact E'|]. split; [|exact H2]. intros m2 [<-|Hm2]; [tauto|now apply H1].
      * intros ((be&af&b&a&E'&E2&H1&H2)&Hv). destruct be as [|m0 be]; cbn in E'; injection E' as -> E'.
        -- left. split; [reflexivity|]. exists b, a. tauto.
        -- right. split; [exists be, af, b, a; split; [exact E'|]; split; [exact E2|]; split; [|exact H2]; intros m2 Hm2; apply H1; now right|]. intros [Hx|Hx]; [contradiction|]. apply (H1 m0 (or_introl eq_refl)). exact Hx.
Qed.
Lemma first_place_occurs net m pn p : first_place net m pn p -> occurs net p.
Proof. intros (be&af&b&a&->&E&_). exists m. split; [apply in_or_app; right; now left|]. rewrite E, map_app. apply in_or_app. right. now left. Qed.
Lemma occurs_first_place net p : occurs net p -> exists m pn, first_place net m pn p.
Proof.
  induction net as [|m net IH]; intros (m'&Hm&Hp); [destruct Hm|].
  assert (D : {In p (map snd (m_params m))} + {~ In p (map snd (m_params m))}) by (apply in_dec, Nat.eq_dec). destruct D as [D|D].
  - assert (G : forall l : list (string * nat), In p (map snd l) -> exists b pn a, l = b ++ (pn, p) :: a /\ ~ In p (map snd b)).
    { induction l as [|[k q] l IHl]; [intros []|]. cbn. intros Hq. destruct (Nat.eq_dec q p) as [->|Hne]; [exists [], k, l; split; [reflexivity|intros []]|]. destruct Hq as [|Hq]; [contradiction|]. destruct (IHl Hq) as (b&pn&a&->&Hb). exists ((k, q) :: b), pn, a. split; [reflexivity|]. intros [|Hx]; contradiction. }
    destruct (G _ D) as (b&pn&a&E&Hb). exists m, pn, [], net, b, a. split; [reflexivity|]. split; [exact E|]. split; [intros ? []|exact Hb].
  - destruct Hm as [<-|Hm]; [contradiction|]. destruct IH as (m2&pn&be&af&b&a&->&E&H1&H2); [now exists m'|]. exists m2, pn, (m :: be), af, b, a. split; [reflexivity|]. split; [exact E|]. split; [|exact H2]. intros m3 [<-|Hm3]; [exact D|now apply H1].
Qed.

Lemma insert_name_perm x l : Permutation (insert_name x l) (x :: l).
Proof. induction l as [|y l IH]; cbn [insert_name]; [reflexivity|]. destruct (String.leb x y); [reflexivity|]. rewrite IH. apply perm_swap. Qed.
Lemma sort_names_perm l : Permutation (sort_names l) l.
Proof. induction l as [|x l IH]; cbn [sort_names]; [reflexivity|]. rewrite insert_name_perm. now constructor. Qed.
Lemma str_lt_trans : forall a b c, String.compare a b = Lt -> String.compare b c = Lt -> String.compare a c = Lt.
Proof.
  induction a as [|x a IH]; intros [|y b] [|z c]; cbn; try congruence. unfold Ascii.compare. destruct (N.compare_spec (Ascii.N_of_ascii x) (Ascii.N_of_ascii y)) as [E1|E1|E1], (N.compare_spec (Ascii.N_of_ascii y) (Ascii.N_of_ascii z)) as [E2|E2|E2]; try congruence; intros H1 H2.
  - rewrite E1, E2, N.compare_refl. eapply IH; eauto.
  - rewrite E1. apply N.compare_lt_iff in E2. now rewrite E2.
  - rewrite <- E2. apply N.compare_lt_iff in E1. now rewrite E1.
  - assert (X : (Ascii.N_of_ascii x < Ascii.N_of_ascii z)%N) by lia. apply N.compare_lt_iff in X. now rewrite X.
Qed.
Definition slt (a b : string) : Prop := String.ltb a b = true.
Lemma slt_spec a b : slt a b <-> String.compare a b = Lt.
Proof. unfold slt, String.ltb. destruct (String.compare a b); split; congruence. Qed.
Lemma slt_trans a b c : slt a b -> slt b c -> slt a c.
Proof. rewrite !slt_spec. apply str_lt_trans. Qed.
Lemma leb_cases x y : x <> y -> if String.leb x y then slt x y else slt y x.
Proof.
  intros Hne. unfold String.leb. destruct (String.compare x y) eqn:E.
  - apply String.compare_eq_iff in E. contradiction.
  - now apply slt_spec.
  - apply slt_spec. rewrite String.compare_antisym, E. reflexivity.
Qed.
Lemma insert_name_sorted x l : ~ In x l -> StronglySorted slt l -> StronglySorted slt (insert_name x l).
Proof.
  induction l as [|y l IH]; intros Hx Hs; cbn [insert_name]; [repeat constructor|]. inversion Hs as [|? ? Hs' Hf]; subst.
  assert (Hne : x <> y) by (intros ->; apply Hx; now left). pose proof (leb_cases x y Hne) as Hl. destruct (String.leb x y).
  - constructor; [exact Hs|]. constructor; [exact Hl|]. eapply Forall_impl; [|exact Hf]. intros z Hz. exact (slt_trans _ _ _ Hl Hz).
  - constructor; [apply IH; [intros Hi; apply Hx; now right|exact Hs']|]. apply Forall_forall. intros z Hz. apply (Permutation_in _ (insert_name_perm x l)) in Hz. destruct Hz as [<-|Hz]; [exact Hl|]. exact (proj1 (Forall_forall _ _) Hf z Hz).
Qed.
Lemma sort_names_sorted l : NoDup l -> StronglySorted slt (sort_names l).
Proof. induction 1 as [|x l Hx Hl IH]; cbn [sort_names]; [constructor|]. apply insert_name_sorted; [|exact IH]. intros Hi. apply Hx. exact (Permutation_in _ (sort_names_perm l) Hi). Qed.
Lemma to_set_nodup l : NoDup l -> to_set l = l.
Proof.
  intros Hn. unfold to_set. assert (G : forall s, NoDup (s ++ l) -> fold_left (fun s x => if existsb (String.eqb x) s then s else s ++ [x]) l s = s ++ l); [|exact (G [] Hn)].
  clear Hn. induction l as [|x l IH]; intros s Hn; cbn [fold_left]; [now rewrite app_nil_r|]. destruct (existsb (String.eqb x) s) eqn:E.
  - exfalso. apply existsb_exists in E. destruct E as (y&Hy&E). apply String.eqb_eq in E. subst y. apply NoDup_remove_2 in Hn. apply Hn, in_or_app. now left.
  - rewrite IH by (rewrite <- app_assoc; exact Hn). now rewrite <- app_assoc.
Qed.
Definition place (x : module * string * nat) : string * nat := (full_name' x, snd x).
Lemma named_parameters_place net : named_parameters net = map place (visit net []).
Proof. unfold named_parameters. apply map_ext. intros [[m pn] p]. reflexivity. Qed.
Lemma visit_in net m pn p : In (m, pn, p) (visit net []) <-> first_place net m pn p.
Proof. rewrite (proj2 (proj2 (visit_spec net []))). cbn. tauto. Qed.
Lemma names_nodup net : distinct_names net -> NoDup (map full_name' (visit net [])).
Proof.
  intros Hd. pose proof (proj1 (visit_spec net [])) as Hn. assert (Hi : forall x y, In x (visit net []) -> In y (visit net []) -> full_name' x = full_name' y -> snd x = snd y).
  { intros [[m pn] p] [[m' pn'] p'] Hx Hy E. apply visit_in in Hx, Hy. exact (Hd _ _ _ _ _ _ Hx Hy E). }
  revert Hn Hi. generalize (visit net []). intros l Hn Hi. induction l as [|x l IH]; [constructor|]. cbn [map] in *. inversion Hn as [|? ? Hx Hl]; subst. constructor; [|apply IH; [exact Hl|]; intros y z Hy Hz; apply Hi; now right].
  intros Hin. apply in_map_iff in Hin. destruct Hin as (y&E&Hy). apply Hx, in_map_iff. exists y. split; [|exact Hy]. apply Hi; [now right|now left|exact E].
Qed.
(** one of the two groups *)
Lemma group_spec net (f : module * string * nat -> bool) : distinct_names net ->
  exists a, mapM (lookup (to_dict (named_parameters net))) (sort_names (to_set (map full_name' (filter f (visit net []))))) = Ok a /\ NoDup a /\ sorted_by_name net a /\
    forall p, In p a <-> exists m pn, first_place net m pn p /\ f (m, pn, p) = true.
Proof.
  intros Hd. pose proof (names_nodup net Hd) as Hn. pose proof (proj1 (visit_spec net [])) as Hp. set (vs := visit net []) in *. assert (Hnf : NoDup (map full_name' (filter f vs))).
  { clear - Hn. induction vs as [|x l IH]; [constructor|]. cbn [map filter] in *. inversion Hn as [|? ? Hx Hl]; subst. destruct (f x); [|now apply IH]. cbn [map]. constructor; [|now apply IH]. intros Hi. apply Hx. apply in_map_iff in Hi. destruct Hi as (y&E&Hy). apply filter_In in Hy. apply in_map_iff. exists y. tauto. }
  rewrite to_set_nodup by exact Hnf. rewrite named_parameters_place. fold vs. rewrite to_dict_nodup by (rewrite map_map; exact Hn).
  set (ns := sort_names (map full_name' (filter f vs))).
  assert (Hns : forall n, In n ns <-> exists x, In x vs /\ f x = true /\ n = full_name' x).
  { intros n. unfold ns. split.
    - intros Hi. apply (Permutation_in _ (sort_names_perm _)) in Hi. apply in_map_iff in Hi. destruct Hi as (x&<-&Hx). apply filter_In in Hx. exists x. tauto.
    - intros (x&Hx&Hf&->). apply (Permutation_in _ (Permutation_sym (sort_names_perm _))). apply in_map, filter_In. tauto. }
  assert (Hk : NoDup (map fst (map place vs))) by (rewrite map_map; exact Hn).
  assert (E : exists a, mapM (lookup (map place vs)) ns = Ok a /\ Forall2 (fun n p => In (n, p) (map place vs)) ns a).
  { assert (Hall : forall n, In n ns -> exists p, In (n, p) (map place vs)) by (intros n Hi; apply Hns in Hi; destruct Hi as (x&Hx&_&->); exists (snd x); apply in_map_iff; now exists x).
    clear - Hall Hk. induction ns as [|n ns IH]; [exists []; split; [reflexivity|constructor]|]. destruct IH as (a&E&F); [intros; apply Hall; now right|]. destruct (Hall n (or_introl eq_refl)) as (p&Hp). exists (p :: a). cbn [mapM]. rewrite (proj2 (lookup_spec _ n p Hk) Hp). cbn [bind]. rewrite E. split; [reflexivity|now constructor]. }
  destruct E as (a&E&F). exists a. split; [exact E|].
  assert (Hin : forall p, In p a <-> exists m pn, first_place net m pn p /\ f (m, pn, p) = true).
  { intros p. split.
    - intros Hi. destruct (F2_In_r _ _ _ _ F Hi) as (n&Hni&Hnp). apply Hns in Hni. destruct Hni as (x&Hx&Hf&->). apply in_map_iff in Hnp. destruct Hnp as (y&Ey&Hy). unfold place in Ey. injection Ey as E1 E2.
      assert (snd x = p). { eapply (fst_inj (map place vs) (full_name' x)); [exact Hk|apply in_map_iff; exists x; split; [reflexivity|exact Hx]|]. apply in_map_iff. exists y. split; [unfold place; now rewrite E1, E2|exact Hy]. }
      destruct x as [[m pn] q]. cbn in H. subst q. exists m, pn. split; [now apply visit_in|exact Hf].
    - intros (m&pn&Hfp&Hf). apply visit_in in Hfp. fold vs in Hfp. assert (Hni : In (full_name m pn) ns) by (apply Hns; exists (m, pn, p); tauto). destruct (F2_In_l _ _ _ _ F Hni) as (q&Hq&Hnq). assert (p = q); [|now subst]. eapply (fst_inj (map place vs)); [exact Hk|apply in_map_iff; exists (m, pn, p); split; [reflexivity|exact Hfp]|exact Hnq]. }
  assert (Nns : NoDup ns) by (unfold ns; eapply Permutation_NoDup; [apply Permutation_sym, sort_names_perm|exact Hnf]).
  split; [|split; [|exact Hin]].
  - assert (Hsn : NoDup (map snd (map place vs))) by (rewrite map_map; exact Hp). clear - F Nns Hsn. induction F as [|n p ns a Hnp F IH]; [constructor|]. inversion Nns as [|? ? Hn Hns]; subst. constructor; [|now apply IH]. intros Hi. destruct (F2_In_r _ _ _ _ F Hi) as (m&Hm&Hmp). apply Hn. now rewrite (snd_inj _ _ _ _ Hsn Hnp Hmp).
  - exists ns. split; [|apply sort_names_sorted, Hnf]. clear - F. induction F as [|n p ns a Hnp F IH]; constructor; [|exact IH]. apply in_map_iff in Hnp. destruct Hnp as ([[m pn] q]&[= <- <-]&Hx). exists m, pn. split; [now apply visit_in|reflexivity].
Qed.
Lemma in_wd_decays o m pn p : in_wd o (m, pn, p) = true <-> decays o m pn p.
Proof.
  unfold in_wd, decays. destruct (o_include o) as [f|]; [destruct (f m pn p) as [b|]; [tauto|]|]; rewrite negb_true_iff, orb_false_iff; tauto.
Qed.
Lemma whole_spec net : distinct_names net -> NoDup (map snd (named_parameters net)) /\ forall p, In p (map snd (named_parameters net)) <-> occurs net p.
Proof.
  intros _. rewrite named_parameters_place, map_map. pose proof (proj1 (visit_spec net [])) as Hp. split; [exact Hp|]. intros p. rewrite in_map_iff. split.
  - intros ([[m pn] q]&<-&Hx). apply visit_in in Hx. now apply first_place_occurs in Hx.
  - intros Ho. destruct (occurs_first_place net p Ho) as (m&pn&Hf). exists (m, pn, p). split; [reflexivity|now apply visit_in].
Qed.

(** ** Learning rate *)
Lemma run_calls_lr f cs : forall u, u_lr (run_calls f cs u) = last_lr (u_lr u) cs /\
  (u_step (run_calls f cs u), u_epoch (run_calls f cs u), u_continuous (run_calls f cs u)) = last_step (u_step u, u_epoch u, u_continuous u) cs.
Proof. induction cs as [|c cs IH]; intros u; [split; reflexivity|]. change (run_calls f (c :: cs) u) with (run_calls f cs (run_call f c u)). destruct c; exact (IH _). Qed.
Lemma run_calls_effective f cs u : cs <> [] -> let u' := run_calls f cs u in
  u_effective u' = scheduled f (last_step (u_step u, u_epoch u, u_continuous u) cs) (last_lr (u_lr u) cs) /\
  option_map (map fst) (u_groups u') = option_map (map fst) (u_groups u) /\
  forall gs g lr, u_groups u' = Some gs -> In (g, lr) gs -> lr = u_effective u'.
Proof.
  intros Hne. destruct (exists_last Hne) as (cs0&c&->). cbv zeta. destruct (run_calls_lr f (cs0 ++ [c]) u) as [E1 E2]. rewrite <- E1, <- E2.
  unfold run_calls in *. rewrite fold_left_app in *. cbn [fold_left] in *. set (v := fold_left _ cs0 u) in *.
  assert (G : option_map (map fst) (u_groups v) = option_map (map fst) (u_groups u)).
  { unfold v. clear. generalize u. induction cs0 as [|c cs IH]; intros w; [reflexivity|]. cbn [fold_left]. rewrite IH. destruct c; cbn [run_call set_learning_rate set_current_train_step update_effective u_groups]; destruct (u_groups w) as [gs|]; cbn; try reflexivity; now rewrite map_map. }
  split; [destruct c; reflexivity|]. split.
  - rewrite <- G. destruct c; cbn [run_call set_learning_rate set_current_train_step update_effective u_groups]; destruct (u_groups v); cbn; try reflexivity; now rewrite map_map.
  - intros gs g lr Hg Hi. destruct c; cbn [run_call set_learning_rate set_current_train_step update_effective u_groups u_effective] in *; destruct (u_groups v) as [gs0|]; cbn in Hg; try discriminate; injection Hg as <-; apply in_map_iff in Hi; destruct Hi as (x&[= <- <-]&_); reflexivity.
Qed.
