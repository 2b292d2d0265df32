(** Proofs about the frontend cache. *)
From Coq Require Import String ZArith QArith List Bool Arith Lia.
From Verif Require Import Base FCacheModel FCacheSpec.
Import ListNotations.
Local Open Scope nat_scope.

Lemma value_ind2 (P : value -> Prop) :
  (forall d, P (VDim d)) -> (forall ds rw, P (VTensor ds rw)) -> (forall n, P (VRaw n)) ->
  (forall l, Forall P l -> P (VSeq l)) -> forall v, P v.
Proof.
  intros H1 H2 H3 H4. fix IH 1. intros [d | ds rw | n | l].
  - apply H1.
  - apply H2.
  - apply H3.
  - apply H4. induction l as [|a l IHl]; constructor; [apply IH | exact IHl].
Qed.

Lemma raw_num_spec r q : raw_num r = Some q -> is_number r q.
Proof. destruct r as [| s | [|] | z | x]; cbn [raw_num]; intros [= <-]; constructor. Qed.

Lemma raw_eqb_sound a b : raw_eqb a b = true -> raw_same a b.
Proof.
  unfold raw_eqb. destruct (raw_num a) eqn:Ea, (raw_num b) eqn:Eb; try discriminate.
  - intros H. apply Qeq_bool_iff in H.
    eapply raw_same_num; [apply raw_num_spec, Ea | apply raw_num_spec, Eb | exact H].
  - destruct a as [| s | | |], b as [| t | | |]; try discriminate; try (intros _; constructor).
    intros H. apply String.eqb_eq in H. subst. constructor.
Qed.

Lemma raw_eqb_refl a : raw_eqb a a = true.
Proof.
  unfold raw_eqb. destruct (raw_num a) eqn:E.
  - apply Qeq_bool_iff. reflexivity.
  - destruct a as [| s | [|] | |]; try discriminate; auto. apply String.eqb_refl.
Qed.

(** Renaming. *)
Lemma map_output_rename m v : map_output m v = rename (map_dim m) v.
Proof.
  induction v as [d | ds rw | n | l IH] using value_ind2; cbn [map_output rename]; auto.
  f_equal. induction IH as [|a l Ha Hl IHl]; cbn [map]; auto. now rewrite Ha, IHl.
Qed.

Lemma rename_ext f g v : (forall d, f d = g d) -> rename f v = rename g v.
Proof.
  intros H. induction v as [d | ds rw | n | l IH] using value_ind2; cbn [rename]; auto.
  - f_equal. apply map_ext. exact H.
  - f_equal. induction IH as [|a l Ha Hl IHl]; cbn [map]; auto. now rewrite Ha, IHl.
Qed.

Lemma rename_id v : rename (fun d => d) v = v.
Proof.
  induction v as [d | ds rw | n | l IH] using value_ind2; cbn [rename]; auto.
  - now rewrite map_id.
  - f_equal. induction IH as [|a l Ha Hl IHl]; cbn [map]; auto. now rewrite Ha, IHl.
Qed.

(** The dim map. *)
Lemma dget_fold d m acc :
  fold_left (fun a (e : nat * nat) => if Nat.eqb (fst e) d then Some (snd e) else a) m acc
  = match dget d m with Some x => Some x | None => acc end.
Proof.
  revert acc. unfold dget. induction m as [|[a b] m IH]; intros acc; cbn [fold_left fst snd]; auto.
  destruct (Nat.eqb a d).
  - rewrite (IH (Some b)).
    destruct (fold_left (fun a0 (e : nat * nat) => if Nat.eqb (fst e) d then Some (snd e) else a0) m None); auto.
  - apply IH.
Qed.

Lemma dget_cons d a b m :
  dget d ((a, b) :: m) = match dget d m with Some x => Some x | None => if Nat.eqb a d then Some b else None end.
Proof.
  unfold dget at 1. cbn [fold_left fst snd]. rewrite dget_fold. reflexivity.
Qed.

Lemma dget_notin d m : ~ In d (map fst m) -> dget d m = None.
Proof.
  induction m as [|[a b] m IH]; intros H; auto. rewrite dget_cons.
  cbn [map fst In] in H. rewrite IH by tauto.
  destruct (Nat.eqb_spec a d); auto. subst. tauto.
Qed.

Lemma map_dim_in m d x : NoDup (map fst m) -> In (d, x) m -> map_dim m d = x.
Proof.
  unfold map_dim. induction m as [|[a b] m IH]; intros Hn Hi; [contradiction|].
  cbn [map fst] in Hn. inversion Hn as [|? ? Hx Hm]; subst. rewrite dget_cons.
  destruct Hi as [Hi | Hi]; [injection Hi as -> ->|].
  - rewrite dget_notin by auto. now rewrite Nat.eqb_refl.
  - specialize (IH Hm Hi). destruct (dget d m) eqn:E; auto.
    destruct (Nat.eqb_spec a d) as [->|]; auto. exfalso. apply Hx.
    apply in_map_iff. now exists (d, x).
Qed.

Lemma map_dim_id m d : (forall a b, In (a, b) m -> a = b) -> map_dim m d = d.
Proof.
  unfold map_dim. induction m as [|[a b] m IH]; intros H; auto. rewrite dget_cons.
  specialize (IH (fun a b Hi => H a b (or_intror Hi))).
  destruct (dget d m); auto. destruct (Nat.eqb_spec a d); auto.
  subst. symmetry. apply H. now left.
Qed.

(** Backends. *)
Lemma key_backend_spec e k : key_backend e k = backend_of e k.
Proof.
  unfold backend_of. induction k as [|i k IH]; auto. cbn [key_backend flat_map].
  destruct i as [r | t [[r b]|] | d v x |]; cbn [item_backend app]; auto.
Qed.

Lemma leaves_backend_app e l1 l2 :
  leaves_backend e (l1 ++ l2)
  = hd (leaves_backend e l2) (flat_map value_backends (filter (fun v => match v with VSeq _ => false | _ => true end) l1)).
Proof.
  induction l1 as [|v l1 IH]; auto.
  destruct v as [d | ds [[r b]|] | n | l]; cbn [app leaves_backend filter flat_map value_backends]; auto.
Qed.

Lemma vleaves_flat v l : In l (vleaves v) -> match l with VSeq _ => False | _ => True end.
Proof.
  induction v as [d | ds rw | n | vs IH] using value_ind2; cbn [vleaves];
    try (intros [<- | []]; exact I).
  intros H. apply in_flat_map in H. destruct H as (a & Ha & Hl).
  rewrite Forall_forall in IH. eapply IH; eauto.
Qed.

Lemma hd_app_dflt {A} (d : A) l1 l2 : hd d (l1 ++ l2) = hd (hd d l2) l1.
Proof. destruct l1; auto. Qed.

Lemma leaves_backend_value v : forall e rest,
  leaves_backend e (vleaves v ++ rest) = hd (leaves_backend e rest) (value_backends v).
Proof.
  induction v as [d | ds [[r b]|] | n | vs IH] using value_ind2; intros e rest; auto.
  cbn [vleaves value_backends]. induction IH as [|a l Ha Hl IHl]; auto.
  cbn [flat_map]. rewrite <- app_assoc, Ha, IHl. now rewrite hd_app_dflt.
Qed.

Lemma leaves_backend_spec e v : leaves_backend e (vleaves v) = value_backend e v.
Proof.
  unfold value_backend. rewrite <- (app_nil_r (vleaves v)). rewrite leaves_backend_value. reflexivity.
Qed.

(** Transformed keys. *)
Lemma transform_key_inv e k kt :
  transform_key e k = Ok kt ->
  exists items, mapM transform_item k = Ok items /\
    kt = WBackend (backend_of e k) :: (if eager e (backend_of e k) then [] else [WCtx (ctx e)]) ++ items.
Proof.
  unfold transform_key. rewrite key_backend_spec. destruct (mapM transform_item k) as [items|]; cbn [bind]; [|discriminate].
  intros H. exists items. split; auto. congruence.
Qed.

Lemma mapM_cons_inv i k l :
  mapM transform_item (i :: k) = Ok l ->
  exists w l', transform_item i = Ok w /\ mapM transform_item k = Ok l' /\ l = w :: l'.
Proof.
  cbn [mapM]. destruct (transform_item i) as [w|]; cbn [bind]; [|discriminate].
  destruct (mapM transform_item k) as [l'|]; cbn [bind]; [|discriminate].
  intros H. exists w, l'. repeat split. congruence.
Qed.

Lemma transform_item_no_ctx i w : transform_item i = Ok w ->
  match w with WBackend _ | WCtx _ => False | _ => True end.
Proof.
  destruct i as [r | t [[r b]|] | d [v|] x |]; cbn [transform_item]; intros H;
    try discriminate; injection H as <-; exact I.
Qed.

(** Equality of items. *)
Lemma weqb_item rho i j a b :
  transform_item i = Ok a -> transform_item j = Ok b -> weqb a b = Ok true ->
  (forall d d', In (d, d') (combine (item_dims i) (item_dims j)) -> rho d = d') ->
  same_item rho i j.
Proof.
  intros Hi Hj Hw Hr.
  destruct i as [r | t [[r b0]|] | d [v|] x |]; cbn [transform_item] in Hi; try discriminate;
    injection Hi as <-;
    destruct j as [r' | t' [[r' b0']|] | d' [v'|] x' |]; cbn [transform_item] in Hj; try discriminate;
    injection Hj as <-; cbn [weqb] in Hw; try discriminate.
  - constructor. apply raw_eqb_sound. congruence.
  - assert (H : Nat.eqb t t' && Nat.eqb r r' = true) by congruence.
    apply andb_prop in H. destruct H as [H1 H2].
    apply Nat.eqb_eq in H1, H2. subst. constructor.
  - assert (H : Nat.eqb v v' = true) by congruence. apply Nat.eqb_eq in H. subst.
    rewrite <- (Hr d d') by (cbn; auto). constructor.
  - destruct (Nat.eqb_spec d d'); [|discriminate].
    destruct x, x'; discriminate.
  - destruct (Nat.eqb_spec d d') as [<-|]; [|discriminate].
    destruct x as [x|], x' as [x'|]; try discriminate.
    assert (H : Nat.eqb x x' = true) by congruence. apply Nat.eqb_eq in H. subst.
    constructor. apply Hr. cbn. auto.
Qed.

Lemma dim_map_items dd k0 : forall k a b m,
  mapM transform_item k0 = Ok a -> mapM transform_item k = Ok b ->
  dim_map dd a b = Ok m -> map fst m = key_dims k0.
Proof.
  induction k0 as [|i k0 IH]; intros k a b m Ha Hb Hm.
  - cbn in Ha. injection Ha as <-. destruct b; cbn in Hm; [|discriminate].
    injection Hm as <-. reflexivity.
  - destruct (mapM_cons_inv _ _ _ Ha) as (w & a' & Hw & Ha' & ->).
    destruct k as [|j k].
    + cbn in Hb. injection Hb as <-. destruct w; cbn in Hm; discriminate.
    + destruct (mapM_cons_inv _ _ _ Hb) as (u & b' & Hu & Hb' & ->).
      unfold key_dims. cbn [flat_map]. fold (key_dims k0).
      destruct i as [r | t [[r c]|] | d [v|] x |]; cbn [transform_item] in Hw; try discriminate;
        injection Hw as <-; cbn [dim_map] in Hm; cbn [item_dims app]; eauto;
        (destruct u; try discriminate; destruct (existsb (Nat.eqb d) dd); try discriminate;
         destruct (dim_map dd a' b') as [m'|] eqn:E; cbn [bind] in Hm; try discriminate;
         injection Hm as <-; cbn [map fst]; f_equal; eauto).
Qed.

Lemma weqb_list_same dd rho k0 : forall k a b m,
  mapM transform_item k0 = Ok a -> mapM transform_item k = Ok b ->
  weqb_list a b = Ok true -> dim_map dd a b = Ok m ->
  (forall d d', In (d, d') m -> rho d = d') ->
  Forall2 (same_item rho) k0 k.
Proof.
  induction k0 as [|i k0 IH]; intros k a b m Ha Hb Hw Hm Hr.
  - cbn in Ha. injection Ha as <-. destruct b; cbn in Hm; [|discriminate].
    destruct k as [|j k]; [constructor|].
    destruct (mapM_cons_inv _ _ _ Hb) as (? & ? & ? & ? & ?). discriminate.
  - destruct (mapM_cons_inv _ _ _ Ha) as (w & a' & Hi & Ha' & ->).
    destruct k as [|j k].
    + cbn in Hb. injection Hb as <-. discriminate.
    + destruct (mapM_cons_inv _ _ _ Hb) as (u & b' & Hj & Hb' & ->).
      cbn [weqb_list] in Hw. destruct (weqb w u) as [q|] eqn:Eq; cbn [bind] in Hw; [|discriminate].
      destruct q; [|discriminate].
      assert (Hsplit : (forall d d', In (d, d') (combine (item_dims i) (item_dims j)) -> rho d = d') /\
        exists m', dim_map dd a' b' = Ok m' /\ forall d d', In (d, d') m' -> rho d = d').
      { destruct i as [r | t [[r c]|] | d v x |]; cbn [transform_item] in Hi; try discriminate.
        - injection Hi as <-. cbn [dim_map] in Hm. split; [cbn; tauto | eauto].
        - injection Hi as <-. cbn [dim_map] in Hm. split; [cbn; tauto | eauto].
        - assert (Hd : exists v' x', w = WDim d v' x') by (destruct v; injection Hi as <-; eauto).
          destruct Hd as (v' & x' & ->). cbn [dim_map] in Hm.
          destruct u as [| | | |d1 v1 x1]; try discriminate.
          destruct (existsb (Nat.eqb d) dd); [discriminate|].
          destruct (dim_map dd a' b') as [m'|]; cbn [bind] in Hm; [|discriminate].
          assert (Em : m = (d, d1) :: m') by congruence. subst m. split.
          + assert (Hdj : item_dims j = [d1]).
            { destruct j as [r | t [[r c]|] | d2 [v2|] x2 |]; cbn [transform_item] in Hj; try discriminate;
                cbn [item_dims]; congruence. }
            rewrite Hdj. cbn [item_dims combine In]. intros ? ? [E | []].
            apply Hr. left. exact E.
          + exists m'. split; auto. intros. apply Hr. now right. }
      destruct Hsplit as (H1 & m' & Hm' & H2). constructor.
      * eapply weqb_item; eauto.
      * eapply IH; eauto.
Qed.

Lemma weqb_list_key e0 k0 a e k b :
  transform_key e0 k0 = Ok a -> transform_key e k = Ok b -> weqb_list a b = Ok true ->
  exists i0 i, mapM transform_item k0 = Ok i0 /\ mapM transform_item k = Ok i /\
    place e0 k0 = place e k /\ weqb_list i0 i = Ok true /\
    (forall dd, dim_map dd a b = dim_map dd i0 i).
Proof.
  intros Ha Hb Hw.
  destruct (transform_key_inv _ _ _ Ha) as (i0 & Hi0 & ->).
  destruct (transform_key_inv _ _ _ Hb) as (i & Hi & ->).
  exists i0, i. split; [exact Hi0|]. split; [exact Hi|].
  cbn [weqb_list weqb bind] in Hw.
  destruct (Nat.eqb_spec (backend_of e0 k0) (backend_of e k)) as [E|]; [|discriminate].
  unfold place. rewrite E in *.
  destruct (eager e0 (backend_of e k)), (eager e (backend_of e k)); cbn [app] in *.
  - auto.
  - exfalso. destruct k0 as [|j k0].
    + cbn in Hi0. injection Hi0 as <-. discriminate.
    + destruct (mapM_cons_inv _ _ _ Hi0) as (w & l & Hj & _ & ->).
      apply transform_item_no_ctx in Hj. cbn [weqb_list] in Hw.
      destruct w; cbn in Hw; try discriminate; try contradiction.
  - exfalso. destruct k as [|j k].
    + cbn in Hi. injection Hi as <-. discriminate.
    + destruct (mapM_cons_inv _ _ _ Hi) as (w & l & Hj & _ & ->).
      apply transform_item_no_ctx in Hj. cbn [weqb_list] in Hw.
      destruct w; cbn in Hw; try discriminate; try contradiction.
  - cbn [weqb_list weqb bind] in Hw.
    destruct (Nat.eqb_spec (ctx e0) (ctx e)) as [Ec|]; [|discriminate]. rewrite Ec. auto.
Qed.

(** Lookup. *)
Lemma lookup_in k l k0 v : lookup k l = Ok (Some (k0, v)) -> In (k0, v) l /\ weqb_list k0 k = Ok true.
Proof.
  induction l as [|[k1 w] l IH]; cbn [lookup]; [discriminate|].
  destruct (hsame_list k1 k).
  - destruct (weqb_list k1 k) as [q|] eqn:E; cbn [bind]; [|discriminate].
    destruct q.
    + intros H. assert (k1 = k0 /\ w = v) as [-> ->] by (split; congruence). split; [now left | auto].
    + intros H. destruct (IH H). split; [now right | auto].
  - intros H. destruct (IH H). split; [now right | auto].
Qed.

(** Where entries come from. *)
Lemma step_entries c o en :
  In en (entries (step c o)) ->
  In en (entries c) \/ exists e k v, o = OpSet e k v /\ transform_key e k = Ok (fst en) /\ snd en = v.
Proof.
  destruct o as [e k v | e k | x]; cbn [step].
  - unfold cset. destruct (Nat.eqb _ _); [|auto].
    destruct (transform_key e k) as [kt|] eqn:Ek; cbn [bind]; [|auto].
    unfold cache_insert. destruct (0 <? maxsize c); [|auto].
    destruct (lookup kt (entries c)) as [[f|]|]; cbn [bind]; auto.
    cbn [entries]. intros H. apply in_app_or in H. destruct H as [H | [<- | []]].
    + left. destruct (maxsize c <=? length (entries c)); auto.
      destruct (entries c); [contradiction | now right].
    + right. exists e, k, v. auto.
  - auto.
  - unfold die. destruct (existsb (fun en => existsb (obj_eqb x) (holds (snd en))) (entries c)); [auto|]. cbn [entries].
    intros H. apply filter_In in H. left. tauto.
Qed.

Lemma run_app n ops ops' : run n (ops ++ ops') = fold_left step ops' (run n ops).
Proof. unfold run. apply fold_left_app. Qed.

Lemma run_entries n ops en :
  In en (entries (run n ops)) ->
  exists e k v, In (OpSet e k v) ops /\ transform_key e k = Ok (fst en) /\ snd en = v.
Proof.
  induction ops as [|o ops IH] using rev_ind; [intros []|].
  rewrite run_app. cbn [fold_left]. intros H. apply step_entries in H.
  destruct H as [H | (e & k & v & -> & H1 & H2)].
  - destruct (IH H) as (e & k & v & Hi & H1). exists e, k, v. split; auto. apply in_or_app. auto.
  - exists e, k, v. split; auto. apply in_or_app. right. now left.
Qed.

Lemma cget_inv e k c v :
  cget e k c = Ok (Some v) ->
  exists kt k0 v0 m, transform_key e k = Ok kt /\ In (k0, v0) (entries c) /\
    weqb_list k0 kt = Ok true /\ dim_map (dead c) k0 kt = Ok m /\ v = map_output m v0.
Proof.
  unfold cget. destruct (transform_key e k) as [kt|]; cbn [bind]; [|discriminate].
  destruct (lookup kt (entries c)) as [[[k0 v0]|]|] eqn:El; cbn [bind]; try discriminate.
  destruct (dim_map (dead c) k0 kt) as [m|] eqn:Em; cbn [bind]; [|discriminate].
  intros H. apply lookup_in in El. destruct El as [H1 H2].
  exists kt, k0, v0, m. repeat split; auto. congruence.
Qed.

Lemma transparent n F ops e k v :
  natural F ->
  (forall e0 k0 v0, In (OpSet e0 k0 v0) ops -> v0 = F (place e0 k0) k0 /\ NoDup (key_dims k0)) ->
  cget e k (run n ops) = Ok (Some v) -> v = F (place e k) k.
Proof.
  intros HF Hs Hg. destruct (cget_inv _ _ _ _ Hg) as (kt & k0 & v0 & m & Hk & Hi & Hw & Hm & ->).
  destruct (run_entries _ _ _ Hi) as (e1 & k1 & v1 & Ho & Hk1 & Hv). cbn [fst snd] in *. subst v1.
  destruct (Hs _ _ _ Ho) as [-> Hn].
  destruct (weqb_list_key _ _ _ _ _ _ Hk1 Hk Hw) as (i0 & i & Hi0 & Hi1 & Hp & Hwi & Hdm).
  rewrite Hdm in Hm. rewrite map_output_rename, Hp. symmetry. apply HF.
  eapply weqb_list_same; eauto. intros d d' Hd. apply map_dim_in; auto.
  rewrite (dim_map_items _ _ _ _ _ _ Hi0 Hi1 Hm). exact Hn.
Qed.

(** Size. *)
Lemma maxsize_step c o : maxsize (step c o) = maxsize c.
Proof.
  destruct o as [e k v | e k | x]; cbn [step]; auto.
  - unfold cset. destruct (Nat.eqb _ _); [|auto].
    destruct (transform_key e k); cbn [bind]; [|auto].
    unfold cache_insert. destruct (0 <? maxsize c); [|auto].
    destruct (lookup _ (entries c)) as [[f|]|]; cbn [bind]; auto.
  - unfold die. destruct (existsb (fun en => existsb (obj_eqb x) (holds (snd en))) (entries c)); auto.
Qed.

Lemma filter_length_le {A} (f : A -> bool) l : length (filter f l) <= length l.
Proof. induction l as [|a l IH]; cbn [filter length]; auto. destruct (f a); cbn [length]; lia. Qed.

Lemma length_step c o : length (entries c) <= maxsize c -> length (entries (step c o)) <= maxsize c.
Proof.
  intros H. destruct o as [e k v | e k | x]; cbn [step]; auto.
  - unfold cset. destruct (Nat.eqb _ _); [|auto].
    destruct (transform_key e k); cbn [bind]; [|auto].
    unfold cache_insert. destruct (0 <? maxsize c) eqn:E0; [|auto]. apply Nat.ltb_lt in E0.
    destruct (lookup _ (entries c)) as [[f|]|]; cbn [bind]; auto. cbn [entries].
    rewrite app_length. cbn [length].
    destruct (Nat.leb_spec (maxsize c) (length (entries c))); [|lia].
    destruct (entries c); cbn [tl length] in *; lia.
  - unfold die. destruct (existsb (fun en => existsb (obj_eqb x) (holds (snd en))) (entries c)); auto. cbn [entries].
    eapply Nat.le_trans; [apply filter_length_le | exact H].
Qed.

Lemma maxsize_run n ops : maxsize (run n ops) = n.
Proof.
  induction ops as [|o ops IH] using rev_ind; auto. rewrite run_app. cbn [fold_left].
  now rewrite maxsize_step.
Qed.

Lemma bounded n ops : length (entries (run n ops)) <= n.
Proof.
  induction ops as [|o ops IH] using rev_ind; [cbn; lia|]. rewrite run_app. cbn [fold_left].
  rewrite <- (maxsize_run n ops) at 2. apply length_step. now rewrite maxsize_run.
Qed.

(** Dead dims. *)
Lemma dead_run n ops d : In d (dead (run n ops)) -> In (OpDie (ODim d)) ops.
Proof.
  induction ops as [|o ops IH] using rev_ind; [intros []|].
  rewrite run_app. cbn [fold_left]. intros H.
  assert (Hc : In d (dead (run n ops)) \/ o = OpDie (ODim d)).
  { destruct o as [e k v | e k | x]; cbn [step] in H; auto.
    - left. unfold cset in H. destruct (Nat.eqb _ _); [|auto].
      destruct (transform_key e k); cbn [bind] in H; [|auto].
      unfold cache_insert in H. destruct (0 <? maxsize (run n ops)); [|auto].
      destruct (lookup _ (entries (run n ops))) as [[f|]|]; cbn [bind] in H; auto.
    - unfold die in H.
      destruct (existsb (fun en => existsb (obj_eqb x) (holds (snd en))) (entries (run n ops))); [auto|].
      cbn [dead] in H. destruct x; auto. destruct H as [-> | H]; auto. }
  apply in_or_app. destruct Hc as [Hc | ->]; [left; auto | right; now left].
Qed.

(** An entry which was just set. *)
Definition good (w : witem) : Prop := match w with WDim _ None None => False | _ => True end.

Lemma defined_transform k : Forall defined k ->
  exists l, mapM transform_item k = Ok l /\ Forall good l /\
    (forall d v x, In (WDim d v x) l -> In d (key_dims k)).
Proof.
  induction 1 as [|i k Hi Hk (l & Hl & Hg & Hd)].
  - exists []. repeat split; auto.
  - assert (Hw : exists w, transform_item i = Ok w /\ good w /\ (forall d v x, w = WDim d v x -> item_dims i = [d])).
    { destruct i as [r | t [[r b]|] | d [v|] [x|] |]; cbn [defined] in Hi; try contradiction;
        cbn [transform_item item_dims];
        try (eexists; split; [reflexivity | split; [exact I | intros; congruence]]);
        try congruence.
      destruct Hi; congruence. }
    destruct Hw as (w & Hw & Hgw & Hdw).
    exists (w :: l). cbn [mapM]. rewrite Hw, Hl. cbn [bind]. repeat split; auto.
    intros d v x [-> | Hin]; unfold key_dims; cbn [flat_map]; apply in_or_app.
    + left. rewrite (Hdw d v x eq_refl). now left.
    + right. eapply Hd; eauto.
Qed.

Lemma hsame_refl w : hsame w w = true.
Proof. destruct w as [b|c|r|t r|d [v|] x]; cbn; try apply Nat.eqb_refl. apply raw_eqb_refl. Qed.
Lemma hsame_list_refl l : hsame_list l l = true.
Proof. induction l as [|w l IH]; cbn [hsame_list]; auto. now rewrite hsame_refl, IH. Qed.
Lemma weqb_refl w : good w -> weqb w w = Ok true.
Proof.
  destruct w as [b|c|r|t r|d [v|] x]; cbn [weqb good]; intros H; rewrite ?Nat.eqb_refl, ?raw_eqb_refl; auto.
  destruct x as [x|]; [|contradiction]. now rewrite Nat.eqb_refl.
Qed.
Lemma weqb_list_refl l : Forall good l -> weqb_list l l = Ok true.
Proof.
  induction 1 as [|w l Hw Hl IH]; auto. cbn [weqb_list]. rewrite weqb_refl by auto. exact IH.
Qed.

Lemma dim_map_refl dd l : (forall d v x, In (WDim d v x) l -> ~ In d dd) ->
  exists m, dim_map dd l l = Ok m /\ forall a b, In (a, b) m -> a = b.
Proof.
  induction l as [|w l IH]; intros H.
  - exists []. split; auto. intros ? ? [].
  - destruct IH as (m & Hm & Hid). { intros. eapply H. right. eauto. }
    destruct w as [b|c|r|t r|d v x]; cbn [dim_map]; eauto.
    destruct (existsb (Nat.eqb d) dd) eqn:E.
    + apply existsb_exists in E. destruct E as (d' & Hd' & E). apply Nat.eqb_eq in E. subst d'.
      exfalso. eapply H; [now left | exact Hd'].
    + rewrite Hm. cbn [bind]. exists ((d, d) :: m). split; auto.
      intros a b [Hab | Hab]; [congruence | auto].
Qed.

Lemma lookup_app_none k l1 l2 : lookup k l1 = Ok None -> lookup k (l1 ++ l2) = lookup k l2.
Proof.
  induction l1 as [|[k0 v] l1 IH]; auto. cbn [lookup app].
  destruct (hsame_list k0 k); auto. destruct (weqb_list k0 k) as [q|]; cbn [bind]; [|discriminate].
  destruct q; [discriminate | auto].
Qed.

Lemma lookup_tl k l : lookup k l = Ok None -> lookup k (tl l) = Ok None.
Proof.
  destruct l as [|[k0 v] l]; auto. cbn [lookup tl].
  destruct (hsame_list k0 k); auto. destruct (weqb_list k0 k) as [q|]; cbn [bind]; [|discriminate].
  destruct q; [discriminate | auto].
Qed.

Definition has (kt : list witem) (v : value) (j : nat) (c : cache) : Prop :=
  exists pre post, entries c = pre ++ (kt, v) :: post /\ lookup kt pre = Ok None /\ length post <= j.

Lemma step_has kt v j c o :
  has kt v j c -> is_die o = false -> j + (if is_set o then 1 else 0) < maxsize c ->
  has kt v (j + (if is_set o then 1 else 0)) (step c o).
Proof.
  intros (pre & post & He & Hp & Hl) Hd Hm. destruct o as [e k w | e k | x]; cbn [is_set is_die step] in *.
  - assert (Hsame : has kt v (j + 1) c) by (exists pre, post; repeat split; auto; lia).
    unfold cset. destruct (Nat.eqb _ _); [|exact Hsame].
    destruct (transform_key e k) as [k1|]; cbn [bind]; [|exact Hsame].
    unfold cache_insert. destruct (0 <? maxsize c); [|exact Hsame].
    destruct (lookup k1 (entries c)) as [[f|]|]; cbn [bind]; try exact Hsame.
    destruct (Nat.leb_spec (maxsize c) (length (entries c))) as [Hf|Hf].
    + destruct pre as [|p pre].
      * rewrite He in Hf. cbn [app length] in Hf. unfold entry in *. lia.
      * exists pre, (post ++ [(k1, w)]). cbn [entries]. rewrite He. cbn [app tl]. repeat split.
        -- now rewrite <- app_assoc.
        -- apply (lookup_tl kt (p :: pre)). exact Hp.
        -- rewrite app_length. cbn [length]. unfold entry in *. lia.
    + exists pre, (post ++ [(k1, w)]). cbn [entries]. rewrite He. repeat split; auto.
      * now rewrite <- app_assoc.
      * rewrite app_length. cbn [length]. unfold entry in *. lia.
  - exists pre, post. repeat split; auto. lia.
  - discriminate.
Qed.

Lemma steps_has kt v ops : forall j c,
  has kt v j c -> forallb (fun o => negb (is_die o)) ops = true -> j + n_sets ops < maxsize c ->
  has kt v (j + n_sets ops) (fold_left step ops c).
Proof.
  induction ops as [|o ops IH]; intros j c H Hd Hm.
  - unfold n_sets. cbn [filter length fold_left]. now rewrite Nat.add_0_r.
  - cbn [forallb] in Hd. apply andb_prop in Hd. destruct Hd as [Hd1 Hd2]. apply negb_true_iff in Hd1.
    assert (En : n_sets (o :: ops) = (if is_set o then 1 else 0) + n_sets ops).
    { unfold n_sets. cbn [filter]. destruct (is_set o); reflexivity. }
    rewrite En in *. cbn [fold_left]. rewrite Nat.add_assoc. apply IH; auto.
    + apply step_has; auto. destruct (is_set o); lia.
    + rewrite maxsize_step. lia.
Qed.

Lemma has_cget kt v j c e k :
  transform_key e k = Ok kt -> Forall good kt -> (forall d w x, In (WDim d w x) kt -> ~ In d (dead c)) ->
  has kt v j c -> cget e k c = Ok (Some v).
Proof.
  intros Hk Hg Hd (pre & post & He & Hp & _). unfold cget. rewrite Hk. cbn [bind].
  rewrite He, (lookup_app_none _ _ _ Hp). cbn [lookup].
  rewrite hsame_list_refl, (weqb_list_refl _ Hg). cbn [bind].
  destruct (dim_map_refl (dead c) kt Hd) as (m & Hm & Hid). rewrite Hm. cbn [bind].
  rewrite map_output_rename. rewrite (rename_ext (map_dim m) (fun d => d)).
  - now rewrite rename_id.
  - intros d. apply map_dim_id. exact Hid.
Qed.

Lemma kept n ops e k v ops' :
  0 < n -> Forall defined k -> value_backend e v = backend_of e k ->
  cget e k (run n ops) = Ok None ->
  (forall d, In d (key_dims k) -> ~ In (OpDie (ODim d)) ops) ->
  forallb (fun o => negb (is_die o)) ops' = true -> n_sets ops' < n ->
  cget e k (run n (ops ++ OpSet e k v :: ops')) = Ok (Some v).
Proof.
  intros Hn Hdef Hb Hg Hal Hnd Hns.
  destruct (defined_transform k Hdef) as (l & Hl & Hgl & Hdl).
  assert (Hk : exists kt, transform_key e k = Ok kt /\ Forall good kt /\
            forall d w x, In (WDim d w x) kt -> In d (key_dims k)).
  { unfold transform_key. rewrite Hl. cbn [bind]. eexists. split; [reflexivity|]. split.
    - constructor; [exact I|]. apply Forall_app. split; auto.
      destruct (eager e (key_backend e k)); repeat constructor.
    - intros d w x [H | H]; [discriminate|]. apply in_app_or in H. destruct H as [H | H].
      + destruct (eager e (key_backend e k)); [contradiction|]. destruct H as [H | []]. discriminate.
      + eapply Hdl; eauto. }
  destruct Hk as (kt & Hk & Hgk & Hdk).
  rewrite run_app. cbn [fold_left].
  unfold cget in Hg. rewrite Hk in Hg. cbn [bind] in Hg.
  destruct (lookup kt (entries (run n ops))) as [[[k0 v0]|]|] eqn:El; cbn [bind] in Hg; try discriminate.
  { destruct (dim_map (dead (run n ops)) k0 kt); discriminate. }
  assert (Hs : step (run n ops) (OpSet e k v) =
    mkCache n ((if n <=? length (entries (run n ops)) then tl (entries (run n ops)) else entries (run n ops)) ++ [(kt, v)])
      (dead (run n ops))).
  { cbn [step]. unfold cset. rewrite key_backend_spec, leaves_backend_spec, Hb, Nat.eqb_refl, Hk. cbn [bind].
    unfold cache_insert. rewrite maxsize_run. apply Nat.ltb_lt in Hn. rewrite Hn, El. reflexivity. }
  rewrite Hs.
  eapply (has_cget kt v (0 + n_sets ops')); eauto.
  - intros d w x Hi Hdd.
    assert (Hdr : In d (dead (run n ops))).
    { revert Hdd. generalize (run n ops) as c. intros c.
      match goal with |- In d (dead (fold_left step ops' ?c0)) -> _ => assert (Hg0 : dead c0 = dead c) by reflexivity;
        revert Hg0; generalize c0 as c1 end.
      revert Hnd. clear. induction ops' as [|o ops' IH]; intros Hnd c1 Hc1; cbn [fold_left].
      - now rewrite Hc1.
      - cbn [forallb] in Hnd. apply andb_prop in Hnd. destruct Hnd as [H1 H2]. apply IH; auto.
        rewrite <- Hc1. destruct o as [e k v | e k | x]; cbn [step]; auto; [|discriminate].
        unfold cset. destruct (Nat.eqb _ _); [|auto].
        destruct (transform_key e k); cbn [bind]; [|auto].
        unfold cache_insert. destruct (0 <? maxsize c1); [|auto].
        destruct (lookup _ (entries c1)) as [[f|]|]; cbn [bind]; auto. }
    apply dead_run in Hdr. eapply Hal; eauto.
  - apply steps_has; auto. eexists _, []. cbn [entries]. split; [reflexivity|]. split; auto.
    destruct (n <=? length (entries (run n ops))); [apply lookup_tl|]; auto.
Qed.

(** The assertion on the dims of the stored key. *)
Lemma value_dims_holds v d : In d (value_dims v) -> In (ODim d) (holds v).
Proof.
  unfold holds. induction v as [x | ds rw | n | l IH] using value_ind2; cbn [value_dims vleaves flat_map app].
  - intros [-> | []]. now left.
  - intros H. rewrite app_nil_r. apply in_or_app. left. now apply in_map.
  - tauto.
  - intros H. apply in_flat_map in H. destruct H as (a & Ha & Hd).
    rewrite Forall_forall in IH. specialize (IH a Ha Hd).
    apply in_flat_map in IH. destruct IH as (b & Hb & Hi).
    apply in_flat_map. exists b. split; auto. apply in_flat_map. eauto.
Qed.

Lemma obj_eqb_eq a b : obj_eqb a b = true <-> a = b.
Proof.
  destruct a, b; cbn; try (split; intros; congruence); rewrite Nat.eqb_eq; split; congruence.
Qed.

Definition entry_ok (dd : list nat) (en : entry) : Prop :=
  forall d w x, In (WDim d w x) (fst en) ->
    ~ In d dd /\ (w <> None -> In (ODim d) (holds (snd en))).

Lemma transform_key_dims e k kt d w x :
  transform_key e k = Ok kt -> In (WDim d w x) kt -> exists x', In (KDim d w x') k.
Proof.
  intros Hk Hi. destruct (transform_key_inv _ _ _ Hk) as (l & Hl & ->).
  destruct Hi as [Hi | Hi]; [discriminate|]. apply in_app_or in Hi. destruct Hi as [Hi | Hi].
  - destruct (eager e (backend_of e k)); [contradiction|]. destruct Hi as [Hi | []]. discriminate.
  - clear Hk. revert l Hl Hi. induction k as [|i k IH]; intros l Hl Hi.
    + cbn in Hl. injection Hl as <-. contradiction.
    + destruct (mapM_cons_inv _ _ _ Hl) as (u & l' & Hu & Hl' & ->). destruct Hi as [-> | Hi].
      * destruct i as [r | t [[r b]|] | d1 [v1|] x1 |]; cbn [transform_item] in Hu; try discriminate;
          injection Hu as -> <- <-; eexists; left; reflexivity.
      * destruct (IH _ Hl' Hi) as (x' & Hx). exists x'. now right.
Qed.

Lemma in_key_dims d w x k : In (KDim d w x) k -> In d (key_dims k).
Proof. intros H. unfold key_dims. apply in_flat_map. exists (KDim d w x). split; auto. now left. Qed.

Lemma entries_ok n ops :
  keys_alive ops ->
  (forall e k v, In (OpSet e k v) ops -> forall d w x, In (KDim d (Some w) x) k -> In d (value_dims v)) ->
  forall en, In en (entries (run n ops)) -> entry_ok (dead (run n ops)) en.
Proof.
  induction ops as [|o ops IH] using rev_ind; intros Ha Hv en He; [contradiction|].
  assert (Ha' : keys_alive ops).
  { intros pre o' post E d Hd. apply (Ha pre o' (post ++ [o])); auto. now rewrite E, <- app_assoc. }
  assert (Hv' : forall e k v, In (OpSet e k v) ops -> forall d w x, In (KDim d (Some w) x) k -> In d (value_dims v)).
  { intros e k v Hi. apply (Hv e k v). apply in_or_app. now left. }
  specialize (IH Ha' Hv').
  rewrite run_app in *. cbn [fold_left] in *.
  destruct (step_entries _ _ _ He) as [Hold | (e & k & v & -> & Hk & Hs)].
  - intros d w x Hi. destruct (IH en Hold d w x Hi) as [H1 H2]. split; auto.
    destruct o as [e k v | e k | y]; cbn [step] in *; auto.
    + unfold cset. destruct (Nat.eqb _ _); [|auto].
      destruct (transform_key e k); cbn [bind]; [|auto].
      unfold cache_insert. destruct (0 <? maxsize (run n ops)); [|auto].
      destruct (lookup _ (entries (run n ops))) as [[f|]|]; cbn [bind]; auto.
    + unfold die in *.
      destruct (existsb (fun en => existsb (obj_eqb y) (holds (snd en))) (entries (run n ops))) eqn:E; auto.
      cbn [dead entries] in *. destruct y as [d' | | |]; auto.
      intros [-> | Hd]; auto.
      destruct w as [w|].
      * assert (Hh : In (ODim d) (holds (snd en))) by (apply H2; discriminate).
        rewrite <- not_true_iff_false in E. apply E. apply existsb_exists. exists en. split; auto.
        apply existsb_exists. exists (ODim d). split; auto. now apply obj_eqb_eq.
      * apply filter_In in He. destruct He as [_ He]. apply negb_true_iff in He.
        rewrite <- not_true_iff_false in He. apply He. apply existsb_exists. exists (WDim d None x). split; auto.
        apply existsb_exists. exists (ODim d). split; [now left | now apply obj_eqb_eq].
  - intros d w x Hi. destruct (transform_key_dims _ _ _ _ _ _ Hk Hi) as (x' & Hx).
    assert (Hdead : dead (step (run n ops) (OpSet e k v)) = dead (run n ops)).
    { cbn [step]. unfold cset. destruct (Nat.eqb _ _); [|auto].
      destruct (transform_key e k); cbn [bind]; [|auto].
      unfold cache_insert. destruct (0 <? maxsize (run n ops)); [|auto].
      destruct (lookup _ (entries (run n ops))) as [[f|]|]; cbn [bind]; auto. }
    rewrite Hdead. split.
    + intros Hd. apply dead_run in Hd. eapply (Ha ops (OpSet e k v) []); eauto.
      cbn [op_key]. eapply in_key_dims; eauto.
    + intros Hw. destruct w as [w|]; [|congruence]. rewrite Hs. apply value_dims_holds.
      eapply Hv; [apply in_or_app; right; now left | exact Hx].
Qed.

Lemma dim_map_ok dd a : forall b,
  weqb_list a b = Ok true -> (forall d w x, In (WDim d w x) a -> ~ In d dd) ->
  exists m, dim_map dd a b = Ok m.
Proof.
  induction a as [|u a IH]; intros b Hw Hd.
  - destruct b; cbn in Hw; [|discriminate]. eexists. reflexivity.
  - destruct b as [|y b]; [discriminate|]. cbn [weqb_list] in Hw.
    destruct (weqb u y) as [q|] eqn:E; cbn [bind] in Hw; [|discriminate]. destruct q; [|discriminate].
    destruct (IH b Hw) as (m & Hm). { intros. eapply Hd. right. eauto. }
    destruct u as [c|c|r|t r|d v x]; cbn [dim_map]; eauto.
    destruct y as [c|c|r|t r|d' v' x']; cbn [weqb] in E; try discriminate.
    destruct (existsb (Nat.eqb d) dd) eqn:Ex.
    + apply existsb_exists in Ex. destruct Ex as (d1 & Hd1 & E1). apply Nat.eqb_eq in E1. subst d1.
      exfalso. eapply Hd; [now left | exact Hd1].
    + rewrite Hm. cbn [bind]. eauto.
Qed.

Lemma mapM_err k x : mapM transform_item k = Err x -> x = TypeError.
Proof.
  induction k as [|i k IH]; cbn [mapM]; [discriminate|].
  destruct (transform_item i) as [w|y] eqn:E; cbn [bind].
  - destruct (mapM transform_item k); cbn [bind]; [discriminate|]. auto.
  - intros [= ->]. destruct i as [r | t [[r b]|] | d [v|] z |]; cbn in E; congruence.
Qed.

Lemma weqb_err a b x : weqb a b = Err x -> x = TypeError.
Proof.
  destruct a as [c|c|r|t r|d [v|] z], b as [c'|c'|r'|t' r'|d' v' z']; cbn [weqb]; try discriminate.
  destruct (Nat.eqb d d'); [|discriminate]. destruct z, z'; congruence.
Qed.

Lemma weqb_list_err a : forall b x, weqb_list a b = Err x -> x = TypeError.
Proof.
  induction a as [|u a IH]; intros [|y b] x; cbn [weqb_list]; try discriminate.
  destruct (weqb u y) as [q|z] eqn:E; cbn [bind].
  - destruct q; [apply IH | discriminate].
  - intros [= ->]. eapply weqb_err; eauto.
Qed.

Lemma lookup_err k l x : lookup k l = Err x -> x = TypeError.
Proof.
  induction l as [|[k0 v] l IH]; cbn [lookup]; [discriminate|].
  destruct (hsame_list k0 k); auto. destruct (weqb_list k0 k) as [q|z] eqn:E; cbn [bind].
  - destruct q; [discriminate | auto].
  - intros [= ->]. eapply weqb_list_err; eauto.
Qed.

Lemma no_assert n ops e k :
  keys_alive ops ->
  (forall e k v, In (OpSet e k v) ops -> forall d w x, In (KDim d (Some w) x) k -> In d (value_dims v)) ->
  cget e k (run n ops) <> Err AssertionError.
Proof.
  intros Ha Hv. unfold cget.
  destruct (transform_key e k) as [kt|x] eqn:Ek; cbn [bind].
  2:{ unfold transform_key in Ek. destruct (mapM transform_item k) eqn:E; cbn [bind] in Ek; [discriminate|].
      apply mapM_err in E. congruence. }
  destruct (lookup kt (entries (run n ops))) as [[[k0 v]|]|x] eqn:El; cbn [bind]; try discriminate.
  - destruct (lookup_in _ _ _ _ El) as [Hi Hw].
    pose proof (entries_ok n ops Ha Hv _ Hi) as Hok.
    destruct (dim_map_ok (dead (run n ops)) k0 kt Hw) as (m & Hm).
    { intros d w x Hd. apply (Hok d w x Hd). }
    rewrite Hm. discriminate.
  - apply lookup_err in El. congruence.
Qed.

(** Objects which went out of scope. *)
Lemma weqb_list_tensor t r a : forall b,
  weqb_list a b = Ok true -> In (WTensor t r) b -> In (WTensor t r) a.
Proof.
  induction a as [|u a IH]; intros b Hw Hi.
  - destruct b; [contradiction | discriminate].
  - destruct b as [|y b]; [discriminate|]. cbn [weqb_list] in Hw.
    destruct (weqb u y) as [q|] eqn:E; cbn [bind] in Hw; [|discriminate]. destruct q; [|discriminate].
    destruct Hi as [-> | Hi]; [|right; eauto].
    left. destruct u as [c|c|r'|t' r'|d [v|] x]; cbn [weqb] in E; try discriminate.
    assert (H : Nat.eqb t' t && Nat.eqb r' r = true) by congruence.
    apply andb_prop in H. destruct H as [H1 H2]. apply Nat.eqb_eq in H1, H2. congruence.
Qed.

Lemma weqb_list_ctx c a : forall b,
  weqb_list a b = Ok true -> In (WCtx c) b -> In (WCtx c) a.
Proof.
  induction a as [|u a IH]; intros b Hw Hi.
  - destruct b; [contradiction | discriminate].
  - destruct b as [|y b]; [discriminate|]. cbn [weqb_list] in Hw.
    destruct (weqb u y) as [q|] eqn:E; cbn [bind] in Hw; [|discriminate]. destruct q; [|discriminate].
    destruct Hi as [-> | Hi]; [|right; eauto].
    left. destruct u as [c'|c'|r'|t' r'|d [v|] x]; cbn [weqb] in E; try discriminate.
    assert (H : Nat.eqb c' c = true) by congruence. apply Nat.eqb_eq in H. congruence.
Qed.

Lemma holds_kind v o : In o (holds v) -> match o with ODim _ | ORaw _ => True | _ => False end.
Proof.
  unfold holds. intros H. apply in_flat_map in H. destruct H as (l & _ & H).
  destruct l as [d | ds rw | n | l].
  - destruct H as [<- | []]. exact I.
  - apply in_app_or in H. destruct H as [H | H].
    + apply in_map_iff in H. destruct H as (d & <- & _). exact I.
    + destruct rw as [[r b]|]; [|contradiction]. destruct H as [<- | []]. exact I.
  - contradiction.
  - contradiction.
Qed.

Lemma die_entries o c en w :
  match o with ODim _ | ORaw _ => False | _ => True end ->
  In en (entries (die o c)) -> In w (fst en) -> ~ In o (watched w).
Proof.
  intros Ho He Hw Hi. unfold die in He.
  destruct (existsb (fun en => existsb (obj_eqb o) (holds (snd en))) (entries c)) eqn:E.
  - apply existsb_exists in E. destruct E as (en' & _ & E). apply existsb_exists in E.
    destruct E as (o' & Hh & E). apply obj_eqb_eq in E. subst o'.
    apply holds_kind in Hh. destruct o; contradiction.
  - cbn [entries] in He. apply filter_In in He. destruct He as [_ He]. apply negb_true_iff in He.
    rewrite <- not_true_iff_false in He. apply He. apply existsb_exists. exists w. split; auto.
    apply existsb_exists. exists o. split; auto. now apply obj_eqb_eq.
Qed.

Lemma dead_tensor n ops e k t rw v :
  In (KTensor t rw) k -> cget e k (run n (ops ++ [OpDie (OTensor t)])) <> Ok (Some v).
Proof.
  intros Hk Hg. destruct (cget_inv _ _ _ _ Hg) as (kt & k0 & v0 & m & Hkt & Hi & Hw & _).
  rewrite run_app in Hi. cbn [fold_left step] in Hi.
  assert (Hin : exists r, In (WTensor t r) kt).
  { destruct (transform_key_inv _ _ _ Hkt) as (l & Hl & ->).
    assert (H : exists r, In (WTensor t r) l).
    { clear - Hk Hl. revert l Hl. induction k as [|i k IH]; intros l Hl; [contradiction|].
      destruct (mapM_cons_inv _ _ _ Hl) as (u & l' & Hu & Hl' & ->). destruct Hk as [-> | Hk].
      - destruct rw as [[r b]|]; cbn in Hu; [|discriminate]. injection Hu as <-. exists r. now left.
      - destruct (IH Hk _ Hl') as (r & Hr). exists r. now right. }
    destruct H as (r & Hr). exists r. right. apply in_or_app. now right. }
  destruct Hin as (r & Hr).
  eapply (die_entries (OTensor t) _ _ (WTensor t r) I Hi).
  - eapply weqb_list_tensor; eauto.
  - now left.
Qed.

Lemma dead_ctx n ops e k v :
  eager e (backend_of e k) = false -> cget e k (run n (ops ++ [OpDie (OCtx (ctx e))])) <> Ok (Some v).
Proof.
  intros He Hg. destruct (cget_inv _ _ _ _ Hg) as (kt & k0 & v0 & m & Hkt & Hi & Hw & _).
  rewrite run_app in Hi. cbn [fold_left step] in Hi.
  destruct (transform_key_inv _ _ _ Hkt) as (l & Hl & ->). rewrite He in Hw.
  eapply (die_entries (OCtx (ctx e)) _ _ (WCtx (ctx e)) I Hi).
  - eapply weqb_list_ctx; [exact Hw|]. right. now left.
  - now left.
Qed.
