(** Proofs about [NumbersDict]. *)
From Coq Require Import String Ascii.
From Verif Require Import Base ListLemmas PyDict NumbersDictModel NumbersDictSpec.

Lemma at_key_get {V} (n : ndict V) k : at_key n k = nd_get n k.
Proof.
  unfold at_key, nd_get. destruct n as [d v]. cbn. induction d as [|(a, w) d IH]; cbn; [reflexivity|].
  destruct (String.eqb a k); [reflexivity|]. apply IH.
Qed.
Lemma has_key_In {V} (n : ndict V) k : has_key n k <-> In k (dkeys (nd_dict n)).
Proof.
  unfold has_key, dkeys. rewrite in_map_iff. split.
  - intros (v&H). now exists (k, v).
  - intros ((k', v)&<-&H). eauto.
Qed.
Lemma dget_eq_dec {V} (d : dict string V) k : (exists v, dget d k = Some v) \/ dget d k = None.
Proof. destruct (dget d k); eauto. Qed.

(** there are always further keys *)
Lemma fresh_key (ks : list string) : exists k, ~ In k ks.
Proof.
  assert (Hlong : exists n, forall k, In k ks -> String.length k < n).
  { induction ks as [|k ks (n&Hn)]; [exists 0; cbn; tauto|].
    exists (S (String.length k) + n). cbn. intros k' [<-|Hk']; [lia|]. specialize (Hn k' Hk'). lia. }
  destruct Hlong as (n&Hn).
  assert (Hstr : exists s, String.length s = n).
  { clear Hn. induction n as [|n (s&Hs)]; [now exists EmptyString|]. exists (String Ascii.zero s). cbn. now rewrite Hs. }
  destruct Hstr as (s&Hs). exists s. intros Hin. apply Hn in Hin. lia.
Qed.

Lemma In_existsb_eqb k l : existsb (String.eqb k) l = true <-> In k l.
Proof. rewrite existsb_exists. split.
  - intros (x&Hx&H). apply String.eqb_eq in H. now subst.
  - intros H. exists k. split; auto. apply String.eqb_refl. Qed.

Lemma keys_union_loop_In seen ks k : In k (keys_union_loop seen ks) <-> In k ks /\ ~ In k seen.
Proof.
  revert seen; induction ks as [|a ks IH]; intros seen; cbn [keys_union_loop]; [cbn; tauto|].
  destruct (existsb (String.eqb a) seen) eqn:H.
  - rewrite IH. apply In_existsb_eqb in H. cbn. split; [tauto|]. intros [[->|Hk] Hn]; tauto.
  - assert (Ha : ~ In a seen) by (rewrite <- In_existsb_eqb; congruence).
    cbn. rewrite IH. cbn. split.
    + intros [->|[Hk Hn]]; tauto.
    + intros [[->|Hk] Hn]; [tauto|]. destruct (string_dec a k); [tauto|]. right. tauto.
Qed.
Lemma keys_union_loop_NoDup seen ks : NoDup (keys_union_loop seen ks).
Proof.
  revert seen; induction ks as [|a ks IH]; intros seen; cbn; [constructor|].
  destruct (existsb (String.eqb a) seen); auto. constructor; auto.
  rewrite keys_union_loop_In. cbn. tauto.
Qed.
Lemma keys_union_In {V W} (a : ndict V) (b : ndict W) k :
  In k (keys_union a b) <-> In k (dkeys (nd_dict a)) \/ In k (dkeys (nd_dict b)).
Proof. unfold keys_union. rewrite keys_union_loop_In, in_app_iff. cbn. tauto. Qed.

Lemma dget_map_keys {V} (f : string -> V) ks k :
  dget (map (fun k => (k, f k)) ks) k = if existsb (String.eqb k) ks then Some (f k) else None.
Proof.
  induction ks as [|a ks IH]; cbn; [reflexivity|]. rewrite String.eqb_sym.
  destruct (String.eqb k a) eqn:H; cbn; [apply String.eqb_eq in H; now subst|apply IH].
Qed.

Lemma nd_get_not_key {V} (n : ndict V) k : ~ In k (dkeys (nd_dict n)) -> nd_get n k = nd_value n.
Proof. intros H. apply dget_None in H. unfold nd_get. now rewrite H. Qed.
Lemma nd_get_key {V} (n : ndict V) k : In k (dkeys (nd_dict n)) -> nd_get n k <> None.
Proof. intros H. apply dget_keys in H. unfold nd_get. destruct (dget (nd_dict n) k); congruence. Qed.

(** [bin_op] on two dicts, read at any key. *)
Lemma bin_op_nd_get {V W} (op : option V -> option V -> option W) zero a b k :
  nd_get (bin_op_nd op zero a b) k =
  (if existsb (String.eqb k) (keys_union a b)
   then Some (bin_op_scalar_optional op zero (nd_get a k) (nd_get b k))
   else match bin_op_scalar_optional op zero (nd_get a k) (nd_get b k) with Some w => Some (Some w) | None => None end).
Proof.
  unfold nd_get at 1, bin_op_nd. cbn [nd_dict nd_value].
  rewrite (dget_map_keys (fun k => bin_op_scalar_optional op zero (nd_get a k) (nd_get b k))).
  destruct (existsb (String.eqb k) (keys_union a b)) eqn:H; [reflexivity|].
  assert (Hn : ~ In k (keys_union a b)) by (rewrite <- In_existsb_eqb; congruence).
  rewrite keys_union_In in Hn. rewrite !nd_get_not_key by tauto. reflexivity.
Qed.

Lemma dget_strip {W} (d : dict string (option W)) k :
  (forall k v, In (k, v) d -> v <> None) ->
  dget (flat_map (fun '(k, v) => match v with Some w => [(k, w)] | None => [] end) d) k =
  match dget d k with Some (Some w) => Some w | _ => None end.
Proof.
  induction d as [|(a, v) d IH]; cbn; intros H; [reflexivity|].
  destruct v as [w|]; [|exfalso; eapply H; [now left|reflexivity]].
  cbn. destruct (String.eqb a k); [reflexivity|]. apply IH. intros k' v' Hin. apply (H k'). now right.
Qed.
Lemma dkeys_strip {W} (d : dict string (option W)) :
  (forall k v, In (k, v) d -> v <> None) ->
  dkeys (flat_map (fun '(k, v) => match v with Some w => [(k, w)] | None => [] end) d) = dkeys d.
Proof.
  unfold dkeys. induction d as [|(a, v) d IH]; cbn; intros H; [reflexivity|].
  destruct v as [w|]; [|exfalso; eapply H; [now left|reflexivity]].
  cbn. f_equal. apply IH. intros k' v' Hin. apply (H k'). now right.
Qed.

(** An operation that gives a number whenever one side has one. *)
Definition total_op {V W} (op : option V -> option V -> option W) zero : Prop :=
  forall a b, (a <> None \/ b <> None) -> bin_op_scalar_optional op zero a b <> None.

Lemma bin_op_nd_entries {V W} (op : option V -> option V -> option W) zero a b :
  total_op op zero ->
  forall k v, In (k, v) (nd_dict (bin_op_nd op zero a b)) -> v <> None.
Proof.
  intros Ht k v Hin. cbn in Hin. apply in_map_iff in Hin as (k'&[= -> <-]&Hk).
  apply Ht. apply keys_union_In in Hk as [H|H]; [left|right]; now apply nd_get_key.
Qed.

Lemma strip_bin_op_get {V W} (op : option V -> option V -> option W) zero a b k :
  total_op op zero ->
  nd_get (strip (bin_op_nd op zero a b)) k = bin_op_scalar_optional op zero (nd_get a k) (nd_get b k).
Proof.
  intros Ht.
  assert (He := bin_op_nd_entries op zero a b Ht).
  assert (Hg := bin_op_nd_get op zero a b k).
  unfold nd_get at 1 in Hg. unfold nd_get at 1. unfold strip. cbn [nd_dict nd_value].
  rewrite dget_strip by exact He.
  destruct (dget (nd_dict (bin_op_nd op zero a b)) k) as [o|] eqn:Hd.
  - destruct o as [w|]; [|exfalso; apply dget_In in Hd; now apply He in Hd].
    destruct (existsb (String.eqb k) (keys_union a b)); [congruence|].
    destruct (bin_op_scalar_optional op zero (nd_get a k) (nd_get b k)); congruence.
  - rewrite Hg. destruct (existsb (String.eqb k) (keys_union a b)) eqn:Hk.
    + exfalso. apply dget_None in Hd. apply Hd. unfold bin_op_nd, dkeys. cbn.
      rewrite map_map. cbn. rewrite map_id. now apply In_existsb_eqb.
    + destruct (bin_op_scalar_optional op zero (nd_get a k) (nd_get b k)); reflexivity.
Qed.

Lemma strip_bin_op_keys {V W} (op : option V -> option V -> option W) zero a b :
  total_op op zero ->
  dkeys (nd_dict (strip (bin_op_nd op zero a b))) = keys_union a b.
Proof.
  intros Ht. unfold strip. cbn [nd_dict]. rewrite dkeys_strip by (now apply bin_op_nd_entries).
  unfold bin_op_nd, dkeys. cbn. rewrite map_map. cbn. apply map_id.
Qed.

Lemma total_lift2 {V} (f : V -> V -> V) zero : total_op (lift2 f) (Some zero).
Proof. intros [a|] [b|] H; cbn; try discriminate. destruct H; congruence. Qed.
Lemma total_opt_max : total_op opt_max None.
Proof. intros [a|] [b|] H; cbn; try discriminate. destruct H; congruence. Qed.
Lemma total_opt_min : total_op opt_min None.
Proof. intros [a|] [b|] H; cbn; try discriminate. destruct H; congruence. Qed.
Lemma total_floordiv : total_op floordiv_op (Some 1%Z).
Proof. intros [a|] [b|] H; cbn; try discriminate. destruct H; congruence. Qed.

Lemma dget_constant {V U} (c : V) (d : dict string U) k :
  dget (map (fun '(k, _) => (k, c)) d) k = match dget d k with Some _ => Some c | None => None end.
Proof. induction d as [|(a, w) d IH]; cbn; [reflexivity|]. now destruct (String.eqb a k). Qed.
Lemma nd_get_constant_like {V U} (c : V) (n : ndict U) k :
  nd_get (constant_like c n) k = match nd_get n k with Some _ => Some c | None => None end.
Proof. unfold nd_get, constant_like. cbn. rewrite dget_constant. now destruct (dget (nd_dict n) k). Qed.
Lemma dkeys_constant_like {V U} (c : V) (n : ndict U) : dkeys (nd_dict (constant_like c n)) = dkeys (nd_dict n).
Proof. unfold dkeys, constant_like. cbn. rewrite map_map. apply map_ext. now intros (?&?). Qed.

Lemma op_convert_at {V} (a b : num_operand V) x y k :
  op_convert a b = (x, y) -> nd_get x k = operand_at a b k /\ nd_get y k = operand_at b a k.
Proof.
  destruct a as [n|u], b as [m|v]; cbn; intros [= <- <-]; rewrite ?nd_get_constant_like, <- ?at_key_get; auto.
Qed.
Lemma op_convert_keys {V} (a b : num_operand V) x y k :
  op_convert a b = (x, y) ->
  (In k (dkeys (nd_dict x)) \/ In k (dkeys (nd_dict y))) <-> operand_has_key a k \/ operand_has_key b k.
Proof.
  destruct a as [n|u], b as [m|v]; cbn; intros [= <- <-]; rewrite ?dkeys_constant_like, ?has_key_In; cbn; tauto.
Qed.

Lemma pointwise_lift2 {V} (f : V -> V -> V) zero a b :
  bin_op_scalar_optional (lift2 f) (Some zero) a b = pointwise f zero a b.
Proof. destruct a, b; reflexivity. Qed.

Lemma bin_op_pointwise {V} (f : V -> V -> V) zero a b :
  is_pointwise f zero a b (strip (bin_op (lift2 f) (Some zero) a b)).
Proof.
  unfold bin_op. destruct (op_convert a b) as [x y] eqn:H. split; intros k.
  - rewrite at_key_get, strip_bin_op_get by apply total_lift2.
    destruct (op_convert_at _ _ _ _ k H) as [-> ->]. apply pointwise_lift2.
  - rewrite has_key_In, strip_bin_op_keys by apply total_lift2. rewrite keys_union_In.
    now apply op_convert_keys.
Qed.

(** floor division *)
Lemma mapM_entries_get (d : dict string (res Z)) items :
  mapM (fun '(k, r) => let* v := r in Ok (k, v)) d = Ok items ->
  dkeys items = dkeys d /\ forall k, dget d k = option_map Ok (dget items k).
Proof.
  revert items; induction d as [|(a, r) d IH]; cbn; intros items H.
  - injection H as <-. now split.
  - apply bind_Ok in H as ((a', v)&Hr&H). apply bind_Ok in H as (items'&Hi&[= <-]).
    apply bind_Ok in Hr as (v'&->&[= <- <-]). destruct (IH _ Hi) as [Hk Hg].
    cbn. split; [unfold dkeys in *; cbn; congruence|]. intros k. destruct (String.eqb a k); [reflexivity|apply Hg].
Qed.
Lemma mapM_entries_err (d : dict string (res Z)) e :
  mapM (fun '(k, r) => let* v := r in Ok (k, v)) d = Err e -> exists k, In (k, Err e) d.
Proof.
  induction d as [|(a, r) d IH]; cbn; intros H; [discriminate|].
  destruct r as [v|e']; cbn in H.
  - destruct (mapM _ d) as [?|e'] eqn:Hd; cbn in H; [discriminate|]. injection H as <-.
    destruct (IH eq_refl) as (k&Hk). eauto.
  - injection H as <-. eauto.
Qed.

Definition div1 (a b : option Z) : option (Z * Z) :=
  match a, b with
  | None, None => None
  | Some u, None => Some (u, 1)%Z
  | None, Some v => Some (1, v)%Z
  | Some u, Some v => Some (u, v)
  end.

Lemma floordiv_scalar a b :
  bin_op_scalar_optional floordiv_op (Some 1%Z) a b =
  option_map (fun '(u, v) => if (v =? 0)%Z then Err ZeroDivisionError else Ok (u / v)%Z) (div1 a b).
Proof. destruct a, b; reflexivity. Qed.

Lemma floordiv_ok a b n :
  nd_floordiv a b = Ok n ->
  is_pointwise Z.div 1%Z a b n /\
  forall k, option_map snd (div1 (operand_at a b k) (operand_at b a k)) <> Some 0%Z.
Proof.
  unfold nd_floordiv, bin_op. destruct (op_convert a b) as [x y] eqn:Hc.
  set (m := strip _). intros H. apply bind_Ok in H as (items&Hi&H).
  assert (Hg : forall k, nd_get m k = option_map Ok (nd_get n k)).
  { intros k. destruct (mapM_entries_get _ _ Hi) as [_ Hg]. unfold nd_get. rewrite Hg.
    destruct (nd_value m) as [r|].
    - apply bind_Ok in H as (v&->&[= <-]). cbn. now destruct (dget items k).
    - injection H as <-. cbn. now destruct (dget items k). }
  assert (Hk : dkeys (nd_dict n) = dkeys (nd_dict m)).
  { destruct (mapM_entries_get _ _ Hi) as [Hk _]. rewrite <- Hk. destruct (nd_value m) as [r|].
    - apply bind_Ok in H as (v&->&[= <-]). reflexivity.
    - injection H as <-. reflexivity. }
  assert (Hs : forall k, option_map (fun '(u, v) => if (v =? 0)%Z then Err ZeroDivisionError else Ok (u / v)%Z)
            (div1 (operand_at a b k) (operand_at b a k)) = option_map Ok (nd_get n k)).
  { intros k. rewrite <- Hg. unfold m. rewrite strip_bin_op_get by apply total_floordiv.
    destruct (op_convert_at _ _ _ _ k Hc) as [-> ->]. symmetry. apply floordiv_scalar. }
  repeat split.
  - intros k. specialize (Hs k). rewrite at_key_get.
    destruct (operand_at a b k) as [u|], (operand_at b a k) as [v|]; cbn in Hs |- *;
      destruct (nd_get n k); cbn in Hs; try congruence;
      repeat match type of Hs with context [if ?c then _ else _] => destruct c end; congruence.
  - intros HH. apply (op_convert_keys _ _ _ _ k Hc). rewrite has_key_In, Hk in HH.
    unfold m in HH. rewrite strip_bin_op_keys in HH by apply total_floordiv. now apply keys_union_In.
  - intros HH. apply (op_convert_keys _ _ _ _ k Hc) in HH. rewrite has_key_In, Hk.
    unfold m. rewrite strip_bin_op_keys by apply total_floordiv. now apply keys_union_In.
  - intros k Hz. specialize (Hs k). destruct (div1 _ _) as [[u v]|]; cbn in Hz, Hs; [|discriminate].
    injection Hz as ->. cbn in Hs. destruct (nd_get n k); discriminate.
Qed.

Lemma In_dget_ex {V} (d : dict string V) k v : In (k, v) d -> dict_ok d -> dget d k = Some v.
Proof. intros; now apply In_dget. Qed.

Lemma strip_bin_op_ok {V W} (op : option V -> option V -> option W) zero a b :
  total_op op zero -> dict_ok (nd_dict (strip (bin_op_nd op zero a b))).
Proof. intros H. unfold dict_ok. rewrite strip_bin_op_keys by auto. apply keys_union_loop_NoDup. Qed.

Lemma floordiv_err a b e :
  nd_floordiv a b = Err e ->
  e = ZeroDivisionError /\ exists k, option_map snd (div1 (operand_at a b k) (operand_at b a k)) = Some 0%Z.
Proof.
  unfold nd_floordiv, bin_op. destruct (op_convert a b) as [x y] eqn:Hc.
  set (m := strip _). intros H.
  assert (Hbad : forall k, nd_get m k = Some (Err e) ->
     e = ZeroDivisionError /\ exists k, option_map snd (div1 (operand_at a b k) (operand_at b a k)) = Some 0%Z).
  { intros k Hk. unfold m in Hk. rewrite strip_bin_op_get in Hk by apply total_floordiv.
    destruct (op_convert_at _ _ _ _ k Hc) as [H1 H2]. rewrite H1, H2, floordiv_scalar in Hk.
    destruct (div1 _ _) as [[u v]|] eqn:Hd; cbn in Hk; [|discriminate].
    destruct (v =? 0)%Z eqn:Hv; [|discriminate]. split; [congruence|]. exists k. rewrite Hd. cbn. f_equal. lia. }
  assert (Hok : dict_ok (nd_dict m)) by apply (strip_bin_op_ok _ _ _ _ total_floordiv). clearbody m.
  destruct (mapM _ (nd_dict m)) as [items|e'] eqn:Hi; cbn in H.
  - assert (Hno : exists k, ~ In k (dkeys (nd_dict m))).
    { apply fresh_key. }
    destruct Hno as (k&Hk). apply Hbad with (k := k).
    rewrite nd_get_not_key by auto. revert H; destruct (nd_value m) as [r|]; intros H; [|discriminate].
    destruct r; cbn in H; [discriminate|]. congruence.
  - injection H as ->. apply mapM_entries_err in Hi as (k&Hk). apply Hbad with (k := k).
    unfold nd_get. rewrite (In_dget _ _ _ Hok Hk). reflexivity.
Qed.

(** in-place operation *)
Lemma iop_fold (f : Z -> Z -> Z) zero (av : option Z) (y : ndict Z) ks d0 :
  NoDup ks ->
  let step d k := match bin_op_scalar_optional (lift2 f) (Some zero) (nd_get (ND d av) k) (nd_get y k) with
             | Some w => dset d k w | None => d end in
  (forall k, dget (fold_left step ks d0) k =
     if existsb (String.eqb k) ks
     then match bin_op_scalar_optional (lift2 f) (Some zero) (nd_get (ND d0 av) k) (nd_get y k) with
          | Some w => Some w | None => dget d0 k end
     else dget d0 k).
Proof.
  intros Hn step. revert d0. induction ks as [|a ks IH]; intros d0 k; cbn [fold_left existsb]; [reflexivity|].
  inversion Hn as [|? ? Ha Hks]; subst. rewrite IH by auto.
  assert (Hstep : forall k', k' <> a -> dget (step d0 a) k' = dget d0 k').
  { intros k' Hk'. unfold step. destruct (bin_op_scalar_optional _ _ _ _); auto. rewrite dget_dset_neq; auto. }
  destruct (String.eqb k a) eqn:Hka.
  - apply String.eqb_eq in Hka. subst a. cbn [orb].
    assert (Hx : existsb (String.eqb k) ks = false).
    { destruct (existsb (String.eqb k) ks) eqn:E; auto. apply In_existsb_eqb in E. contradiction. }
    rewrite Hx. unfold step. destruct (bin_op_scalar_optional _ _ _ _); [apply dget_dset_eq|reflexivity].
  - apply String.eqb_neq in Hka. cbn [orb]. unfold nd_get. cbn [nd_dict nd_value]. rewrite !Hstep by auto. reflexivity.
Qed.

Lemma iop_spec (f : Z -> Z -> Z) zero a b k :
  at_key (nd_iop f zero a b) k = pointwise f zero (at_key a k) (operand_at b (NumND a) k).
Proof.
  unfold nd_iop. destruct (op_convert (NumND a) b) as [x y] eqn:Hc.
  assert (Hx : x = a) by (destruct b; cbn in Hc; congruence). subst x.
  destruct (op_convert_at _ _ _ _ k Hc) as [H1 H2]. cbn [operand_at] in H1.
  rewrite !at_key_get, <- H2. clear H1.
  unfold nd_get at 1. cbn [nd_dict nd_value].
  rewrite (iop_fold f zero (nd_value a) y (keys_union a y) (nd_dict a) (keys_union_loop_NoDup _ _)).
  assert (Ha : ND (nd_dict a) (nd_value a) = a) by now destruct a. rewrite Ha.
  destruct (existsb (String.eqb k) (keys_union a y)) eqn:He.
  - apply In_existsb_eqb, keys_union_In in He. rewrite pointwise_lift2.
    destruct He as [He|He]; apply nd_get_key in He.
    + destruct (nd_get a k), (nd_get y k); cbn; congruence.
    + destruct (nd_get a k), (nd_get y k); cbn; congruence.
  - assert (Hnk : ~ In k (keys_union a y)) by (rewrite <- In_existsb_eqb; congruence).
    rewrite keys_union_In in Hnk.
    assert (Hna : ~ In k (dkeys (nd_dict a))) by tauto. assert (Hny : ~ In k (dkeys (nd_dict y))) by tauto.
    rewrite (nd_get_not_key a), (nd_get_not_key y) by auto. apply dget_None in Hna. rewrite Hna.
    rewrite pointwise_lift2. destruct (pointwise f zero (nd_value a) (nd_value y)); reflexivity.
Qed.

(** max and min *)
Lemma bin_opt_max a b : bin_op_scalar_optional opt_max None a b = opt_max a b.
Proof. destruct a, b; reflexivity. Qed.
Lemma bin_opt_min a b : bin_op_scalar_optional opt_min None a b = opt_min a b.
Proof. destruct a, b; reflexivity. Qed.

Lemma nd_fold_cons op a b (ns : list (ndict Z)) :
  nd_fold op (NumND a :: NumND b :: map NumND ns) = (let* r := nd_fold op (NumND b :: map NumND ns) in Ok (strip (bin_op op None (NumND a) (NumND r)))).
Proof. destruct ns as [|c ns]; reflexivity. Qed.
Lemma nd_fold_get op ns n :
  total_op op None -> (forall a b, bin_op_scalar_optional op None a b = op a b) ->
  nd_fold op (map NumND ns) = Ok n -> ns <> [] /\
  (forall k, nd_get n k = fold_right op (nd_get (last ns n) k) (map (fun m => nd_get m k) (removelast ns))).
Proof.
  intros Ht Hop. revert n; induction ns as [|a ns IH]; intros n H; [discriminate|].
  split; [discriminate|]. destruct ns as [|b ns].
  - cbn in H |- *. injection H as <-. reflexivity.
  - change (map NumND (a :: b :: ns)) with (NumND a :: NumND b :: map NumND ns) in H.
    rewrite nd_fold_cons in H. apply bind_Ok in H as (r&Hr&[= <-]).
    change (NumND b :: map NumND ns) with (map NumND (b :: ns)) in Hr.
    destruct (IH r) as [_ IHr]; [exact Hr|]. intros k.
    unfold bin_op. cbn [op_convert]. rewrite strip_bin_op_get, Hop by auto. rewrite IHr.
    set (z := strip _). change (removelast (a :: b :: ns)) with (a :: removelast (b :: ns)).
    change (last (a :: b :: ns) z) with (last (b :: ns) z). cbn [map fold_right].
    f_equal. f_equal. f_equal.
    clear. revert b. induction ns as [|c ns IH]; intros b; [reflexivity|]. apply (IH c).
Qed.

Lemma removelast_last_perm {A} (l : list A) d : l <> [] -> l = removelast l ++ [last l d].
Proof. apply app_removelast_last. Qed.

Lemma fold_right_greatest (xs : list (option Z)) z :
  is_greatest Z.le (xs ++ [z]) (fold_right opt_max z xs).
Proof.
  induction xs as [|x xs IH]; cbn [fold_right app].
  - destruct z as [m|]; cbn; [split; [auto|intros x [[= <-]|[]]; lia]|intros x [<-|[]]; auto].
  - set (r := fold_right _ z xs) in *. destruct x as [u|], r as [m|]; cbn in *.
    + destruct IH as [Hin Hle]. split.
      * destruct (Z.max_spec u m) as [[_ ->]|[_ ->]]; auto.
      * intros x [[= <-]|H]; [lia|]. specialize (Hle x H). lia.
    + split; auto. intros x [[= <-]|H]; [lia|]. specialize (IH _ H). discriminate.
    + destruct IH as [Hin Hle]. split; auto. intros x [H|H]; [discriminate|auto].
    + intros x [<-|H]; auto.
Qed.
Lemma fold_right_least (xs : list (option Z)) z :
  is_greatest Z.ge (xs ++ [z]) (fold_right opt_min z xs).
Proof.
  induction xs as [|x xs IH]; cbn [fold_right app].
  - destruct z as [m|]; cbn; [split; [auto|intros x [[= <-]|[]]; lia]|intros x [<-|[]]; auto].
  - set (r := fold_right _ z xs) in *. destruct x as [u|], r as [m|]; cbn in *.
    + destruct IH as [Hin Hle]. split.
      * destruct (Z.min_spec u m) as [[_ ->]|[_ ->]]; auto.
      * intros x [[= <-]|H]; [lia|]. specialize (Hle x H). lia.
    + split; auto. intros x [[= <-]|H]; [lia|]. specialize (IH _ H). discriminate.
    + destruct IH as [Hin Hle]. split; auto. intros x [H|H]; [discriminate|auto].
    + intros x [<-|H]; auto.
Qed.

Lemma nd_max_spec ns n : nd_max (map NumND ns) = Ok n ->
  forall k, is_greatest Z.le (map (fun m => at_key m k) ns) (at_key n k).
Proof.
  intros H k. apply nd_fold_get in H as [Hn H]; [|apply total_opt_max|apply bin_opt_max].
  rewrite at_key_get, H. rewrite (removelast_last_perm ns n Hn) at 1. rewrite map_app. cbn [map].
  rewrite (map_ext _ (fun m => nd_get m k)) by (intros; apply at_key_get). rewrite at_key_get.
  apply fold_right_greatest.
Qed.
Lemma nd_min_spec ns n : nd_min (map NumND ns) = Ok n ->
  forall k, is_greatest Z.ge (map (fun m => at_key m k) ns) (at_key n k).
Proof.
  intros H k. apply nd_fold_get in H as [Hn H]; [|apply total_opt_min|apply bin_opt_min].
  rewrite at_key_get, H. rewrite (removelast_last_perm ns n Hn) at 1. rewrite map_app. cbn [map].
  rewrite (map_ext _ (fun m => nd_get m k)) by (intros; apply at_key_get). rewrite at_key_get.
  apply fold_right_least.
Qed.
Lemma nd_fold_total op ns : ns <> [] -> exists n, nd_fold op ns = Ok n.
Proof.
  induction ns as [|a ns IH]; [congruence|]. intros _. destruct ns as [|b ns]; [eexists; reflexivity|].
  destruct IH as (r&Hr); [discriminate|]. destruct ns as [|c ns]; [eexists; reflexivity|].
  change (nd_fold op (a :: b :: c :: ns)) with (let* r := nd_fold op (b :: c :: ns) in Ok (strip (bin_op op None a (NumND r)))).
  rewrite Hr. eexists; reflexivity.
Qed.

(** any_compare *)
Lemma any_compare_spec cmp self other :
  dict_ok (nd_dict self) ->
  any_compare cmp self other = true <->
  (exists k v w, has_key self k /\ at_key self k = Some v /\ at_key other k = Some w /\ cmp v w = true) \/
  (exists v w, nd_value self = Some v /\ nd_value other = Some w /\ cmp v w = true).
Proof.
  intros Hok. unfold any_compare. rewrite orb_true_iff, existsb_exists.
  split.
  - intros [((k, v)&Hin&H)|H].
    + left. exists k, v. assert (Hd := In_dget _ _ _ Hok Hin).
      exists (match dget (nd_dict other) k with Some w => w | None => match nd_value other with Some w => w | None => 0%Z end end).
      rewrite !at_key_get. unfold nd_get. rewrite Hd. unfold has_key.
      destruct (dget (nd_dict other) k); [eauto 6|]. destruct (nd_value other); [eauto 6|discriminate].
    + right. destruct (nd_value self), (nd_value other); try discriminate. eauto.
  - intros [(k&v&w&(v'&Hin)&Hv&Hw&H)|(v&w&->&->&H)]; [left|right; auto].
    exists (k, v'). split; auto. assert (Hd := In_dget _ _ _ Hok Hin).
    rewrite at_key_get in Hv, Hw. unfold nd_get in Hv, Hw. rewrite Hd in Hv. injection Hv as ->.
    destruct (dget (nd_dict other) k); [congruence|]. rewrite Hw. auto.
Qed.

(** equality *)
Lemma nd_eq_spec a b :
  nd_eq a (NumND b) = true <->
  (forall k, has_key a k \/ has_key b k -> exists v, at_key a k = Some v /\ at_key b k = Some v) /\
  (forall v w, nd_value a = Some v -> nd_value b = Some w -> v = w).
Proof.
  unfold nd_eq, elem_eq, bin_op. cbn [op_convert].
  unfold nd_values. rewrite forallb_app, andb_true_iff. unfold bin_op_nd, dvals. cbn [nd_dict nd_value].
  rewrite map_map. cbn [snd]. rewrite forallb_forall. split.
  - intros [H1 H2]. split.
    + intros k Hk. rewrite !has_key_In in Hk. rewrite <- keys_union_In in Hk.
      specialize (H1 _ (in_map (fun k => bin_op_scalar_optional eq_op None (nd_get a k) (nd_get b k)) _ _ Hk)).
      cbn in H1. rewrite !at_key_get.
      destruct (nd_get a k) as [u|], (nd_get b k) as [v|]; cbn in H1; try discriminate.
      destruct (u =? v)%Z eqn:E; [|discriminate]. exists u. split; auto. f_equal. lia.
    + intros v w Hv Hw. rewrite Hv, Hw in H2. cbn in H2. destruct (v =? w)%Z eqn:E; [lia|discriminate].
  - intros [H1 H2]. split.
    + intros x Hx. apply in_map_iff in Hx as (k&<-&Hk). apply keys_union_In in Hk. rewrite <- !has_key_In in Hk.
      destruct (H1 k Hk) as (v&Ha&Hb). rewrite at_key_get in Ha, Hb. rewrite Ha, Hb. cbn. now rewrite Z.eqb_refl.
    + destruct (nd_value a) as [v|], (nd_value b) as [w|]; cbn; auto.
      rewrite (H2 v w); auto. rewrite Z.eqb_refl. reflexivity.
Qed.

(** copies and constants *)
Lemma nd_getitem_spec {V} (n : ndict V) k :
  nd_getitem n k = match at_key n k with Some v => Ok v | None => Err KeyError end.
Proof. rewrite at_key_get. unfold nd_getitem, nd_get. destruct (nd_value n), (dget (nd_dict n) k); reflexivity. Qed.

Lemma copy_like_spec {V U} (a : ndict V) (l : ndict U) :
  exists n, copy_like a l = Ok n /\
  (forall k, has_key n k <-> has_key l k /\ at_key a k <> None) /\
  (forall k, has_key n k -> at_key n k = at_key a k) /\
  nd_value n = match nd_value l with Some _ => nd_value a | None => None end.
Proof.
  assert (Hm : forall ks, (forall k, In k ks -> at_key a k <> None) ->
     exists items, mapM (fun k => let* x := nd_getitem a k in Ok (k, x)) ks = Ok items /\
       dkeys items = ks /\ (forall k, In k ks -> dget items k = at_key a k)).
  { induction ks as [|k ks IH]; intros Hk; [exists []; cbn; repeat split; tauto|].
    destruct IH as (items&Hi&Hks&Hg); [intros; apply Hk; now right|].
    cbn. rewrite nd_getitem_spec. destruct (at_key a k) as [v|] eqn:Hv; [|exfalso; apply (Hk k); [now left|auto]].
    cbn. rewrite Hi. cbn. eexists. split; [reflexivity|]. unfold dkeys in *. cbn. split; [now rewrite Hks|].
    intros k' Hk'. destruct (String.eqb k k') eqn:E; [apply String.eqb_eq in E; subst; auto|].
    destruct Hk' as [->|Hk']; [rewrite String.eqb_refl in E; discriminate|]. auto. }
  unfold copy_like. destruct (nd_value a) as [bv|] eqn:Hbv.
  - assert (Hall : forall k, at_key a k <> None).
    { intros k. rewrite at_key_get. unfold nd_get. rewrite Hbv. destruct (dget (nd_dict a) k); discriminate. }
    destruct (Hm (dkeys (nd_dict l))) as (items&Hi&Hks&Hg); [intros; apply Hall|].
    rewrite Hi. cbn. eexists. split; [reflexivity|]. cbn. repeat split.
    + apply has_key_In in H. apply has_key_In. unfold dkeys in *. cbn in H. now rewrite Hks in H.
    + apply Hall.
    + intros [H _]. apply has_key_In in H. apply has_key_In. unfold dkeys in *. cbn. now rewrite Hks.
    + intros k H. apply has_key_In in H. unfold dkeys in *. cbn in H. rewrite Hks in H. specialize (Hg k H).
      rewrite at_key_get. unfold nd_get. cbn. rewrite Hg. specialize (Hall k). now destruct (at_key a k).
  - assert (Hiff : forall k, at_key a k <> None <-> dhas (nd_dict a) k = true).
    { intros k. rewrite at_key_get. unfold nd_get, dhas. rewrite Hbv. destruct (dget (nd_dict a) k); split; congruence. }
    destruct (Hm (filter (fun k => dhas (nd_dict a) k) (dkeys (nd_dict l)))) as (items&Hi&Hks&Hg).
    { intros k Hk. apply filter_In in Hk. apply Hiff. tauto. }
    rewrite Hi. cbn. eexists. split; [reflexivity|]. cbn. repeat split.
    + apply has_key_In in H. apply has_key_In. unfold dkeys in *. cbn in H. rewrite Hks in H. apply filter_In in H. tauto.
    + apply has_key_In in H. unfold dkeys in *. cbn in H. rewrite Hks in H. apply filter_In in H. apply Hiff. tauto.
    + intros [H1 H2]. apply has_key_In in H1. apply has_key_In. unfold dkeys in *. cbn. rewrite Hks. apply filter_In. split; auto. now apply Hiff.
    + intros k H. apply has_key_In in H. unfold dkeys in *. cbn in H. rewrite Hks in H. assert (H' := H).
      apply filter_In in H' as [_ H']. apply Hiff in H'. specialize (Hg k H).
      rewrite at_key_get. unfold nd_get. cbn. rewrite Hg. now destruct (at_key a k).
    + now destruct (nd_value l).
Qed.

Lemma nd_neg_spec n k : at_key (nd_neg n) k = option_map Z.opp (at_key n k).
Proof.
  rewrite !at_key_get. unfold nd_get, nd_neg, unary_op. destruct n as [d v]. cbn.
  induction d as [|(a, w) d IH]; cbn; [reflexivity|]. destruct (String.eqb a k); [reflexivity|]. apply IH.
Qed.

Lemma fold_left_max vs v : (forall x, In x (v :: vs) -> x <= fold_left Z.max vs v)%Z /\ In (fold_left Z.max vs v) (v :: vs).
Proof.
  revert v; induction vs as [|u vs IH]; intros v; cbn [fold_left]; [cbn; split; [intros x [<-|[]]; lia|auto]|].
  destruct (IH (Z.max v u)) as [H1 H2]. split.
  - intros x Hx. assert (Hm := H1 (Z.max v u) (or_introl eq_refl)). destruct Hx as [<-|[<-|Hx]]; [lia|lia|]. apply H1. now right.
  - destruct H2 as [H2|H2]; [|now right; right].
    rewrite <- H2. destruct (Z.max_spec v u) as [[_ ->]|[_ ->]]; [right; now left|now left].
Qed.
Lemma fold_left_min vs v : (forall x, In x (v :: vs) -> fold_left Z.min vs v <= x)%Z /\ In (fold_left Z.min vs v) (v :: vs).
Proof.
  revert v; induction vs as [|u vs IH]; intros v; cbn [fold_left]; [cbn; split; [intros x [<-|[]]; lia|auto]|].
  destruct (IH (Z.min v u)) as [H1 H2]. split.
  - intros x Hx. assert (Hm := H1 (Z.min v u) (or_introl eq_refl)). destruct Hx as [<-|[<-|Hx]]; [lia|lia|]. apply H1. now right.
  - destruct H2 as [H2|H2]; [|now right; right].
    rewrite <- H2. destruct (Z.min_spec v u) as [[_ ->]|[_ ->]]; [now left|right; now left].
Qed.
Lemma values_In {V} (n : ndict V) x : In x (nd_values n) <-> (exists k, In (k, x) (nd_dict n)) \/ nd_value n = Some x.
Proof.
  unfold nd_values, dvals. rewrite in_app_iff, in_map_iff. apply Morphisms_Prop.or_iff_morphism.
  - split; [intros ((k, v)&<-&H); eauto|intros (k&H); now exists (k, x)].
  - destruct (nd_value n); cbn; split; [intros [->|[]]; auto|intros [= ->]; auto|tauto|discriminate].
Qed.
