From Coq Require Import String Ascii.
From Verif Require Import Base ListLemmas PyDict BuildModel BuildSpec.
Local Open Scope nat_scope. Local Open Scope list_scope.

Lemma rsplit_no_dot n : no_dot n -> rsplit1 n = None.
Proof. induction n as [|c n IH]; cbn; [reflexivity|]. intros [H1 H2]. rewrite (IH H2). destruct (Ascii.eqb c ".") eqn:E; [apply Ascii.eqb_eq in E; contradiction|reflexivity]. Qed.
Lemma rsplit_app m n : no_dot n -> rsplit1 (m ++ "." ++ n) = Some (m, n).
Proof. intros H. induction m as [|c m IH]; [cbn; now rewrite (rsplit_no_dot n H)|]. change ((String c m ++ "." ++ n)%string) with (String c (m ++ "." ++ n)%string). cbn [rsplit1]. now rewrite IH. Qed.
Lemma get_cls_of_name w o : accessible w o -> get_cls w (get_cls_name w o) = Ok o.
Proof.
  intros [Hn H]. unfold get_cls_name. assert (Hrf : dget (w_rf w) (o_name (w_obj w o)) = Some o -> get_cls w ("rf." ++ o_name (w_obj w o)) = Ok o).
  { intros E. unfold get_cls. change ("rf." ++ o_name (w_obj w o))%string with ("rf" ++ "." ++ o_name (w_obj w o))%string. rewrite (rsplit_app _ _ Hn). cbn [String.eqb Ascii.eqb Bool.eqb]. unfold getattr. now rewrite E. }
  destruct H as [E|(Hm & attrs & E1 & E2)]; [rewrite E, Nat.eqb_refl; auto|].
  assert (Hmod : get_cls w (o_module (w_obj w o) ++ "." ++ o_name (w_obj w o)) = Ok o).
  { unfold get_cls. rewrite (rsplit_app _ _ Hn). apply String.eqb_neq in Hm. rewrite Hm, E1. unfold getattr. now rewrite E2. }
  destruct (dget (w_rf w) (o_name (w_obj w o))) as [o'|] eqn:E; [|exact Hmod]. destruct (o' =? o) eqn:Eo; [apply Nat.eqb_eq in Eo; subst o'; auto|exact Hmod].
Qed.
Section B.
  Context {V : Type}.
  Implicit Types kw : @dict string (@arg V).
  Lemma dset_new kw k v : ~ In k (dkeys kw) -> dset kw k v = kw ++ [(k, v)].
  Proof. induction kw as [|[a b] kw IH]; cbn; [reflexivity|]. intros H. destruct (String.eqb a k) eqn:E; [apply String.eqb_eq in E; tauto|]. f_equal. tauto. Qed.
  Lemma fold_new kw d : NoDup (dkeys d ++ dkeys kw) -> fold_left (fun d x => dset d (fst x) (snd x)) kw d = d ++ kw.
  Proof.
    revert d. induction kw as [|[k v] kw IH]; intros d H; cbn; [now rewrite app_nil_r|]. cbn in H. rewrite dset_new; [|intros Hi; apply NoDup_remove_2 in H; apply H, in_app_iff; now left].
    rewrite IH; [now rewrite <- app_assoc|]. unfold dkeys in *. rewrite map_app, <- app_assoc. exact H.
  Qed.
  Lemma build_dict_eq w o kw : buildable w o -> named_args kw -> build_dict w o kw = Ok (("class"%string, Str (get_cls_name w o)) :: kw).
  Proof. intros Hb [Hn Hc]. unfold build_dict. rewrite fold_new; [|cbn; constructor; assumption]. unfold buildable in Hb. destruct (o_kind (w_obj w o)); [reflexivity|reflexivity|congruence]. Qed.
  Lemma merge_ok kw kw' : (forall k, In k (dkeys kw) -> ~ In k (dkeys kw')) -> merge kw kw' = Ok (kw ++ kw').
  Proof.
    intros H. unfold merge. destruct (existsb _ (dkeys kw')) eqn:E; [|reflexivity]. apply existsb_exists in E. destruct E as (k & H1 & H2). apply dhas_keys in H2. destruct (H k H2 H1).
  Qed.
  Lemma merge_err kw kw' k : In k (dkeys kw) -> In k (dkeys kw') -> merge kw kw' = Err TypeError.
  Proof. intros H1 H2. unfold merge. replace (existsb _ _) with true; [reflexivity|]. symmetry. apply existsb_exists. exists k. split; [exact H2|now apply dhas_keys]. Qed.
  Lemma build_at w c o kw args kw' : get_cls w c = Ok o ->
    build_from_dict w (("class"%string, Str c) :: kw) args kw' =
    match o_kind (w_obj w o) with
    | KFunction => match args, kw', kw with [], [], [] => Ok (Function o) | _, _, _ => let* k := merge kw kw' in Ok (Partial o args k) end
    | KOther => Err ValueError
    | KClass => let* k := merge kw kw' in Ok (New o args k)
    end.
  Proof. intros E. unfold build_from_dict. cbn. rewrite E. reflexivity. Qed.
End B.
