From Coq Require Import List ZArith Ascii String Lia Bool.
From Verif Require Import Base ListLemmas ConfigModel ConfigSpec.
Import ListNotations.
Local Open Scope Z_scope.

Lemma teqb_eq a b : teqb a b = true <-> a = b.
Proof.
  revert b. induction a as [|x a IH]; intros [|y b]; cbn [teqb]; try (split; [discriminate|discriminate]).
  - split; reflexivity.
  - rewrite andb_true_iff, Ascii.eqb_eq, IH. split; [intros [-> ->]; reflexivity | intros H; injection H; auto].
Qed.

Lemma teqb_refl a : teqb a a = true.
Proof. apply teqb_eq. reflexivity. Qed.

Lemma teqb_neq a b : teqb a b = false <-> a <> b.
Proof.
  rewrite <- teqb_eq. destruct (teqb a b); split; intros; try discriminate; try reflexivity. exfalso; auto.
Qed.

Lemma lookup_update {A} n m (v : A) d :
  lookup n (update m v d) = if teqb n m then Some v else lookup n d.
Proof.
  induction d as [|[k w] d IH]; cbn [update lookup].
  - reflexivity.
  - destruct (teqb m k) eqn:E; cbn [lookup].
    + apply teqb_eq in E. subst k. destruct (teqb n m); reflexivity.
    + rewrite IH. destruct (teqb n k) eqn:E2; [|reflexivity].
      apply teqb_eq in E2. subst k.
      destruct (teqb n m) eqn:E3; [|reflexivity].
      apply teqb_eq in E3. subst. rewrite teqb_refl in E. discriminate.
Qed.

Lemma set_typed_setting c k v n :
  setting_of (set_typed c k v) n = if teqb n k then Some (Typed v) else setting_of c n.
Proof.
  unfold setting_of, set_typed. cbn [c_typed c_dict]. rewrite lookup_update.
  destruct (teqb n k); reflexivity.
Qed.

Lemma split_nonnil s : split_comma s <> [].
Proof.
  destruct s as [|c s]; cbn [split_comma]; [discriminate|].
  destruct (Ascii.eqb c comma); [discriminate|]. destruct (split_comma s); discriminate.
Qed.

Lemma join_cons sep p l : l <> [] -> join sep (p :: l) = p ++ sep ++ join sep l.
Proof. destruct l; [congruence|reflexivity]. Qed.

Lemma join_split s : join [comma] (split_comma s) = s.
Proof.
  induction s as [|c s IH]; [reflexivity|]. cbn [split_comma].
  destruct (Ascii.eqb c comma) eqn:E.
  - apply Ascii.eqb_eq in E. subst c. rewrite join_cons by apply split_nonnil. rewrite IH. reflexivity.
  - pose proof (split_nonnil s) as H. destruct (split_comma s) as [|p l]; [congruence|].
    rewrite <- IH. destruct l; reflexivity.
Qed.

Lemma join_parts s : join [comma] (if 0 <? find_from 0 s then split_comma s else [s]) = s.
Proof. destruct (0 <? find_from 0 s); [apply join_split|reflexivity]. Qed.

Lemma add_line_setting py load c k s c' n :
  k <> t_include \/ is_typed c k = true ->
  add_line py load c k s = Ok c' ->
  if teqb n k then exists st, interpret py (setting_of c k) s = Ok st /\ setting_of c' n = Some st
  else setting_of c' n = setting_of c n.
Proof.
  intros Hk H. unfold add_line in H. unfold is_typed in Hk. unfold setting_of at 1.
  destruct (lookup k (c_typed c)) as [v|] eqn:L.
  - destruct v as [| | | |x| |];
      [..| match type of H with Ok _ = _ => idtac | _ => idtac end];
      cbn [interpret];
      try (apply Ok_inj in H; subst c'; rewrite set_typed_setting; destruct (teqb n k); eauto; fail);
      destruct (py_eval py s) as [w| |e]; try discriminate; apply Ok_inj in H; subst c';
      rewrite set_typed_setting; destruct (teqb n k); eauto.
  - destruct Hk as [Hk|Hk]; [|discriminate]. apply teqb_neq in Hk. rewrite Hk in H.
    apply Ok_inj in H. subst c'.
    destruct (teqb n k) eqn:E.
    + apply teqb_eq in E. subst n. exists (Text s).
      split; [destruct (lookup k (c_dict c)); reflexivity|].
      unfold setting_of. cbn [c_typed c_dict]. rewrite L, lookup_update, teqb_refl. cbn [option_map].
      change [","%char] with [comma]. rewrite join_parts. reflexivity.
    + unfold setting_of. cbn [c_typed c_dict]. rewrite lookup_update, E. reflexivity.
Qed.

Lemma given_cons {A} k n (v : A) l : given k ((n, v) :: l) = if teqb k n then v :: given k l else given k l.
Proof.
  unfold given. cbn [filter fst]. destruct (list_eq_dec ascii_dec n k) as [E|E].
  - subst. rewrite teqb_refl. reflexivity.
  - destruct (teqb k n) eqn:E2; [apply teqb_eq in E2; congruence|reflexivity].
Qed.

Lemma add_lines_setting py load l c c' n :
  no_include l -> add_lines py load c l = Ok c' ->
  interpret_all py (setting_of c n) (given n l) = Ok (setting_of c' n).
Proof.
  revert c. induction l as [|[k s] l IH]; cbn [add_lines]; intros c Hn H.
  - apply Ok_inj in H. subst. reflexivity.
  - apply bind_Ok in H as (c1 & H1 & H).
    assert (Hk : k <> t_include) by (intros ->; apply Hn; left; reflexivity).
    assert (Hn' : no_include l) by (intros Hi; apply Hn; right; exact Hi).
    pose proof (add_line_setting py load c k s c1 n (or_introl Hk) H1) as E.
    rewrite given_cons. specialize (IH c1 Hn' H).
    destruct (teqb n k) eqn:Ek.
    + destruct E as (st & E1 & E2). apply teqb_eq in Ek. subst n. cbn [interpret_all].
      rewrite E1. cbn [bind]. rewrite <- E2. exact IH.
    + rewrite <- E. exact IH.
Qed.

Lemma last_given_cons {A} k n (v : A) l :
  last_given k ((n, v) :: l) =
    match last_given k l with Some w => Some w | None => if teqb k n then Some v else None end.
Proof.
  unfold last_given. rewrite given_cons. destruct (teqb k n).
  - cbn [rev]. destruct (rev (given k l)); reflexivity.
  - destruct (rev (given k l)); reflexivity.
Qed.

Lemma update_typed_setting l c n :
  setting_of (update_typed c l) n =
    match last_given n l with Some v => Some (Typed v) | None => setting_of c n end.
Proof.
  revert c. induction l as [|[k v] l IH]; intros c; [reflexivity|].
  change (update_typed c ((k, v) :: l)) with (update_typed (set_typed c k v) l).
  rewrite IH, last_given_cons, set_typed_setting.
  destruct (last_given n l); [reflexivity|]. destruct (teqb n k); reflexivity.
Qed.

Lemma interpret_all_app py prev l1 l2 :
  interpret_all py prev (l1 ++ l2) = (let* st := interpret_all py prev l1 in interpret_all py st l2).
Proof.
  revert prev. induction l1 as [|s l1 IH]; intros prev; [reflexivity|].
  cbn [app interpret_all]. destruct (interpret py prev s) as [st|e]; [|reflexivity]. cbn [bind]. apply IH.
Qed.

(* ---- one by one ---- *)

Fixpoint settle (py : python) (prev : option setting) (n : text) (l : list change) : res (option setting) :=
  match l with
  | [] => Ok prev
  | Set_ k v :: l => settle py (if teqb n k then Some (Typed v) else prev) n l
  | Line k s :: l =>
    if teqb n k then let* st := interpret py prev s in settle py (Some st) n l else settle py prev n l
  end.

Lemma apply_settle py l c c' n :
  (forall s, ~ In (Line t_include s) l) -> apply_changes py c l = Ok c' ->
  settle py (setting_of c n) n l = Ok (setting_of c' n).
Proof.
  revert c. induction l as [|x l IH]; cbn [apply_changes]; intros c Hn H.
  - apply Ok_inj in H. subst. reflexivity.
  - apply bind_Ok in H as (c1 & H1 & H).
    assert (Hn' : forall s, ~ In (Line t_include s) l) by (intros s Hi; apply (Hn s); right; exact Hi).
    specialize (IH c1 Hn' H). destruct x as [k v|k s]; cbn [apply_change settle] in *.
    + apply Ok_inj in H1. subst c1. rewrite set_typed_setting in IH. exact IH.
    + assert (Hk : k <> t_include) by (intros ->; apply (Hn s); left; reflexivity).
      pose proof (add_line_setting py _ c k s c1 n (or_introl Hk) H1) as E.
      destruct (teqb n k) eqn:Ek.
      * destruct E as (st & E1 & E2). apply teqb_eq in Ek. subst n. rewrite E1. cbn [bind]. rewrite <- E2. exact IH.
      * rewrite <- E. exact IH.
Qed.

Lemma settle_app py prev n l1 l2 :
  settle py prev n (l1 ++ l2) = (let* st := settle py prev n l1 in settle py st n l2).
Proof.
  revert prev. induction l1 as [|[k v|k s] l1 IH]; intros prev; [reflexivity| |]; cbn [app settle].
  - apply IH.
  - destruct (teqb n k); [|apply IH]. destruct (interpret py prev s) as [st|e]; [|reflexivity]. cbn [bind]. apply IH.
Qed.

Lemma settle_other py prev n l : ~ In n (map change_key l) -> settle py prev n l = Ok prev.
Proof.
  induction l as [|[k v|k s] l IH]; cbn [map change_key settle In]; intros H; [reflexivity| |];
    (destruct (teqb n k) eqn:E; [apply teqb_eq in E; subst; tauto|apply IH; tauto]).
Qed.

(* ---- the command line ---- *)

Lemma arg_pairs_ok l :
  Forall (fun p : text * text => ~ starts_plus_minus (snd p)) l -> arg_pairs (plus_args l) = Ok l.
Proof.
  induction 1 as [|[k v] l Hv _ IH]; [reflexivity|].
  unfold plus_args in *. cbn [flat_map app fst snd arg_pairs] in *.
  change (Ascii.eqb "+" plus && Ascii.eqb "+" plus) with true. cbv iota. rewrite IH. cbn [bind].
  f_equal. f_equal. f_equal. unfold escaped. destruct v as [|a v]; [reflexivity|].
  destruct (ascii_dec a "-") as [Ha|Ha].
  - subst a. reflexivity.
  - destruct v as [|b v]; [reflexivity|]. cbn [starts_plus_minus] in Hv.
    destruct (Ascii.eqb a plus && Ascii.eqb b minus) eqn:E; [|reflexivity].
    apply andb_true_iff in E as [E1 E2]. apply Ascii.eqb_eq in E1, E2. subst. exfalso. apply Hv. auto.
Qed.

Lemma split_args_app files args :
  Forall is_file_arg files -> match args with [] => True | a :: _ => is_option_arg a end ->
  split_args (files ++ args) = (files, args).
Proof.
  intros Hf Ha. induction Hf as [|f files Hf _ IH]; cbn [app split_args].
  - destruct args as [|a args]; [reflexivity|]. cbn [split_args]. destruct a as [|x a]; [reflexivity|].
    destruct Ha as [-> | ->]; reflexivity.
  - rewrite IH. destruct f as [|x f]; [destruct Hf|]. destruct Hf as [H1 H2].
    replace (Ascii.eqb x minus) with false by (symmetry; apply Ascii.eqb_neq; exact H1).
    replace (Ascii.eqb x plus) with false by (symmetry; apply Ascii.eqb_neq; exact H2). reflexivity.
Qed.

Lemma given_app {A} k (l1 l2 : list (text * A)) : given k (l1 ++ l2) = given k l1 ++ given k l2.
Proof. unfold given. rewrite filter_app, map_app. reflexivity. Qed.

Lemma load_all_app load c l1 l2 :
  load_all load c (l1 ++ l2) = (let* c := load_all load c l1 in load_all load c l2).
Proof.
  revert c. induction l1 as [|f l1 IH]; intros c; [reflexivity|]. cbn [app load_all].
  destruct (load c f) as [c1|e]; [|reflexivity]. cbn [bind]. apply IH.
Qed.

Lemma init_phases fuel py fs optparse fn files args default updates c l :
  Forall is_file_arg files -> command_line optparse args l -> no_include l ->
  init_config fuel py fs optparse fn (files ++ args) default updates = Ok c ->
  exists c0 c1,
    load_all (load_file fuel py fs) c0 (match fn with Some f => [f] | None => [] end ++ files) = Ok c1 /\
    (forall k, interpret_all py
       (match last_given k updates with
        | Some v => Some (Typed v)
        | None => option_map Typed (last_given k default)
        end) (given k l) = Ok (setting_of c0 k)) /\
    (forall k, interpret_all py
       (match last_given k updates with Some v => Some (Typed v) | None => setting_of c1 k end) (given k l)
       = Ok (setting_of c k)).
Proof.
  intros Hf Hc Hn. unfold init_config.
  assert (Ha : match args with [] => True | a :: _ => is_option_arg a end).
  { destruct Hc as [[-> _]|(a & r & opts & pairs & -> & H & _)]; auto. }
  rewrite split_args_app by assumption. cbv zeta.
  set (parse := fun c : config => match args with
     | [] => Ok c
     | _ => let* o := optparse args in parse_cmd_args py (load_file fuel py fs) o c
     end).
  assert (P : forall c c', parse c = Ok c' ->
     forall k, interpret_all py (setting_of c k) (given k l) = Ok (setting_of c' k)).
  { intros d d' H k. unfold parse in H.
    destruct Hc as [[-> ->]|(a & r & opts & pairs & -> & _ & -> & Hp & Ho)].
    - apply Ok_inj in H. subst. reflexivity.
    - rewrite Ho in H. cbn [bind] in H. unfold parse_cmd_args in H. cbn [o_opts o_config o_args] in H.
      apply bind_Ok in H as (d1 & H1 & H). apply bind_Ok in H as (d2 & H2 & H). apply Ok_inj in H2. subst d2.
      rewrite arg_pairs_ok in H by exact Hp. cbn [bind] in H.
      rewrite given_app, interpret_all_app.
      rewrite (add_lines_setting py (load_file fuel py fs) opts d d1 k).
      + cbn [bind]. apply (add_lines_setting py (load_file fuel py fs) pairs d1 d' k); auto.
        intros Hi. apply Hn. unfold no_include in *. rewrite map_app. apply in_or_app. auto.
      + intros Hi. apply Hn. rewrite map_app. apply in_or_app. auto.
      + exact H1. }
  intros H. apply bind_Ok in H as (c0 & H0 & H). apply bind_Ok in H as (c1 & H1 & H).
  apply bind_Ok in H as (c2 & H2 & H).
  exists c0, c2. split; [|split].
  - rewrite load_all_app, H1. exact H2.
  - intros k. rewrite <- (P _ _ H0 k). f_equal. rewrite !update_typed_setting.
    destruct (last_given k updates); [reflexivity|]. destruct (last_given k default); reflexivity.
  - intros k. rewrite <- (P _ _ H k). f_equal. rewrite update_typed_setting. reflexivity.
Qed.

Lemma interpret_last py prev l s st :
  interpret_all py prev (l ++ [s]) = Ok st ->
  st = Some (Text s) \/ st = Some (Typed (VStr s)) \/ exists v, py_eval py s = EvOk v /\ st = Some (Typed v).
Proof.
  rewrite interpret_all_app. intros H. apply bind_Ok in H as (p & _ & H). cbn [interpret_all] in H.
  apply bind_Ok in H as (x & Hx & H). apply Ok_inj in H. subst st. unfold interpret in Hx.
  destruct p as [[v|u]|].
  - destruct v; try (apply Ok_inj in Hx; subst; auto; fail);
      (destruct (py_eval py s) as [w| |e] eqn:E; [|apply Ok_inj in Hx; subst; auto|discriminate]);
      apply Ok_inj in Hx; subst; eauto 6.
  - apply Ok_inj in Hx. subst. auto.
  - apply Ok_inj in Hx. subst. auto.
Qed.

Lemma given_last_split {A} k (l : list (text * A)) s : last_given k l = Some s -> exists p, given k l = p ++ [s].
Proof.
  unfold last_given. intros H. destruct (rev (given k l)) as [|v r] eqn:E; [discriminate|].
  injection H as ->. exists (rev r). rewrite <- (rev_involutive (given k l)), E. reflexivity.
Qed.

Lemma given_none {A} k (l : list (text * A)) : last_given k l = None -> given k l = [].
Proof.
  unfold last_given. intros H. destruct (rev (given k l)) as [|v r] eqn:E; [|discriminate].
  rewrite <- (rev_involutive (given k l)), E. reflexivity.
Qed.

Lemma load_code fuel py fs c f c' sets :
  load_file fuel py fs c f = Ok c' -> fs f = Some (Code sets) ->
  exists l, sets c = Ok l /\ c' = update_typed c l.
Proof.
  intros H E. destruct fuel as [|fuel]; [discriminate|]. cbn [load_file] in H. rewrite E in H.
  apply bind_Ok in H as (l & Hl & H). apply Ok_inj in H. eauto.
Qed.

Lemma load_codes_frame fuel py fs c l c' k :
  load_all (load_file fuel py fs) c l = Ok c' ->
  (forall f, In f l -> exists sets, fs f = Some (Code sets) /\ forall d u, sets d = Ok u -> last_given k u = None) ->
  setting_of c' k = setting_of c k.
Proof.
  revert c. induction l as [|f l IH]; cbn [load_all]; intros c H Hs.
  - apply Ok_inj in H. subst. reflexivity.
  - apply bind_Ok in H as (c1 & H1 & H). rewrite (IH c1 H) by (intros g Hg; apply Hs; right; exact Hg).
    destruct (Hs f (or_introl eq_refl)) as (sets & E & Hsets).
    destruct (load_code _ _ _ _ _ _ _ H1 E) as (u & Hu & ->). rewrite update_typed_setting, (Hsets _ _ Hu). reflexivity.
Qed.

(* ---- text files ---- *)

Lemma visible_not_space c : visible c -> is_space c = false /\ is_newline c = false /\ Ascii.eqb c hash = false.
Proof.
  intros [H1 H2]. unfold is_space, is_newline. set (n := nat_of_ascii c) in *.
  assert (E : Ascii.eqb c hash = false) by (apply Ascii.eqb_neq; exact H2).
  split; [|split; [|exact E]].
  - repeat (apply orb_false_iff; split); try apply andb_false_iff;
      rewrite ?Nat.leb_gt, ?Nat.eqb_neq; lia.
  - repeat (apply orb_false_iff; split); try apply andb_false_iff;
      rewrite ?Nat.leb_gt, ?Nat.eqb_neq; lia.
Qed.

Lemma in_line_not_newline c : in_line c -> is_newline c = false.
Proof.
  intros H. unfold is_newline, in_line in *. set (n := nat_of_ascii c) in *.
  repeat (apply orb_false_iff; split); try apply andb_false_iff;
    rewrite ?Nat.leb_gt, ?Nat.eqb_neq; lia.
Qed.

Lemma splitlines_app a s : Forall (fun c => is_newline c = false) a ->
  splitlines (a ++ "010"%char :: s) = a :: splitlines s.
Proof.
  induction 1 as [|c a Hc _ IH].
  - cbn [app splitlines]. change (is_newline "010") with true. reflexivity.
  - cbn [app splitlines]. rewrite Hc, IH. reflexivity.
Qed.

Lemma splitlines_one a : Forall (fun c => is_newline c = false) a -> a <> [] -> splitlines a = [a].
Proof.
  induction 1 as [|c a Hc Ha IH]; [congruence|]. intros _. cbn [splitlines]. rewrite Hc.
  destruct a as [|d a]; [reflexivity|]. rewrite IH by discriminate. reflexivity.
Qed.

Definition parsed (s : text) : res (list (text * text)) :=
  let* l := mapM parse_line (splitlines s) in
  Ok (flat_map (fun o => match o with Some p => [p] | None => [] end) l).

Lemma lstrip_space c s : is_space c = true -> lstrip (c :: s) = lstrip s.
Proof. intros H. cbn [lstrip]. rewrite H. reflexivity. Qed.

Lemma lstrip_snoc s c : is_space c = true -> lstrip (s ++ [c]) = lstrip s ++ [c] \/ (lstrip (s ++ [c]) = [] /\ lstrip s = []).
Proof.
  intros H. induction s as [|x s IH]; cbn [app lstrip].
  - rewrite H. auto.
  - destruct (is_space x); [exact IH|]. left. reflexivity.
Qed.

Lemma strip_front c s : is_space c = true -> strip (c :: s) = strip s.
Proof. intros H. unfold strip. rewrite lstrip_space by exact H. reflexivity. Qed.

Lemma strip_back s c : is_space c = true -> strip (s ++ [c]) = strip s.
Proof.
  intros H. unfold strip. destruct (lstrip_snoc s c H) as [E|[E1 E2]].
  - rewrite E, rev_app_distr. cbn [rev app]. rewrite lstrip_space by exact H. reflexivity.
  - rewrite E1, E2. reflexivity.
Qed.

Lemma space_not_hash c : is_space c = true -> Ascii.eqb c hash = false.
Proof. intros H. apply Ascii.eqb_neq. intros ->. discriminate. Qed.

Lemma newline_space c : is_newline c = true -> is_space c = true.
Proof.
  unfold is_newline, is_space. set (n := nat_of_ascii c). intros H.
  apply orb_true_iff in H as [H|H]; [apply orb_true_iff in H as [H|H]|].
  - apply andb_true_iff in H as [H1 H2]. apply Nat.leb_le in H1, H2.
    replace (9 <=? n)%nat with true by (symmetry; apply Nat.leb_le; lia).
    replace (n <=? 13)%nat with true by (symmetry; apply Nat.leb_le; lia). reflexivity.
  - apply andb_true_iff in H as [H1 H2]. apply Nat.leb_le in H1, H2.
    replace (28 <=? n)%nat with true by (symmetry; apply Nat.leb_le; lia).
    replace (n <=? 32)%nat with true by (symmetry; apply Nat.leb_le; lia).
    rewrite andb_true_r, orb_true_r. reflexivity.
  - rewrite H, orb_true_r. reflexivity.
Qed.

Lemma parse_line_front c l : is_space c = true -> parse_line (c :: l) = parse_line l.
Proof.
  intros H. unfold parse_line. cbn [before_hash]. rewrite (space_not_hash c H), strip_front by exact H. reflexivity.
Qed.

Lemma before_hash_snoc l c : Ascii.eqb c hash = false ->
  before_hash (l ++ [c]) = before_hash l ++ [c] \/ before_hash (l ++ [c]) = before_hash l.
Proof.
  intros H. induction l as [|x l IH]; cbn [app before_hash].
  - rewrite H. auto.
  - destruct (Ascii.eqb x hash); [auto|]. destruct IH as [-> | ->]; auto.
Qed.

Lemma parse_line_back c l : is_space c = true -> parse_line (l ++ [c]) = parse_line l.
Proof.
  intros H. unfold parse_line. destruct (before_hash_snoc l c (space_not_hash c H)) as [-> | ->]; [|reflexivity].
  rewrite strip_back by exact H. reflexivity.
Qed.

Lemma parse_line_nil : parse_line [] = Ok None.
Proof. reflexivity. Qed.

Lemma parsed_front c s : is_space c = true -> parsed (c :: s) = parsed s.
Proof.
  intros H. unfold parsed. cbn [splitlines]. destruct (is_newline c).
  - cbn [mapM]. rewrite parse_line_nil. cbn [bind].
    destruct (mapM parse_line (splitlines s)); reflexivity.
  - destruct (splitlines s) as [|p l].
    + cbn [mapM]. rewrite (parse_line_front c []) by exact H. rewrite parse_line_nil. reflexivity.
    + cbn [mapM]. rewrite parse_line_front by exact H. reflexivity.
Qed.

(* the end of the last line *)
Lemma splitlines_snoc s c : is_space c = true ->
  splitlines (s ++ [c]) = splitlines s \/ splitlines (s ++ [c]) = splitlines s ++ [[]] \/
  splitlines (s ++ [c]) = splitlines s ++ [[c]] \/
  exists l p, splitlines s = l ++ [p] /\ splitlines (s ++ [c]) = l ++ [p ++ [c]].
Proof.
  intros H. induction s as [|x s IH]; cbn [app splitlines].
  - destruct (is_newline c); auto.
  - destruct (is_newline x).
    + destruct IH as [-> |[-> |[-> |(l & p & -> & ->)]]]; auto.
      right. right. right. exists ([] :: l), p. auto.
    + destruct (splitlines s) as [|q l] eqn:E.
      * destruct IH as [-> |[-> |[-> |(l & p & E1 & _)]]].
        -- left. reflexivity.
        -- left. reflexivity.
        -- right. right. right. exists [], [x]. auto.
        -- destruct l; discriminate.
      * destruct IH as [-> |[-> |[-> |(l' & p & E1 & ->)]]]; auto.
        right. right. right. destruct l' as [|q' l'].
        -- injection E1 as -> ->. exists [], (x :: p). auto.
        -- injection E1 as -> ->. exists ((x :: q') :: l'), p. auto.
Qed.

Lemma mapM_app {A B} (f : A -> res B) l1 l2 :
  mapM f (l1 ++ l2) = (let* a := mapM f l1 in let* b := mapM f l2 in Ok (a ++ b)).
Proof.
  induction l1 as [|x l1 IH]; cbn [app mapM].
  - cbn [bind]. destruct (mapM f l2); reflexivity.
  - destruct (f x) as [y|e]; [|reflexivity]. cbn [bind]. rewrite IH.
    destruct (mapM f l1) as [a|e]; [|reflexivity]. cbn [bind].
    destruct (mapM f l2); reflexivity.
Qed.

Lemma parsed_back c s : is_space c = true -> parsed (s ++ [c]) = parsed s.
Proof.
  intros H. unfold parsed.
  destruct (splitlines_snoc s c H) as [-> |[-> |[-> |(l & p & -> & ->)]]].
  - reflexivity.
  - rewrite mapM_app. destruct (mapM parse_line (splitlines s)) as [a|e]; [|reflexivity]. cbn [bind mapM].
    rewrite parse_line_nil. cbn [bind]. rewrite flat_map_app. cbn [flat_map]. rewrite app_nil_r. reflexivity.
  - rewrite mapM_app. destruct (mapM parse_line (splitlines s)) as [a|e]; [|reflexivity]. cbn [bind mapM].
    rewrite (parse_line_front c [] H), parse_line_nil. cbn [bind]. rewrite flat_map_app. cbn [flat_map].
    rewrite app_nil_r. reflexivity.
  - rewrite !mapM_app. cbn [mapM]. rewrite parse_line_back by exact H. reflexivity.
Qed.

Lemma parsed_lstrip s : parsed (lstrip s) = parsed s.
Proof.
  induction s as [|c s IH]; [reflexivity|]. cbn [lstrip]. destruct (is_space c) eqn:E; [|reflexivity].
  rewrite IH, parsed_front by exact E. reflexivity.
Qed.

Lemma parsed_rstrip s : parsed (rev (lstrip (rev s))) = parsed s.
Proof.
  induction s as [|c s IH] using rev_ind; [reflexivity|]. rewrite rev_app_distr. cbn [rev app lstrip].
  destruct (is_space c) eqn:E.
  - rewrite IH, parsed_back by exact E. reflexivity.
  - cbn [rev]. rewrite rev_involutive. reflexivity.
Qed.

Lemma parsed_strip s : parse_text s = parsed s.
Proof. unfold parse_text. change (parsed (strip s) = parsed s). unfold strip. rewrite parsed_rstrip. apply parsed_lstrip. Qed.

Lemma blank_facts s : blank s ->
  Forall (fun c => is_space c = true) s /\ Forall (fun c => is_newline c = false) s /\
  Forall (fun c => Ascii.eqb c hash = false) s.
Proof.
  intros H. repeat split; (eapply Forall_impl; [|exact H]); intros c [-> | ->]; reflexivity.
Qed.

Lemma before_hash_app a b : Forall (fun c => Ascii.eqb c hash = false) a -> before_hash (a ++ b) = a ++ before_hash b.
Proof. induction 1 as [|c a Hc _ IH]; [reflexivity|]. cbn [app before_hash]. rewrite Hc, IH. reflexivity. Qed.

Lemma before_hash_comment o : before_hash (comment_text o) = [].
Proof. destruct o; reflexivity. Qed.

Lemma strip_blank_front a s : Forall (fun c => is_space c = true) a -> strip (a ++ s) = strip s.
Proof. induction 1 as [|c a Hc _ IH]; [reflexivity|]. cbn [app]. rewrite strip_front by exact Hc. exact IH. Qed.

Lemma strip_blank_back a s : Forall (fun c => is_space c = true) a -> strip (s ++ a) = strip s.
Proof.
  revert s. induction a as [|c a IH]; intros s H; [rewrite app_nil_r; reflexivity|].
  inversion H; subst. change (c :: a) with ([c] ++ a). rewrite app_assoc, IH by assumption.
  apply strip_back. assumption.
Qed.

Lemma strip_id a b c s : s = a :: c -> s = b ++ [last s a] -> is_space a = false -> is_space (last s a) = false -> strip s = s.
Proof.
  intros H1 H2 H3 H4. unfold strip. rewrite H1 at 1. cbn [lstrip]. rewrite H3. rewrite <- H1.
  rewrite H2 at 1. rewrite rev_app_distr. cbn [rev app lstrip]. rewrite H4. cbn [rev].
  rewrite rev_involutive. symmetry. exact H2.
Qed.

Lemma word_app k gap v a b :
  Forall visible k -> Forall (fun c => is_space c = true) gap -> gap <> [] -> v = a :: b -> is_space a = false ->
  word (k ++ gap ++ v) = (k, v).
Proof.
  intros Hk Hg Hn Hv Ha. induction Hk as [|c k Hc _ IH].
  - cbn [app]. destruct gap as [|g gap]; [congruence|]. inversion Hg as [|? ? Hg1 Hg2]; subst. cbn [app word].
    rewrite Hg1. f_equal. rewrite lstrip_space by exact Hg1. clear -Hg2 Ha.
    induction Hg2 as [|x l Hx _ IH]; cbn [app lstrip]; [rewrite Ha; reflexivity|rewrite Hx; exact IH].
  - cbn [app word]. destruct (visible_not_space c Hc) as [-> _]. rewrite IH. reflexivity.
Qed.

Lemma parse_setting pad k gap v tail comment :
  line_ok (Setting pad k gap v tail comment) ->
  parse_line (pad ++ k ++ gap ++ v ++ tail ++ comment_text comment) = Ok (Some (k, v)).
Proof.
  intros (H1 & H2 & H3 & H4 & H5 & H6 & (a & b & Hv1 & Ha) & (z & y & Hv2 & Hz) & H7 & _).
  apply blank_facts in H1 as (S1 & _ & N1). apply blank_facts in H2 as (S2 & _ & N2).
  apply blank_facts in H4 as (S4 & _ & N4).
  assert (Nk : Forall (fun c => Ascii.eqb c hash = false) k)
    by (eapply Forall_impl; [|exact H6]; intros c Hc; apply (visible_not_space c Hc)).
  assert (Nv : Forall (fun c => Ascii.eqb c hash = false) v)
    by (eapply Forall_impl; [|exact H7]; intros c [Hc| ->]; [apply (visible_not_space c Hc)|reflexivity]).
  unfold parse_line. rewrite !before_hash_app by assumption. rewrite before_hash_comment, app_nil_r.
  rewrite strip_blank_front by exact S1. rewrite !app_assoc. rewrite strip_blank_back by exact S4.
  destruct k as [|k0 k]; [congruence|].
  assert (Hk0 : visible k0) by (inversion H6; assumption).
  assert (E : strip (((k0 :: k) ++ gap) ++ v) = ((k0 :: k) ++ gap) ++ v).
  { assert (L : last (((k0 :: k) ++ gap) ++ v) k0 = z) by (rewrite Hv2, app_assoc, last_last; reflexivity).
    apply (strip_id k0 (((k0 :: k) ++ gap) ++ y) ((k ++ gap) ++ v)).
    - reflexivity.
    - rewrite L, Hv2, !app_assoc. reflexivity.
    - apply (visible_not_space k0 Hk0).
    - rewrite L. apply (visible_not_space z Hz). }
  rewrite E. rewrite <- app_assoc. rewrite (word_app (k0 :: k) gap v a b); auto.
  - rewrite Hv1. reflexivity.
  - apply (visible_not_space a Ha).
Qed.

Lemma parse_blank pad comment : blank pad -> parse_line (pad ++ comment_text comment) = Ok None.
Proof.
  intros H. apply blank_facts in H as (S1 & _ & N1). unfold parse_line.
  rewrite before_hash_app by exact N1. rewrite before_hash_comment.
  rewrite strip_blank_front by exact S1. reflexivity.
Qed.

Lemma comment_no_newline o : (forall x, o = Some x -> Forall in_line x) ->
  Forall (fun c => is_newline c = false) (comment_text o).
Proof.
  intros H. destruct o as [x|]; [|constructor]. constructor; [reflexivity|].
  eapply Forall_impl; [|exact (H x eq_refl)]. intros c. apply in_line_not_newline.
Qed.

Lemma line_no_newline l : line_ok l ->
  exists s, line_text l = s ++ ["010"%char] /\ Forall (fun c => is_newline c = false) s /\
    parse_line s = Ok (match l with Setting _ k _ v _ _ => Some (k, v) | Blank _ _ => None end).
Proof.
  intros H. destruct l as [pad k gap v tail comment|pad comment]; eexists; (split; [reflexivity|]).
  - pose proof (parse_setting _ _ _ _ _ _ H) as P.
    destruct H as (H1 & H2 & H3 & H4 & H5 & H6 & _ & _ & H7 & H8). split; [|exact P].
    apply blank_facts in H1 as (_ & N1 & _). apply blank_facts in H2 as (_ & N2 & _).
    apply blank_facts in H4 as (_ & N4 & _).
    repeat (apply Forall_app; split); auto.
    + eapply Forall_impl; [|exact H6]; intros c Hc; apply (visible_not_space c Hc).
    + eapply Forall_impl; [|exact H7]; intros c [Hc| ->]; [apply (visible_not_space c Hc)|reflexivity].
    + apply comment_no_newline. exact H8.
  - destruct H as [H1 H2]. split; [|apply parse_blank; exact H1].
    apply blank_facts in H1 as (_ & N1 & _). apply Forall_app. split; [exact N1|]. apply comment_no_newline. exact H2.
Qed.

Lemma text_file_ok l : Forall line_ok l -> parse_text (flat_map line_text l) = Ok (settings l).
Proof.
  intros H. rewrite parsed_strip. unfold parsed. induction H as [|x l Hx _ IH]; [reflexivity|].
  destruct (line_no_newline x Hx) as (s & E & Hn & Hp). cbn [flat_map settings]. rewrite E, <- app_assoc.
  cbn [app]. rewrite splitlines_app by exact Hn. cbn [mapM]. rewrite Hp. cbn [bind].
  apply bind_Ok in IH as (r & Hr & IH). apply Ok_inj in IH. rewrite Hr. cbn [bind flat_map].
  rewrite IH. destruct x; reflexivity.
Qed.
