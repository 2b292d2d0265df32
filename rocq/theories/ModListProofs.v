(** Proofs for ModuleList and ParameterList. *)
From Coq Require Import String Ascii.
From Coq Require Import Decimal DecimalString.
From Verif Require Import Base PyDict ListLemmas ModTreeModel ModListModel ModListSpec.
From Verif Require DimModel DimNameProofs.
Local Open Scope nat_scope.

(** ** Numbers as strings *)
Lemma str_inj a b : str a = str b -> a = b.
Proof. exact (DimNameProofs.int_str_inj [] (fun _ => 0%Z) a b). Qed.
Lemma uint_digits d : Forall (fun c => is_digit c = true) (list_ascii_of_string (NilEmpty.string_of_uint d)).
Proof. induction d; cbn; try constructor; try easy. Qed.
Lemma digits_all l : Forall (fun c => is_digit c = true) l -> forall b, l <> [] \/ b = true -> digits l b = true.
Proof.
  induction 1 as [|c l Hc _ IH]; intros b Hb; cbn; [now destruct Hb|]. rewrite Hc. apply IH. now right.
Qed.
Lemma digit_facts c : is_digit c = true -> is_space c = false /\ Ascii.eqb c "+" = false /\ Ascii.eqb c "-" = false.
Proof.
  unfold is_digit, is_space. intros H. repeat split.
  - destruct (nat_of_ascii c) eqn:E; lia.
  - apply Ascii.eqb_neq. intros ->. discriminate.
  - apply Ascii.eqb_neq. intros ->. discriminate.
Qed.
Lemma lstrip_digits l : Forall (fun c => is_digit c = true) l -> lstrip l = l.
Proof. destruct 1 as [|c l Hc _]; [reflexivity|]. cbn. now rewrite (proj1 (digit_facts c Hc)). Qed.
Lemma str_is_int n : is_int_str (str (Z.of_nat n)) = true.
Proof.
  unfold str, DimModel.int_str. assert (Hd : exists d, Z.to_int (Z.of_nat n) = Decimal.Pos d) by (destruct n; cbn; eauto). destruct Hd as (d & ->).
  cbn [NilZero.string_of_int]. unfold is_int_str.
  assert (H : exists c l, list_ascii_of_string (NilZero.string_of_uint d) = c :: l /\ Forall (fun c => is_digit c = true) (c :: l)).
  { pose proof (uint_digits d) as H. unfold NilZero.string_of_uint. destruct d; cbn in *; try (do 2 eexists; split; [reflexivity|]; exact H).
    do 2 eexists. split; [reflexivity|]. repeat constructor. }
  destruct H as (c & l & -> & H). unfold strip. rewrite (lstrip_digits (c :: l)) by easy. rewrite lstrip_digits by now apply Forall_rev. rewrite rev_involutive.
  inversion H as [|? ? Hc Hl]; subst. destruct (digit_facts c Hc) as (_ & -> & ->). cbn [orb]. apply digits_all; [easy|]. left. discriminate.
Qed.

(** ** Rendered lists *)
Notation W k r := (map (fun kx : string * nat => (fst kx, wrap k (snd kx))) r).
Lemma render_length l : forall i, length (render_from i l) = length l.
Proof. induction l as [|(o, x) l IH]; intros i; cbn; [easy|]. now rewrite IH. Qed.
Lemma render_app a b : forall i, render_from i (a ++ b) = render_from i a ++ render_from (i + length a) b.
Proof.
  induction a as [|(o, x) a IH]; intros i; cbn; [now rewrite Nat.add_0_r|]. rewrite IH. cbn. now rewrite Nat.add_succ_r.
Qed.
Lemma render_snd l : forall i, map snd (render_from i l) = map snd l.
Proof. induction l as [|(o, x) l IH]; intros i; cbn; [easy|]. now rewrite IH. Qed.
Lemma render_firstn n l : forall i, firstn n (render_from i l) = render_from i (firstn n l).
Proof. revert l. induction n as [|n IH]; intros [|(o, x) l] i; cbn; try easy. now rewrite IH. Qed.
Lemma render_skipn n l : forall i, skipn n (render_from i l) = render_from (i + n) (skipn n l).
Proof. revert l. induction n as [|n IH]; intros [|(o, x) l] i; cbn; rewrite ?Nat.add_0_r; try easy. rewrite IH. f_equal. lia. Qed.
Lemma render_keys l : forall i k, In k (map fst (render_from i l)) -> In k (names l) \/ exists j, i <= j /\ k = str (Z.of_nat j).
Proof.
  induction l as [|(o, x) l IH]; intros i k; cbn; [easy|]. intros [<-|H].
  - destruct o as [n|]; [left; now left|]. right. now exists i.
  - destruct (IH _ _ H) as [H'|(j & Hj & ->)]; [left; apply in_app_iff; now right|]. right. exists j. split; [lia|easy].
Qed.
Definition good (l : list entry) : Prop := NoDup (names l) /\ Forall is_name (names l).
Lemma names_app a b : names (a ++ b) = names a ++ names b.
Proof. unfold names. now rewrite flat_map_app. Qed.
Lemma good_app_l a b : good (a ++ b) -> good a.
Proof. intros (H1 & H2). rewrite names_app in *. split; [now apply NoDup_app_l in H1|now apply Forall_app in H2]. Qed.
Lemma good_app_r a b : good (a ++ b) -> good b.
Proof. intros (H1 & H2). rewrite names_app in *. split; [now apply NoDup_app_r in H1|now apply Forall_app in H2]. Qed.
Lemma names_numbered l : names (numbered l) = [].
Proof. induction l; cbn; easy. Qed.
Lemma good_numbered l : good (numbered l).
Proof. unfold good. rewrite names_numbered. split; constructor. Qed.
Lemma render_nodup l : forall i, good l -> NoDup (map fst (render_from i l)).
Proof.
  induction l as [|(o, x) l IH]; intros i Hg; cbn; [constructor|]. pose proof (good_app_r [(o, x)] l Hg) as Hg'. constructor; [|now apply IH].
  intros Hin. apply render_keys in Hin. destruct Hg as (H1 & H2). destruct o as [n|]; cbn in *.
  - inversion H1 as [|? ? H3 _]; subst. inversion H2 as [|? ? H4 _]; subst. destruct Hin as [Hin|(j & _ & E)]; [easy|].
    unfold is_name in H4. rewrite E, str_is_int in H4. discriminate.
  - destruct Hin as [Hin|(j & Hj & E)].
    + rewrite Forall_forall in H2. specialize (H2 _ Hin). unfold is_name in H2. rewrite str_is_int in H2. discriminate.
    + apply str_inj in E. lia.
Qed.
Lemma W_keys k r : map fst (W k r) = map fst r.
Proof. rewrite map_map. reflexivity. Qed.
Lemma objs_W k r : objs k (W k r) = r.
Proof.
  induction r as [|(n, x) r IH]; [easy|]. cbn [map objs fst snd]. assert (E : unwrap k (wrap k x) = Some x) by now destruct k. rewrite E. now rewrite IH.
Qed.
Lemma dset_new (d : cont) n a : ~ In n (map fst d) -> dset d n a = d ++ [(n, a)].
Proof.
  induction d as [|(n', a') d IH]; cbn; [easy|]. intros H. destruct (String.eqb_spec n' n) as [->|Hne]; [exfalso; apply H; now left|].
  rewrite IH; [easy|]. intros Hin. apply H. now right.
Qed.
(** adding one more entry *)
Lemma add_entry k l o x : good (l ++ [(o, x)]) ->
  let key := match o with Some n => n | None => str (Z.of_nat (length l)) end in
  ~ In key (map fst (W k (render_from 0 l))) /\ dset (W k (render_from 0 l)) key (wrap k x) = W k (render_from 0 (l ++ [(o, x)])).
Proof.
  intros Hg. cbn zeta. pose proof (render_nodup _ 0 Hg) as Hn. rewrite render_app in Hn. cbn [render_from Nat.add] in Hn. rewrite map_app in Hn. cbn [map fst] in Hn.
  assert (Hno : ~ In (match o with Some n => n | None => str (Z.of_nat (length l)) end) (map fst (W k (render_from 0 l)))).
  { rewrite W_keys. intros Hin. apply NoDup_remove_2 in Hn. rewrite app_nil_r in Hn. now apply Hn. }
  split; [easy|]. rewrite dset_new by easy. rewrite render_app, map_app. reflexivity.
Qed.
Lemma represents_good k v l : represents k v l <-> v = W k (render_from 0 l) /\ good l.
Proof. reflexivity. Qed.

Lemma append_spec k v l x : represents k v l -> represents k (append k v x) (l ++ [(None, x)]).
Proof.
  intros (-> & Hg). assert (Hg' : good (l ++ [(None, x)])). { unfold good. rewrite names_app. cbn. now rewrite app_nil_r. }
  split; [|exact Hg']. unfold append, len. rewrite objs_W, render_length. now apply (add_entry k l None x).
Qed.
Lemma extend_spec k xs : forall v l, represents k v l -> represents k (extend k v xs) (l ++ numbered xs).
Proof.
  induction xs as [|x xs IH]; intros v l H; [cbn; now rewrite app_nil_r|].
  replace (l ++ numbered (x :: xs)) with ((l ++ [(None, x)]) ++ numbered xs) by (rewrite <- app_assoc; reflexivity). apply (IH (append k v x)). now apply append_spec.
Qed.
Lemma init_list_spec k xs : represents k (init_list k xs) (numbered xs).
Proof.
  unfold init_list. assert (H : forall xs v l, represents k v l ->
    represents k (fold_left (fun v ix => dset v (str (Z.of_nat (fst ix))) (wrap k (snd ix))) (enum_from (length l) xs) v) (l ++ numbered xs)).
  { clear. induction xs as [|x xs IH]; intros v l H; [cbn; now rewrite app_nil_r|].
    replace (l ++ numbered (x :: xs)) with ((l ++ [(None, x)]) ++ numbered xs) by (rewrite <- app_assoc; reflexivity).
    cbn [enum_from fold_left fst snd]. replace (S (length l)) with (length (l ++ [(@None string, x)])) by (rewrite app_length; cbn; lia). apply IH.
    pose proof (append_spec k v l x H) as Ha. unfold append, len in Ha. destruct H as (-> & _). now rewrite objs_W, render_length in Ha. }
  apply (H xs [] []). split; [easy|]. split; constructor.
Qed.
Definition ent (kx : string * nat) : entry := (if is_int_str (fst kx) then None else Some (fst kx), snd kx).
Lemma init_dict_spec k d : good (map ent d) -> represents k (init_dict k d) (map ent d).
Proof.
  unfold init_dict. set (f := fun (v : cont) (ix : nat * (string * nat)) => _).
  assert (H : forall d v l, good (l ++ map ent d) -> represents k v l -> represents k (fold_left f (enum_from (length l) d) v) (l ++ map ent d)).
  { clear d. induction d as [|(key, x) d IH]; intros v l Hg H; cbn [enum_from fold_left map]; [now rewrite app_nil_r|].
    change (ent (key, x) :: map ent d) with ([ent (key, x)] ++ map ent d). rewrite app_assoc.
    replace (S (length l)) with (length (l ++ [ent (key, x)])) by (rewrite app_length; cbn; lia).
    assert (Hg2 : good ((l ++ [ent (key, x)]) ++ map ent d)) by (rewrite <- app_assoc; exact Hg).
    apply IH; [exact Hg2|]. destruct H as (-> & _). apply good_app_l in Hg2. split; [|exact Hg2]. unfold f, ent. cbn [fst snd].
    unfold ent in Hg2. cbn [fst snd] in Hg2.
    pose proof (add_entry k l _ x Hg2) as (_ & E). refine (eq_trans _ E). destruct (is_int_str key); reflexivity. }
  intros Hg. apply (H d [] [] Hg). split; [easy|]. split; constructor.
Qed.
Lemma ent_render l : good l -> forall i, map ent (render_from i l) = l.
Proof.
  induction l as [|(o, x) l IH]; intros Hg i; cbn [render_from map]; [easy|]. rewrite IH by exact (good_app_r [(o, x)] l Hg). f_equal.
  unfold ent. cbn [fst snd]. destruct o as [n|]; [|now rewrite str_is_int]. destruct Hg as (_ & H). cbn in H. inversion H as [|? ? Hn _]; subst.
  unfold is_name in Hn. now rewrite Hn.
Qed.
Lemma init_copy_spec k v l : represents k v l -> represents k (init_copy k v) l.
Proof.
  intros (-> & Hg). unfold init_copy. rewrite objs_W.
  assert (H : forall r v, NoDup (map fst v ++ map fst r) -> fold_left (fun w kx => dset w (fst kx) (wrap k (snd kx))) r v = v ++ W k r).
  { clear. induction r as [|(n, x) r IH]; intros v Hn; cbn [fold_left map fst snd]; [now rewrite app_nil_r|]. rewrite dset_new.
    - rewrite IH; [rewrite <- app_assoc; reflexivity|]. rewrite map_app, <- app_assoc. exact Hn.
    - intros Hin. cbn in Hn. apply NoDup_remove_2 in Hn. apply Hn. apply in_app_iff. now left. }
  rewrite H; [split; [reflexivity|exact Hg]|]. now apply render_nodup.
Qed.
Lemma good_sub l a b : good l -> good (pyslice l a b).
Proof.
  intros Hg. unfold pyslice. rewrite <- (firstn_skipn a l) in Hg. apply good_app_r in Hg. rewrite <- (firstn_skipn (b - a) (skipn a l)) in Hg.
  now apply good_app_l in Hg.
Qed.
Lemma getslice_spec k v l start stop : represents k v l -> represents k (getslice k v start stop) (slice l start stop).
Proof.
  intros (-> & Hg). unfold getslice, slice. rewrite objs_W, render_length.
  set (a := start_of _ _). set (b := stop_of _ _).
  assert (E : map ent (pyslice (render_from 0 l) a b) = pyslice l a b).
  { unfold pyslice. rewrite render_skipn, render_firstn. apply ent_render. now apply good_sub. }
  rewrite <- E. apply init_dict_spec. rewrite E. now apply good_sub.
Qed.
Lemma index_map {A B} (f : A -> B) l i : index (map f l) i = match index l i with Ok x => Ok (f x) | Err e => Err e end.
Proof. unfold index. rewrite map_length. destruct (_ || _); [easy|]. rewrite nth_error_map. now destruct (nth_error l _). Qed.
Lemma getitem_spec k v l i : represents k v l -> getitem k v i = index (map snd l) i.
Proof. intros (-> & _). unfold getitem, iter. now rewrite objs_W, render_snd. Qed.
Lemma len_spec k v l : represents k v l -> len k v = length l.
Proof. intros (-> & _). unfold len. now rewrite objs_W, render_length. Qed.
Lemma iter_spec k v l : represents k v l -> iter k v = map snd l.
Proof. intros (-> & _). unfold iter. now rewrite objs_W, render_snd. Qed.

(** ** Replacing one entry *)
Definition set_entry (l : list entry) (p : nat) (x : nat) : list entry :=
  match nth_error l p with Some (o, _) => firstn p l ++ (o, x) :: skipn (S p) l | None => l end.
Lemma dset_mid (a b : cont) n v w : ~ In n (map fst a) -> dset (a ++ (n, v) :: b) n w = a ++ (n, w) :: b.
Proof.
  induction a as [|(n', a') a IH]; cbn; [now rewrite String.eqb_refl|]. intros H. destruct (String.eqb_spec n' n) as [->|Hne]; [exfalso; apply H; now left|].
  rewrite IH; [easy|]. intros Hin. apply H. now right.
Qed.
Lemma index_pos {A} (l : list A) i : match index l i with
  | Ok x => exists p, p < length l /\ nth_error l p = Some x /\ Z.of_nat p = (if (i <? 0)%Z then i + Z.of_nat (length l) else i)%Z
  | Err e => e = IndexError /\ ~ (- Z.of_nat (length l) <= i < Z.of_nat (length l))%Z end.
Proof.
  unfold index. destruct (Z.ltb_spec i (- Z.of_nat (length l))); cbn [orb]; [split; [easy|lia]|].
  destruct (Z.leb_spec (Z.of_nat (length l)) i); [split; [easy|lia]|].
  set (p := Z.to_nat _). assert (Hp : p < length l) by (unfold p; destruct (Z.ltb_spec i 0); lia).
  destruct (nth_error l p) as [x|] eqn:E; [|apply nth_error_None in E; lia]. exists p. split; [easy|]. split; [easy|]. unfold p. destruct (Z.ltb_spec i 0); lia.
Qed.
Lemma render_mid (l : list entry) p o x : nth_error l p = Some (o, x) ->
  l = firstn p l ++ (o, x) :: skipn (S p) l /\ length (firstn p l) = p.
Proof.
  intros H. assert (Hp : p < length l) by (apply nth_error_Some; congruence). split; [|apply firstn_length_le; lia].
  rewrite <- (firstn_skipn p l) at 1. f_equal. clear Hp. revert l H. induction p as [|p IH]; intros [|e l] H; try discriminate; [cbn in H; injection H as ->; reflexivity|].
  cbn [skipn]. rewrite (IH l H). reflexivity.
Qed.
Definition key_at (A : list entry) (o : option string) : string := match o with Some n => n | None => str (Z.of_nat (length A)) end.
Lemma W_mid k A B o z : W k (render_from 0 (A ++ (o, z) :: B)) = W k (render_from 0 A) ++ (key_at A o, wrap k z) :: W k (render_from (S (length A)) B).
Proof. rewrite render_app, map_app. reflexivity. Qed.
Lemma key_mid A B o y : good (A ++ (o, y) :: B) -> nth_error (map fst (render_from 0 (A ++ (o, y) :: B))) (length A) = Some (key_at A o)
  /\ forall k, ~ In (key_at A o) (map fst (W k (render_from 0 A))).
Proof.
  intros Hg. split.
  - rewrite render_app, map_app, nth_error_app2 by (rewrite map_length, render_length; apply le_n). rewrite map_length, render_length, Nat.sub_diag. reflexivity.
  - intros k Hin. rewrite W_keys in Hin. pose proof (render_nodup _ 0 Hg) as Hnd. rewrite render_app, map_app in Hnd. eapply NoDup_disj; [exact Hnd|exact Hin|]. now left.
Qed.
Lemma setitem_spec v l i x : represents KMod v l -> forall p, p < length l -> Z.of_nat p = (if (i <? 0)%Z then i + Z.of_nat (length l) else i)%Z ->
  exists v', setitem v i x = Ok v' /\ represents KMod v' (set_entry l p x).
Proof.
  intros (-> & Hg) p Hp Hi. unfold setitem. rewrite objs_W. pose proof (index_pos (map fst (render_from 0 l)) i) as H.
  destruct (index (map fst (render_from 0 l)) i) as [key|e].
  - destruct H as (p' & _ & Hn & Hi'). rewrite map_length, render_length in Hi'. assert (p' = p) by lia. subst p'. cbn [bind]. eexists. split; [reflexivity|].
    unfold set_entry. destruct (nth_error l p) as [(o, y)|] eqn:El; [|apply nth_error_None in El; lia].
    destruct (render_mid _ _ _ _ El) as (Emid & Hlen). set (A := firstn p l) in *. set (B := skipn (S p) l) in *. clearbody A B. subst l.
    assert (Hg' : good (A ++ (o, x) :: B)). { unfold good, names in *. rewrite !flat_map_app in *. exact Hg. }
    split; [|exact Hg']. destruct (key_mid _ _ _ _ Hg) as (Hk & Hno). rewrite Hlen, Hn in Hk. injection Hk as ->. rewrite !W_mid. now apply dset_mid.
  - destruct H as (_ & H). rewrite map_length, render_length in H. destruct (Z.ltb_spec i 0); lia.
Qed.

(** ** Replacing a slice *)
Lemma ddel_mid (a b : cont) n v : ~ In n (map fst a) -> ddel (a ++ (n, v) :: b) n = a ++ b.
Proof.
  induction a as [|(n', a') a IH]; cbn; [now rewrite String.eqb_refl|]. intros H. destruct (String.eqb_spec n' n) as [->|Hne]; [exfalso; apply H; now left|].
  rewrite IH; [easy|]. intros Hin. apply H. now right.
Qed.
Lemma delete_all k a b : NoDup (map fst a ++ map fst b) -> fold_left (fun (v : cont) (kx : string * nat) => ddel v (fst kx)) b (W k (a ++ b)) = W k a.
Proof.
  induction b as [|(n, x) b IH]; intros Hn; cbn [fold_left fst].
  - now rewrite app_nil_r.
  - rewrite map_app. cbn [map fst snd]. rewrite ddel_mid.
    + rewrite <- map_app. apply IH. cbn in Hn. now apply NoDup_remove_1 in Hn.
    + rewrite W_keys. intros Hin. cbn in Hn. apply NoDup_remove_2 in Hn. apply Hn. apply in_app_iff. now left.
Qed.
Lemma dhas_none (d : cont) n : ~ In n (map fst d) -> dhas d n = false.
Proof.
  induction d as [|(n', a) d IH]; intros H; [reflexivity|]. unfold dhas in *. cbn. destruct (String.eqb_spec n' n) as [->|]; [exfalso; apply H; now left|].
  apply IH. intros Hin. apply H. now right.
Qed.
Lemma add_new_spec xs : forall l, good l -> add_new (W KMod (render_from 0 l)) (Z.of_nat (length l)) xs
  = Ok (W KMod (render_from 0 (l ++ numbered xs)), Z.of_nat (length (l ++ numbered xs))).
Proof.
  induction xs as [|x xs IH]; intros l Hg; cbn [add_new]; [cbn; now rewrite app_nil_r|].
  assert (Hg' : good (l ++ [(None, x)])). { unfold good. rewrite names_app. cbn. now rewrite app_nil_r. }
  destruct (add_entry KMod l None x Hg') as (H1 & H2). rewrite dhas_none by easy. cbn [negb assert_ bind]. change (AMod x) with (wrap KMod x). rewrite H2.
  replace (Z.of_nat (length l) + 1)%Z with (Z.of_nat (length (l ++ [(@None string, x)]))) by (rewrite app_length; cbn; lia).
  rewrite IH by easy. rewrite <- app_assoc. reflexivity.
Qed.
Lemma add_remaining_spec rem : forall l j, good (l ++ rem) -> add_remaining (W KMod (render_from 0 l)) (Z.of_nat (length l)) (render_from j rem)
  = Ok (W KMod (render_from 0 (l ++ rem))).
Proof.
  induction rem as [|(o, x) rem IH]; intros l j Hg; cbn [render_from add_remaining]; [now rewrite app_nil_r|].
  assert (Hg2 : good ((l ++ [(o, x)]) ++ rem)) by (rewrite <- app_assoc; exact Hg).
  destruct (add_entry KMod l o x (good_app_l _ _ Hg2)) as (H1 & H2).
  set (key := if is_int_str _ then _ else _). assert (Hk : key = match o with Some n => n | None => str (Z.of_nat (length l)) end).
  { unfold key. destruct o as [n|]; [|now rewrite str_is_int]. apply good_app_r in Hg. destruct Hg as (_ & H). cbn in H. inversion H as [|? ? Hn _]; subst.
    unfold is_name in Hn. now rewrite Hn. }
  rewrite Hk, dhas_none by easy. cbn [negb assert_ bind]. change (AMod x) with (wrap KMod x). rewrite H2.
  replace (Z.of_nat (length l) + 1)%Z with (Z.of_nat (length (l ++ [(o, x)]))) by (rewrite app_length; cbn; lia).
  rewrite IH by easy. rewrite <- app_assoc. reflexivity.
Qed.
Lemma slice_from {A} (l : list A) i : slice l i None = skipn (start_of (length l) i) l.
Proof.
  unfold slice, pyslice, stop_of. apply firstn_all2. rewrite skipn_length. lia.
Qed.
Lemma good_setslice l xs a b : good l -> a <= b -> good (firstn a l ++ numbered xs ++ skipn b l).
Proof.
  intros Hg Hab. unfold good. rewrite !names_app, names_numbered. cbn [app]. rewrite <- names_app.
  rewrite <- (firstn_skipn a l) in Hg. assert (Eb : skipn b l = skipn (b - a) (skipn a l)).
  { clear -Hab. revert a b Hab. induction l as [|e l IH]; intros a b Hab; [now rewrite !skipn_nil|]. destruct a as [|a]; [now rewrite Nat.sub_0_r|]. destruct b as [|b]; [lia|]. cbn [skipn]. rewrite (IH a b) by lia. f_equal. }
  rewrite Eb. clear Eb.
  set (A := firstn a l) in *. set (R := skipn a l) in *. clearbody A R. rewrite <- (firstn_skipn (b - a) R) in Hg. set (M := firstn (b - a) R) in *. set (B := skipn (b - a) R) in *. clearbody M B.
  destruct Hg as (H1 & H2). rewrite !names_app in *. split.
  - apply NoDup_app_intro2; [now apply NoDup_app_l in H1|now apply NoDup_app_r, NoDup_app_r in H1|].
    intros x Hx Hy. eapply NoDup_disj; [exact H1|exact Hx|]. apply in_app_iff. now right.
  - rewrite !Forall_app in *. tauto.
Qed.

Lemma setslice_spec v l start stop xs : represents KMod v l -> plain_bounds (length l) start stop ->
  exists v', setslice v start stop (SList xs) = Ok v' /\ represents KMod v' (py_setslice l start stop (numbered xs)).
Proof.
  intros (-> & Hg) (Hs & Hle). unfold setslice, py_setslice. rewrite objs_W. rewrite slice_from, render_length.
  set (a := start_of (length l) start) in *. set (b := stop_of (length l) stop) in *.
  assert (Ha : a <= length l). { unfold a. destruct start as [i|]; cbn; [|lia]. unfold bound. destruct (Z.ltb_spec i 0); lia. }
  assert (Ei : match start with Some i => i | None => 0%Z end = Z.of_nat (length (firstn a l))).
  { rewrite firstn_length_le by easy. unfold a. destruct start as [i|]; [|easy]. cbn. unfold bound. destruct (Z.ltb_spec i 0); lia. }
  rewrite Ei. rewrite Nat.max_r by easy.
  replace (W KMod (render_from 0 l)) with (W KMod (firstn a (render_from 0 l) ++ skipn a (render_from 0 l))) by now rewrite firstn_skipn.
  rewrite delete_all by (rewrite <- map_app, firstn_skipn; now apply render_nodup).
  rewrite render_firstn. assert (Hga : good (firstn a l)). { rewrite <- (firstn_skipn a l) in Hg. now apply good_app_l in Hg. }
  rewrite add_new_spec by easy. cbn [bind].
  assert (Er : match stop with Some _ => slice (render_from 0 l) stop None | None => [] end = render_from b (skipn b l)).
  { unfold b. destruct stop as [j|]; [rewrite slice_from, render_length, render_skipn; reflexivity|]. cbn. now rewrite skipn_all. }
  rewrite Er. pose proof (good_setslice l xs a b Hg Hle) as Hgs. rewrite app_assoc in Hgs.
  rewrite add_remaining_spec by easy. eexists. split; [reflexivity|]. rewrite app_assoc. split; [reflexivity|exact Hgs].
Qed.
Lemma delitem_spec v l p : represents KMod v l -> p < length l ->
  exists v', delitem v (Z.of_nat p) = Ok v' /\ represents KMod v' (firstn p l ++ skipn (S p) l).
Proof.
  intros Hr Hp. unfold delitem.
  assert (Hs : start_of (length l) (Some (Z.of_nat p)) = p). { cbn. unfold bound. destruct (Z.ltb_spec (Z.of_nat p) 0); lia. }
  assert (Ht : stop_of (length l) (Some (Z.of_nat p + 1)%Z) = S p). { cbn. unfold bound. destruct (Z.ltb_spec (Z.of_nat p + 1) 0); lia. }
  destruct (setslice_spec v l (Some (Z.of_nat p)) (Some (Z.of_nat p + 1)%Z) [] Hr) as (v' & E & H).
  - split; [lia|]. rewrite Hs, Ht. lia.
  - exists v'. split; [exact E|]. unfold py_setslice in H. rewrite Hs, Ht, Nat.max_r in H by lia. exact H.
Qed.

(** ** ParameterList.__setitem__ *)
Lemma objs_app k a b : objs k (a ++ b) = objs k a ++ objs k b.
Proof. induction a as [|(n, x) a IH]; cbn; [easy|]. destruct (unwrap k x); cbn; now rewrite IH. Qed.
Lemma param_setitem_spec v l p x : represents KParam v l -> p < length l ->
  exists v', param_setitem v (Z.of_nat p) x = Ok v' /\ iter KParam v' = map snd (firstn p l ++ skipn (S p) l).
Proof.
  intros (-> & Hg) Hp. unfold param_setitem. rewrite objs_W. pose proof (index_pos (map fst (render_from 0 l)) (Z.of_nat p)) as H.
  destruct (index (map fst (render_from 0 l)) (Z.of_nat p)) as [key|e].
  - destruct H as (p' & _ & Hn & Hi'). rewrite map_length, render_length in Hi'. destruct (Z.ltb_spec (Z.of_nat p) 0); [lia|]. assert (p' = p) by lia. subst p'.
    cbn [bind]. eexists. split; [reflexivity|]. destruct (nth_error l p) as [(o, y)|] eqn:El; [|apply nth_error_None in El; lia].
    destruct (render_mid _ _ _ _ El) as (Emid & Hlen). set (A := firstn p l) in *. set (B := skipn (S p) l) in *. clearbody A B. subst l.
    destruct (key_mid _ _ _ _ Hg) as (Hk & Hno). rewrite Hlen, Hn in Hk. injection Hk as ->. rewrite W_mid, dset_mid by apply Hno.
    unfold iter. rewrite objs_app. cbn [objs unwrap parameter_class]. rewrite !objs_W, map_app, !render_snd, <- map_app. reflexivity.
  - destruct H as (_ & H). rewrite map_length, render_length in H. lia.
Qed.
