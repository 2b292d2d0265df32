(** Proofs about HDF files, part 5: [HDFDatasetWriter]. *)
From Coq Require Import String Ascii Sorting.Sorted.
From Verif Require Import Base PyDict ListLemmas OptimModel OptimProofs HdfModel HdfSpec HdfProofs HdfReadProofs.
Local Open Scope string_scope.
Local Open Scope nat_scope.
Local Open Scope list_scope.
Local Notation length := List.length.

Section C.
Context {A : Type} (s : @source A).
Notation hseq := (@hseq A).
Notation src := (string * @dict string (list A))%type.

Hypothesis Nk : NoDup (s_keys s).
Hypothesis Nt : NoDup (s_targets s).

Lemma In_remove x l k : In k (remove_str x l) <-> In k l /\ k <> x.
Proof.
  unfold remove_str. rewrite filter_In, negb_true_iff. split; intros [H1 H2]; split; try exact H1.
  - intros ->. now rewrite String.eqb_refl in H2.
  - apply String.eqb_neq. congruence.
Qed.
Lemma NoDup_sort l : NoDup l -> NoDup (sort_names l).
Proof. intros H. eapply Permutation_NoDup; [apply Permutation_sym, sort_names_perm|exact H]. Qed.

Lemma choose_spec input targets keys name : choose_keys s = Ok (input, targets, keys, name) ->
  (forall k, name k = file_name k) /\ NoDup keys /\ (forall k, In k keys <-> kept s k) /\ NoDup targets
  /\ (forall k, In k targets <-> copy_target s input k)
  /\ match input with
     | Some i => is_input_key s i
     | None => forall k, kept s k -> In k (s_targets s)
     end
  /\ (copy_target s input "data" -> ~ copy_target s input "classes").
Proof.
  unfold choose_keys. intros H. apply bind_Ok in H. destruct H as (_&_&H). cbv zeta in H.
  set (ks := remove_str "raw" (remove_str "orth" (sort_names (s_keys s)))) in *.
  assert (Hks : forall k, In k ks <-> kept s k).
  { intros k. unfold ks. rewrite !In_remove, sort_names_In. unfold kept. tauto. }
  assert (Nks : NoDup ks) by (unfold ks, remove_str; apply NoDup_filter, NoDup_filter, NoDup_sort; exact Nk).
  set (t0 := filter (fun k => mem_str k ks) (s_targets s)) in *.
  assert (Ht0 : forall k, In k t0 <-> kept s k /\ In k (s_targets s)).
  { intros k. unfold t0. rewrite filter_In, mem_str_In, Hks. tauto. }
  set (ins := filter (fun k => negb (mem_str k t0)) ks) in *.
  assert (Hins : forall k, In k ins <-> kept s k /\ ~ In k (s_targets s)).
  { intros k. unfold ins. rewrite filter_In, negb_true_iff, mem_str_not, Hks, Ht0. tauto. }
  apply bind_Ok in H. destruct H as (inp&Hinp&H). apply bind_Ok in H. destruct H as ([]&Hcl&H). apply Ok_inj in H. injection H as <- <- <- <-.
  assert (Hii : match inp with Some i => is_input_key s i | None => forall k, kept s k -> In k (s_targets s) end).
  { destruct ins as [|k1 [|k2 r]] eqn:Ei.
    - destruct t0; [discriminate|]. apply Ok_inj in Hinp. subst. intros k Hk. destruct (in_dec string_dec k (s_targets s)) as [?|Hn]; [assumption|].
      exfalso. assert (X : In k []) by (apply Hins; auto). destruct X.
    - apply Ok_inj in Hinp. subst. assert (X : In k1 [k1]) by now left. apply Hins in X. destruct X as [X1 X2]. split; [exact X1|]. split; [exact X2|].
      right. intros k Hk Hn. assert (X : In k [k1]) by (apply Hins; auto). destruct X as [->|[]]. reflexivity.
    - destruct (mem_str "data" (k1 :: k2 :: r)) eqn:Em; [|discriminate]. apply Ok_inj in Hinp. subst. apply mem_str_In, Hins in Em. destruct Em. repeat split; try apply H; auto. }
  set (is_in := fun k => match inp with Some i => String.eqb k i | None => false end) in *.
  assert (His : forall k, is_in k = true <-> Some k = inp).
  { intros k. unfold is_in. destruct inp; [|split; discriminate]. rewrite String.eqb_eq. split; congruence. }
  assert (His' : forall k, is_in k = false <-> Some k <> inp).
  { intros k. rewrite <- His. destruct (is_in k); split; congruence. }
  split; [reflexivity|]. split; [exact Nks|]. split; [exact Hks|]. split; [|split; [|split; [exact Hii|]]].
  - apply NoDup_app_intro2; [apply NoDup_filter; exact Nt|apply NoDup_filter, NoDup_filter; exact Nks|].
    intros k Hk1 Hk2. apply filter_In in Hk2. destruct Hk2 as [Hk2 _]. apply Hins in Hk2. apply Ht0 in Hk1. tauto.
  - intros k. change (In k (t0 ++ filter (fun k => negb (is_in k)) ins) <-> copy_target s inp k). rewrite in_app_iff, filter_In, negb_true_iff, His', Ht0, Hins. unfold copy_target.
    split; [intros [[H1 H2]|[[H1 H2] H3]]; split; try assumption|].
    + intros E. subst inp. destruct Hii as (_&Hn&_). tauto.
    + intros [H1 H2]. destruct (in_dec string_dec k (s_targets s)); [left|right]; auto.
  - intros Hd Hc. assert (Hd' : mem_str "data" (filter (fun k => negb (is_in k)) ks) = true).
    { apply mem_str_In, filter_In. destruct Hd. split; [now apply Hks|]. now apply negb_true_iff, His'. }
    change ((if mem_str "data" (filter (fun k => negb (is_in k)) ks) then assert_ (negb (mem_str "classes" (filter (fun k => negb (is_in k)) ks))) else Ok tt) = Ok tt) in Hcl.
    rewrite Hd' in Hcl. apply assert_Ok in Hcl. apply negb_true_iff, mem_str_not in Hcl. apply Hcl. apply filter_In.
    destruct Hc. split; [now apply Hks|]. now apply negb_true_iff, His'.
Qed.

(** names in the file *)
Lemma file_name_inj (P : string -> Prop) : (P "data" -> ~ P "classes") -> forall a b, P a -> P b -> file_name a = file_name b -> a = b.
Proof.
  intros H a b Ha Hb. unfold file_name. destruct (String.eqb a "data") eqn:Ea, (String.eqb b "data") eqn:Eb;
    try apply String.eqb_eq in Ea; try apply String.eqb_eq in Eb; subst; try congruence; intros E; subst; now elim H.
Qed.

Lemma sorted_names targets : NoDup targets -> (In "data" targets -> ~ In "classes" targets) ->
  (In "data" targets -> forall k, In k targets -> ~ (String.ltb "classes" k = true /\ String.ltb k "data" = true)) ->
  StronglySorted slt (map file_name (sort_names targets)).
Proof.
  intros Nd Hc Hmid. pose proof (sort_names_sorted targets Nd) as Hs.
  assert (G : forall l, StronglySorted slt l -> incl l targets -> StronglySorted slt (map file_name l)).
  { induction l as [|x l IH]; intros Hsl Hl; [constructor|]. apply StronglySorted_inv in Hsl. destruct Hsl as [H1 H2]. cbn [map]. constructor.
    - apply IH; [exact H1|]. intros y Hy. apply Hl. now right.
    - apply Forall_forall. intros y' Hy'. apply in_map_iff in Hy'. destruct Hy' as (y&<-&Hy).
      pose proof (proj1 (Forall_forall _ _) H2 y Hy) as Hxy.
      assert (Tx : In x targets) by (apply Hl; now left). assert (Ty : In y targets) by (apply Hl; now right).
      unfold file_name. destruct (String.eqb x "data") eqn:Ex; [apply String.eqb_eq in Ex; subst x|].
      + destruct (String.eqb y "data") eqn:Ey; [apply String.eqb_eq in Ey; subst y; exfalso; exact (slt_irrefl _ Hxy)|].
        apply slt_trans with "data"; [reflexivity|exact Hxy].
      + destruct (String.eqb y "data") eqn:Ey; [apply String.eqb_eq in Ey; subst y|exact Hxy].
        assert (Hxc : x <> "classes") by (intros ->; exact (Hc Ty Tx)).
        pose proof (leb_cases x "classes" Hxc) as Hle. destruct (String.leb x "classes"); [exact Hle|].
        exfalso. exact (Hmid Ty x Tx (conj Hle Hxy)). }
  apply G; [exact Hs|]. intros k Hk. now rewrite sort_names_In in Hk.
Qed.

Definition frames_of (x : src) (k : string) : list A := match dget (snd x) k with Some l => l | None => [] end.
Definition copy_seq (input : option string) (targets : list string) (x : src) : hseq :=
  {| q_tag := fst x; q_data := match input with Some i => frames_of x i | None => [] end;
     q_extra := map (fun k => (file_name k, frames_of x k)) targets |}.

Lemma dget_map_name targets (g : string -> list A) k : (In "data" targets -> ~ In "classes" targets) -> In k targets ->
  dget (map (fun k => (file_name k, g k)) targets) (file_name k) = Some (g k).
Proof.
  intros Hc Hk. assert (Hinj : forall a b, In a targets -> In b targets -> file_name a = file_name b -> a = b) by exact (file_name_inj (fun k => In k targets) Hc).
  clear Hc. induction targets as [|x l IH]; [destruct Hk|]. cbn [map dget].
  change (@keqb string _) with String.eqb in *. destruct (String.eqb (file_name x) (file_name k)) eqn:E.
  - apply String.eqb_eq in E. apply Hinj in E; [now subst|now left|exact Hk].
  - destruct Hk as [->|Hk]; [now rewrite String.eqb_refl in E|]. apply IH; [exact Hk|]. intros a b Ha Hb. apply Hinj; now right.
Qed.

Lemma fold_names {V} (g : string -> V) : forall l d, (In "data" l -> ~ In "classes" l) -> NoDup l ->
  (forall k, In k l -> ~ In (file_name k) (dkeys d)) ->
  dkeys (fold_left (fun d k => dset d (file_name k) (g k)) l d) = dkeys d ++ map file_name l
  /\ (forall k, In k l -> dget (fold_left (fun d k => dset d (file_name k) (g k)) l d) (file_name k) = Some (g k))
  /\ (forall n, ~ In n (map file_name l) -> dget (fold_left (fun d k => dset d (file_name k) (g k)) l d) n = dget d n).
Proof.
  induction l as [|x l IH]; intros d Hc Nd Hd; [cbn; rewrite app_nil_r; split; [reflexivity|split; [intros k []|reflexivity]]|].
  cbn [fold_left map]. pose proof (file_name_inj (fun k => In k (x :: l)) Hc) as Hinj. inversion Nd as [|? ? Nx Nd']; subst.
  assert (Hx : ~ In (file_name x) (map file_name l)).
  { intros Hi. apply in_map_iff in Hi. destruct Hi as (y&Ey&Hy). apply Hinj in Ey; [subst; contradiction|now right|now left]. }
  destruct (IH (dset d (file_name x) (g x))) as (K1&K2&K3).
  - intros H1 H2. apply Hc; now right.
  - exact Nd'.
  - intros k Hk. rewrite dkeys_dset_new by (apply Hd; now left). rewrite in_app_iff. intros [Hi|[E|[]]].
    + apply (Hd k); [now right|exact Hi].
    + apply Hx. rewrite E. now apply in_map.
  - split; [rewrite K1, dkeys_dset_new by (apply Hd; now left); now rewrite <- app_assoc|]. split.
    + intros k [<-|Hk]; [|now apply K2]. rewrite K3 by exact Hx. now rewrite dget_dset_str, String.eqb_refl.
    + intros n Hn. rewrite K3 by (intros Hi; apply Hn; now right). rewrite dget_dset_str. destruct (String.eqb (file_name x) n) eqn:E; [|reflexivity].
      apply String.eqb_eq in E. exfalso. apply Hn. now left.
Qed.

Lemma fold_left_map_ext {T U V} (f : V -> U -> V) (g : T -> U) l d : fold_left f (map g l) d = fold_left (fun d x => f d (g x)) l d.
Proof. revert d. induction l as [|x l IH]; intros d; [reflexivity|]. cbn. apply IH. Qed.

Lemma mapM_frames (k : string) (xs : list src) l : mapM (fun x => seq_frames x k) xs = Ok l -> l = map (fun x => frames_of x k) xs /\ forall x, In x xs -> dget (snd x) k <> None.
Proof.
  revert l. induction xs as [|x xs IH]; intros l; cbn [mapM]; [intros H; apply Ok_inj in H; subst; split; [reflexivity|intros y []]|].
  unfold seq_frames at 1. destruct (dget (snd x) k) as [fr|] eqn:E; [|discriminate]. cbn [bind]. intros H. apply bind_Ok in H. destruct H as (ys&Hys&H).
  apply Ok_inj in H. subst. destruct (IH _ Hys) as [-> H2]. split; [cbn; f_equal; unfold frames_of; now rewrite E|]. intros y [->|Hy]; [congruence|now apply H2].
Qed.

Lemma dump_stores start_seq end_seq f : dump_from_dataset s start_seq end_seq = Ok f ->
  (forall k v, dget (s_outputs s) k = Some v -> 0 < fst v) ->
  Forall (fun x => no_nul (fst x)) (selected s start_seq end_seq) ->
  (forall input, copy_target s input "data" -> forall k, copy_target s input k -> ~ (String.ltb "classes" k = true /\ String.ltb k "data" = true)) ->
  exists input RK ys, stores f (match input with Some _ => true | None => false end) true RK ys
    /\ match input with Some i => is_input_key s i | None => forall k, kept s k -> In k (s_targets s) end
    /\ (forall n, In n RK <-> exists k, copy_target s input k /\ n = file_name k)
    /\ Forall2 (fun x y => copied s x input y) (selected s start_seq end_seq) ys
    /\ (input = None -> RK <> []).
Proof.
  intros H Hdim Hnul Hmid. unfold dump_from_dataset in H. apply bind_Ok in H. destruct H as ((((input&targets)&keys)&name)&Hch&H).
  destruct (choose_spec input targets keys name Hch) as (Hname&Nkeys&Hkeys&Ntg&Htg&Hinp&Hcl). cbv zeta in H.
  assert (Esel : match end_seq with None => skipn start_seq (s_seqs s) | Some e => pyslice (s_seqs s) start_seq (S e) end = selected s start_seq end_seq).
  { unfold selected. destruct end_seq; [|reflexivity]. unfold pyslice. now rewrite skipn_firstn_comm. }
  rewrite Esel in H. set (xs := selected s start_seq end_seq) in *. clear Esel.
  apply bind_Ok in H. destruct H as (_&_&H). apply bind_Ok in H. destruct H as ([]&Hne&H). apply assert_Ok, negb_true_iff, Nat.eqb_neq in Hne.
  apply bind_Ok in H. destruct H as (lens&Hlens&H). apply bind_Ok in H. destruct H as (datas&Hdatas&H). apply Ok_inj in H.
  assert (Hc : In "data" targets -> ~ In "classes" targets) by (rewrite !Htg; exact Hcl).
  set (T := sort_names targets) in *.
  assert (HT : forall k, In k T <-> In k targets) by (intros k; apply sort_names_In).
  assert (HcT : In "data" T -> ~ In "classes" T) by (rewrite !HT; exact Hc).
  assert (Ed : datas = map (fun k => (k, concat (map (fun x => frames_of x k) xs))) keys /\ forall k x, In k keys -> In x xs -> dget (snd x) k <> None).
  { clear - Hdatas. revert datas Hdatas. induction keys as [|k keys IH]; intros datas; cbn [mapM]; [intros H; apply Ok_inj in H; subst; split; [reflexivity|intros k x []]|].
    intros H. apply bind_Ok in H. destruct H as (y&Hy&H). apply bind_Ok in H. destruct H as (ys&Hys&H). apply Ok_inj in H. subst datas.
    apply bind_Ok in Hy. destruct Hy as (l&Hl&Hy). apply Ok_inj in Hy. subst y. apply mapM_frames in Hl. destruct Hl as [-> Hl].
    destruct (IH _ Hys) as [-> H2]. split; [reflexivity|]. intros k' x [<-|Hk] Hx; [now apply Hl|now apply H2]. }
  destruct Ed as [Ed Hfr].
  set (cols := (match input with Some i => [i] | None => [] end) ++ T) in *.
  assert (Hlens' : lens = map (fun x => map (fun k => length (frames_of x k)) cols) xs /\ length cols = length keys).
  { assert (Hrow : forall x ls, (let* ls := mapM (fun k => let* l := seq_frames x k in Ok (length l)) cols in
        let* _ := if length ls =? length keys then Ok tt else Err TypeError in Ok ls) = Ok ls ->
        ls = map (fun k => length (frames_of x k)) cols /\ length cols = length keys).
    { intros x ls HH. apply bind_Ok in HH. destruct HH as (l1&H1&HH). apply bind_Ok in HH. destruct HH as ([]&H2&HH). apply Ok_inj in HH. subst l1.
      assert (E : ls = map (fun k => length (frames_of x k)) cols).
      { clear - H1. revert ls H1. induction cols as [|c cols IH]; intros ls; cbn [mapM]; [intros H; apply Ok_inj in H; now subst|].
        unfold seq_frames at 1. destruct (dget (snd x) c) as [fr|] eqn:E; [|discriminate]. cbn [bind]. intros H. apply bind_Ok in H. destruct H as (ys&Hys&H).
        apply Ok_inj in H. subst. cbn. f_equal; [unfold frames_of; now rewrite E|now apply IH]. }
      split; [exact E|]. destruct (length ls =? length keys) eqn:El; [|discriminate]. apply Nat.eqb_eq in El. rewrite E, map_length in El. exact El. }
    assert (Gx : lens = map (fun x => map (fun k => length (frames_of x k)) cols) xs /\ (xs <> [] -> length cols = length keys)).
    { clear - Hlens Hrow. revert lens Hlens. induction xs as [|x xs IH]; intros lens; cbn [mapM]; [intros H; apply Ok_inj in H; subst; split; [reflexivity|congruence]|].
      intros H. apply bind_Ok in H. destruct H as (y&Hy&H). apply bind_Ok in H. destruct H as (ys&Hys&H). apply Ok_inj in H. subst lens.
      destruct (Hrow _ _ Hy) as [-> ?]. destruct (IH _ Hys) as [-> _]. split; [reflexivity|auto]. }
    destruct Gx as [Gx1 Gx2]. split; [exact Gx1|]. apply Gx2. destruct xs; [cbn in Hne; lia|discriminate]. }
  destruct Hlens' as [Elens Ecols].
  set (is_in := fun k => match input with Some i => String.eqb k i | None => false end) in *.
  assert (His' : forall k, is_in k = false <-> Some k <> input).
  { intros k. unfold is_in. destruct input as [i|]; [|split; [discriminate|reflexivity]]. rewrite String.eqb_neq. split; congruence. }
  set (O := filter (fun k => negb (is_in k)) keys).
  assert (HO : forall k, In k O <-> In k targets).
  { intros k. unfold O. rewrite filter_In, negb_true_iff, His', Htg, Hkeys. reflexivity. }
  assert (NO : NoDup O) by (apply NoDup_filter; exact Nkeys).
  assert (HcO : In "data" O -> ~ In "classes" O) by (rewrite !HO; exact Hc).
  assert (Eoth : filter (fun kl => negb (is_in (fst kl))) datas = map (fun k => (k, concat (map (fun x => frames_of x k) xs))) O).
  { rewrite Ed. unfold O. clear. induction keys as [|k l IH]; [reflexivity|]. cbn [map filter fst]. destruct (negb (is_in k)); [cbn [map]; now rewrite IH|exact IH]. }
  change (filter (fun kl : string * list A => negb match input with Some i => String.eqb (fst kl) i | None => false end) datas
    = map (fun k => (k, concat (map (fun x => frames_of x k) xs))) O) in Eoth.
  rewrite Eoth in H. rewrite !fold_left_map_ext in H. cbn [fst snd] in H.
  assert (EfoldA : forall d : @dict string (list A), fold_left (fun d k => dset d (name k) (concat (map (fun x => frames_of x k) xs))) O d
     = fold_left (fun d k => dset d (file_name k) (concat (map (fun x => frames_of x k) xs))) O d).
  { intros d. clear - Hname. revert d. induction O as [|k l IH]; intros d; [reflexivity|]. cbn. rewrite Hname. apply IH. }
  set (out := fun k => match dget (s_outputs s) k with Some o => o | None => (1, 1) end) in *.
  assert (EfoldB : forall d : @dict string (nat * nat), fold_left (fun d k => dset d (name k) (out k)) O d = fold_left (fun d k => dset d (file_name k) (out k)) O d).
  { intros d. clear - Hname. revert d. induction O as [|k l IH]; intros d; [reflexivity|]. cbn. rewrite Hname. apply IH. }
  rewrite EfoldA, EfoldB in H.
  destruct (fold_names (fun k => concat (map (fun x => frames_of x k) xs)) O [] HcO NO) as (D1&D2&_); [intros k _ []|].
  destruct (fold_names out O [] HcO NO) as (Z1&Z2&_); [intros k _ []|].
  cbn [dkeys map app] in D1, Z1.
  set (RK := map file_name T).
  assert (Hsort : StronglySorted slt RK).
  { apply sorted_names; [exact Ntg|exact Hc|]. intros Hd k Hk. apply Htg in Hd, Hk. exact (Hmid input Hd k Hk). }
  assert (NRK : NoDup RK).
  { unfold RK. apply NoDup_map_inj; [|apply NoDup_sort; exact Ntg]. intros a b Ha Hb. apply (file_name_inj (fun k => In k T) HcT); assumption. }
  assert (NmO : NoDup (map file_name O)).
  { apply NoDup_map_inj; [|exact NO]. intros a b Ha Hb. apply (file_name_inj (fun k => In k O) HcO); assumption. }
  assert (HRKO : forall n, In n RK <-> In n (map file_name O)).
  { intros n. unfold RK. rewrite !in_map_iff. split; intros (k&E&Hk); exists k; (split; [exact E|]); [apply HO, HT|apply HT, HO]; exact Hk. }
  assert (Ekeys : sort_names (map file_name O) = RK).
  { apply slt_sorted_unique; [now apply sort_names_sorted|exact Hsort|]. intros n. rewrite sort_names_In. symmetry. apply HRKO. }
  set (ys := map (copy_seq input T) xs).
  assert (Etar : forall x k, In k T -> target (copy_seq input T x) (file_name k) = frames_of x k).
  { intros x k Hk. unfold target, copy_seq. cbn [q_extra]. now rewrite (dget_map_name T (frames_of x) k HcT Hk). }
  assert (Hin_keys : forall i, input = Some i -> In i keys).
  { intros i ->. apply Hkeys. apply Hinp. }
  exists input, RK, ys. split; [|split; [exact Hinp|split; [|split]]].
  - constructor.
    + subst f. cbn [f_inputs]. destruct input as [i|]; [|reflexivity].
      assert (Eg : dget datas i = Some (concat (map (fun x => frames_of x i) xs))).
      { rewrite Ed. specialize (Hin_keys i eq_refl). clear - Hin_keys. induction keys as [|k l IH]; [destruct Hin_keys|]. cbn [map dget].
        change (@keqb string _) with String.eqb. destruct (String.eqb k i) eqn:E; [apply String.eqb_eq in E; now subst|]. destruct Hin_keys as [->|Hk]; [now rewrite String.eqb_refl in E|]. now apply IH. }
      rewrite Eg. exists (out i). split.
      * f_equal. f_equal. unfold ys. rewrite flat_map_concat_map, map_map. reflexivity.
      * unfold out. destruct (dget (s_outputs s) i) as [o|] eqn:Eo; [now apply Hdim in Eo|cbn; lia].
    + subst f. cbn [f_data f_sizes]. eexists. split; [reflexivity|]. rewrite D1, Z1. split; [|split].
      * assert (E : filter (fun k => negb (mem_str k (map file_name O))) (map file_name O) = []).
        { assert (G : forall l, incl l (map file_name O) -> filter (fun k => negb (mem_str k (map file_name O))) l = []).
          { induction l as [|x l IH]; intros Hl; [reflexivity|]. cbn [filter]. rewrite (proj2 (mem_str_In x _)) by (apply Hl; left; reflexivity).
            cbn [negb]. apply IH. intros y Hy. apply Hl. right. exact Hy. }
          apply G. apply incl_refl. }
        rewrite E, app_nil_r. exact Ekeys.
      * intros n Hn. unfold RK in Hn. apply in_map_iff in Hn. destruct Hn as (k&<-&Hk). rewrite D2 by (apply HO, HT; exact Hk). f_equal.
        unfold ys. rewrite flat_map_concat_map, map_map. f_equal. apply map_ext. intros x. now rewrite Etar.
      * intros n Hn. unfold RK in Hn. apply in_map_iff in Hn. destruct Hn as (k&<-&Hk). rewrite Z2 by (apply HO, HT; exact Hk). eauto.
    + subst f. cbn [f_lens]. rewrite Elens. unfold ys. rewrite map_map. apply map_ext. intros x. unfold rrow, columns, cols, RK.
      rewrite !map_app. f_equal.
      * destruct input; reflexivity.
      * rewrite !map_map. apply map_ext_in. intros k Hk. now rewrite Etar.
    + subst f. cbn [f_cols]. rewrite columns_len. unfold RK. rewrite map_length. rewrite <- Ecols. unfold cols. rewrite app_length. destruct input; reflexivity.
    + subst f. cbn [f_tags]. unfold ys. rewrite !map_map. apply map_ext_in. intros x Hx. cbn [copy_seq q_tag]. apply cut_nul_id.
      exact (proj1 (Forall_forall _ _) Hnul x Hx).
    + unfold ys. destruct xs; [cbn in Hne; lia|discriminate].
    + exact NRK.
  - intros n. unfold RK. rewrite in_map_iff. split; intros (k&H1&H2); exists k; (split; [|try (now symmetry); try exact H1]).
    + apply Htg, HT. exact H2.
    + now symmetry.
    + apply HT, Htg. exact H1.
  - unfold ys. clear - Hfr Htg HT Etar Hkeys Hin_keys.
    assert (G : forall l, incl l xs -> Forall2 (fun x y => copied s x input y) l (map (copy_seq input T) l)).
    { induction l as [|x l IH]; intros Hl; [constructor|]. cbn [map]. constructor; [|apply IH; intros y Hy; apply Hl; now right].
      assert (Hx : In x xs) by (apply Hl; now left). split; [reflexivity|]. split.
      - intros i Ei. pose proof (Hfr i x (Hin_keys i Ei) Hx) as Hn. cbn [copy_seq q_data]. rewrite Ei. unfold frames_of. destruct (dget (snd x) i); [reflexivity|congruence].
      - intros k Hk. rewrite Etar by (apply HT, Htg; exact Hk). assert (Hkk : In k keys) by (apply Hkeys; apply Hk).
        pose proof (Hfr k x Hkk Hx) as Hn. unfold frames_of. destruct (dget (snd x) k); [reflexivity|congruence]. }
    apply G, incl_refl.
  - intros Ei E. unfold RK in E. apply map_eq_nil in E. subst input. cbn [app] in Ecols. unfold cols in Ecols. cbn [app] in Ecols. rewrite E in Ecols. cbn in Ecols.
    destruct keys as [|k keys']; [|discriminate].
    unfold choose_keys in Hch. apply bind_Ok in Hch. destruct Hch as (_&_&Hch). cbv zeta in Hch. apply bind_Ok in Hch. destruct Hch as (i'&Hi&Hch).
    apply bind_Ok in Hch. destruct Hch as (_&_&Hch). apply Ok_inj in Hch. injection Hch as Ei' Et' Ek _. rewrite Ek in Hi. subst i'.
    cbn [filter] in Hi.
    assert (En : filter (fun k => mem_str k []) (s_targets s) = []).
    { clear. induction (s_targets s) as [|x l IH]; [reflexivity|]. exact IH. }
    rewrite En in Hi. discriminate.
Qed.
End C.

Lemma dump_opens {A} (s : @source A) start_seq end_seq f : NoDup (s_keys s) -> NoDup (s_targets s) ->
  dump_from_dataset s start_seq end_seq = Ok f ->
  (forall k v, dget (s_outputs s) k = Some v -> 0 < fst v) ->
  Forall (fun x => no_nul (fst x)) (selected s start_seq end_seq) ->
  (forall input, copy_target s input "data" -> forall k, copy_target s input k -> ~ (String.ltb "classes" k = true /\ String.ltb k "data" = true)) ->
  exists input r keys ys, open_files [f] = Ok r
    /\ match input with Some i => is_input_key s i | None => forall k, kept s k -> In k (s_targets s) end
    /\ (forall n, In n keys <-> exists k, copy_target s input k /\ n = file_name k)
    /\ Forall2 (fun x y => copied s x input y) (selected s start_seq end_seq) ys
    /\ is_dataset r (match input with Some _ => true | None => false end) keys ys.
Proof.
  intros Nk Nt H Hd Hn Hm. destruct (dump_stores s Nk Nt start_seq end_seq f H Hd Hn Hm) as (input&RK&ys&HS&Hi&HK&HF&Hne).
  assert (Hor : (match input with Some _ => true | None => false end) || true = true) by apply orb_true_r.
  destruct (first_accepts f _ true RK ys HS) as (r&Hr).
  - intros _ Hdd. apply HK in Hdd. destruct Hdd as (k&_&E). unfold file_name in E. destruct (String.eqb k "data") eqn:Ek; [discriminate|].
    subst k. discriminate.
  - destruct input; [now left|right; now apply Hne].
  - exact Hor.
  - exists input, r, RK, ys. split; [unfold open_files; cbn [add_files]; rewrite Hr; reflexivity|]. split; [exact Hi|]. split; [exact HK|]. split; [exact HF|].
    pose proof (add_file_first f r _ true RK ys HS Hor Hr) as G. apply rinv_dataset in G. cbn [concat] in G. now rewrite app_nil_r in G.
Qed.

(** *** acceptance *)
Lemma choose_ok {A} (s : @source A) input : NoDup (s_keys s) ->
  match input with Some i => is_input_key s i | None => (forall k, kept s k -> In k (s_targets s)) /\ exists k, kept s k end ->
  (copy_target s input "data" -> ~ copy_target s input "classes") ->
  exists targets keys name, choose_keys s = Ok (input, targets, keys, name).
Proof.
  intros Nk Hi Hc. unfold choose_keys.
  assert (Hkex : exists k, kept s k) by (destruct input as [i|]; [exists i; apply Hi|apply Hi]).
  assert (E0 : negb (length (sort_names (s_keys s)) =? 0) = true).
  { apply negb_true_iff, Nat.eqb_neq. rewrite sort_names_len. destruct Hkex as (k&(Hk&_)). destruct (s_keys s); [destruct Hk|cbn; lia]. }
  rewrite E0. cbn [assert_ bind]. clear E0. cbv zeta.
  set (ks := remove_str "raw" (remove_str "orth" (sort_names (s_keys s)))).
  assert (Hks : forall k, In k ks <-> kept s k).
  { intros k. unfold ks. rewrite !In_remove, sort_names_In. unfold kept. tauto. }
  assert (Nks : NoDup ks) by (unfold ks, remove_str; apply NoDup_filter, NoDup_filter, NoDup_sort; exact Nk).
  set (t0 := filter (fun k => mem_str k ks) (s_targets s)).
  assert (Ht0 : forall k, In k t0 <-> kept s k /\ In k (s_targets s)).
  { intros k. unfold t0. rewrite filter_In, mem_str_In, Hks. tauto. }
  set (ins := filter (fun k => negb (mem_str k t0)) ks).
  assert (Hins : forall k, In k ins <-> kept s k /\ ~ In k (s_targets s)).
  { intros k. unfold ins. rewrite filter_In, negb_true_iff, mem_str_not, Hks, Ht0. tauto. }
  assert (Nins : NoDup ins) by (apply NoDup_filter; exact Nks).
  assert (Ein : match ins with
                | [] => match t0 with [] => Err IndexError | _ => Ok None end
                | [k] => Ok (Some k)
                | _ => if mem_str "data" ins then Ok (Some "data") else Err OtherException
                end = Ok input).
  { destruct input as [i|].
    - destruct Hi as (H1&H2&H3). assert (Hii : In i ins) by (apply Hins; auto).
      destruct ins as [|k1 [|k2 r]]; [destruct Hii|destruct Hii as [->|[]]; reflexivity|].
      destruct H3 as [->|H3]; [now rewrite (proj2 (mem_str_In _ _) Hii)|].
      exfalso. assert (k1 = i) by (apply H3; apply Hins; now left). assert (k2 = i) by (apply H3; apply Hins; right; now left).
      subst. inversion Nins as [|? ? Hn _]. apply Hn. now left.
    - destruct Hi as [H1 _]. destruct Hkex as (k&Hk).
      assert (Ei : ins = []). { destruct ins as [|k1 r]; [reflexivity|]. destruct (proj1 (Hins k1) (or_introl eq_refl)) as [G1 G2]. elim G2. now apply H1. }
      rewrite Ei. destruct t0 as [|a b] eqn:Et; [|reflexivity]. exfalso. assert (X : In k []) by (apply Ht0; auto). destruct X. }
  rewrite Ein. cbn [bind].
  set (mapped := filter (fun k => negb match input with Some i => String.eqb k i | None => false end) ks).
  assert (Hm : forall k, In k mapped <-> copy_target s input k).
  { intros k. unfold mapped. rewrite filter_In, Hks, negb_true_iff. unfold copy_target. destruct input as [i|]; [rewrite String.eqb_neq|]; split; intros [G1 G2]; split; congruence. }
  assert (Ea : (if mem_str "data" mapped then assert_ (negb (mem_str "classes" mapped)) else Ok tt) = Ok tt).
  { destruct (mem_str "data" mapped) eqn:Ed; [|reflexivity]. apply mem_str_In, Hm in Ed.
    assert (X : mem_str "classes" mapped = false) by (apply mem_str_not; rewrite Hm; now apply Hc). now rewrite X. }
  rewrite Ea. cbn [bind]. eexists _, _, _. reflexivity.
Qed.

Lemma dump_ok {A} (s : @source A) input start_seq end_seq : NoDup (s_keys s) -> NoDup (s_targets s) ->
  match input with Some i => is_input_key s i | None => (forall k, kept s k -> In k (s_targets s)) /\ exists k, kept s k end ->
  (copy_target s input "data" -> ~ copy_target s input "classes") ->
  start_seq < length (s_seqs s) -> match end_seq with Some e => start_seq < e | None => True end ->
  Forall (fun x => forall k, kept s k -> dget (snd x) k <> None) (s_seqs s) ->
  exists f, dump_from_dataset s start_seq end_seq = Ok f.
Proof.
  intros Nk Nt Hi Hc Hst He Hall. destruct (choose_ok s input Nk Hi Hc) as (targets&keys&name&Hch).
  destruct (choose_spec s Nk Nt input targets keys name Hch) as (_&Nkeys&Hkeys&Ntg&Htg&_).
  unfold dump_from_dataset. rewrite Hch. cbn [bind]. cbv zeta.
  set (xs := match end_seq with None => skipn start_seq (s_seqs s) | Some e => pyslice (s_seqs s) start_seq (S e) end).
  assert (Hxs : incl xs (s_seqs s)).
  { unfold xs. intros x Hx. destruct end_seq; [now apply In_pyslice in Hx|now apply In_skipn in Hx]. }
  assert (Hne : length xs <> 0).
  { unfold xs. destruct end_seq; [|rewrite skipn_length; lia]. unfold pyslice. rewrite firstn_length, skipn_length. lia. }
  assert (E1 : match s_known s, end_seq with
            | true, None => assert_ (start_seq <? length (s_seqs s))
            | true, Some e => assert_ (start_seq <? Nat.min (length (s_seqs s)) e)
            | false, Some e => assert_ (start_seq <? e)
            | false, None => Ok tt
            end = Ok tt).
  { destruct (s_known s), end_seq as [e|]; try reflexivity; (rewrite (proj2 (Nat.ltb_lt _ _)); [reflexivity|lia]). }
  rewrite E1. cbn [bind]. rewrite (proj2 (Nat.eqb_neq _ _) Hne). cbn [negb assert_ bind].
  set (cols := (match input with Some i => [i] | None => [] end) ++ sort_names targets).
  assert (Hcols : Permutation cols keys).
  { apply NoDup_Permutation; [|exact Nkeys|].
    - unfold cols. apply NoDup_app_intro2; [destruct input; repeat constructor; auto|now apply NoDup_sort|].
      intros k Hk1 Hk2. rewrite sort_names_In, Htg in Hk2. destruct input as [i|]; [|destruct Hk1]. destruct Hk1 as [->|[]]. now destruct Hk2.
    - intros k. unfold cols. rewrite in_app_iff, sort_names_In, Htg, Hkeys. unfold copy_target. destruct input as [i|].
      + cbn [In]. destruct (string_dec i k) as [->|Hn]; [split; [intros _; apply Hi|intros; left; now left]|]. split; [intros [[?|[]]|[? _]]; [contradiction|assumption]|].
        intros Hk. right. split; [exact Hk|congruence].
      + cbn [In]. split; [intros [[]|[? _]]; assumption|intros Hk; right; split; [exact Hk|discriminate]]. }
  assert (Hget : forall x k, In x xs -> In k keys -> exists l, seq_frames x k = Ok l).
  { intros x k Hx Hk. unfold seq_frames. pose proof (proj1 (Forall_forall _ _) Hall x (Hxs _ Hx) k (proj1 (Hkeys k) Hk)) as Hn.
    destruct (dget (snd x) k); [eauto|congruence]. }
  assert (mapM_total : forall {T U} (f : T -> res U) l, (forall x, In x l -> exists y, f x = Ok y) -> exists ys, mapM f l = Ok ys /\ length ys = length l).
  { clear. intros T U f l. induction l as [|x l IH]; intros H; [exists []; split; reflexivity|]. destruct (H x (or_introl eq_refl)) as (y&Ey).
    destruct IH as (ys&Eys&El); [intros z Hz; apply H; now right|]. exists (y :: ys). cbn [mapM]. rewrite Ey. cbn [bind]. rewrite Eys. cbn. now rewrite El. }
  assert (E2 : exists lens, mapM (fun x => let* ls := mapM (fun k => let* l := seq_frames x k in Ok (length l)) cols in
      let* _ := if length ls =? length keys then Ok tt else Err TypeError in Ok ls) xs = Ok lens).
  { destruct (mapM_total _ _ (fun x => let* ls := mapM (fun k => let* l := seq_frames x k in Ok (length l)) cols in
      let* _ := if length ls =? length keys then Ok tt else Err TypeError in Ok ls) xs) as (lens&E&_); [|eauto].
    intros x Hx. destruct (mapM_total _ _ (fun k => let* l := seq_frames x k in Ok (length l)) cols) as (ls&E&El).
    - intros k Hk. assert (Hk' : In k keys) by (eapply Permutation_in; [exact Hcols|exact Hk]). destruct (Hget x k Hx Hk') as (l&->). cbn. eauto.
    - rewrite E. cbn [bind]. rewrite El, (Permutation_length Hcols), Nat.eqb_refl. cbn. eauto. }
  destruct E2 as (lens&->). cbn [bind].
  destruct (mapM_total _ _ (fun k => let* l := mapM (fun x => seq_frames x k) xs in Ok (k, concat l)) keys) as (datas&E3&_).
  - intros k Hk. destruct (mapM_total _ _ (fun x => seq_frames x k) xs) as (l&El&_); [intros x Hx; now apply Hget|]. rewrite El. cbn. eauto.
  - rewrite E3. cbn [bind]. eauto.
Qed.
