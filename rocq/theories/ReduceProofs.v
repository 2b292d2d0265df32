(** Proofs about the model of reductions. *)
From Verif Require Import Base ListLemmas TensorModel TensorSpec TensorProofs MatmulModel MatmulSpec MatmulProofs ReduceModel ReduceSpec.
Local Open Scope nat_scope.

Lemma truth_of_bool b : truth (of_bool b) = b.
Proof. destruct b; reflexivity. Qed.
Lemma subset_spec a b : subset a b = true <-> incl (bases a) (bases b).
Proof.
  unfold subset. rewrite forallb_forall. split.
  - intros H c Hc. unfold bases in Hc. apply in_map_iff in Hc as (d & <- & Hd). apply mem_In, H, Hd.
  - intros H d Hd. apply mem_In, H, In_base, Hd.
Qed.
Lemma range_well size d : well size (range_over size d).
Proof. split; [reflexivity|]. split; [apply tabulate_len|]. cbn. constructor; [intros []|constructor]. Qed.
Lemma range_value size d env : env (d_base d) < size (d_base d) -> value (range_over size d) env = Z.of_nat (env (d_base d)).
Proof. intros H. unfold value, range_over. cbn [dims traw bases map]. rewrite at_tabulate; [reflexivity|]. constructor; [exact H|constructor]. Qed.
Lemma inside_incl size env a b : inside size env b -> incl (bases a) (bases b) -> inside size env a.
Proof. unfold inside. rewrite !Forall_forall. intros H Hi c Hc. apply H, Hi, Hc. Qed.
Lemma well_data size t : well size t -> (forall c, In c (bases (dims t)) -> 0 < size c) -> data (traw t) <> [].
Proof.
  intros (Hs & Hd & _) Hp E. rewrite Hs, E in Hd. cbn [length] in Hd. revert Hd. generalize (bases (dims t)) Hp. intros l. induction l as [|c l IH]; intros Hp'; cbn [map].
  - rewrite prod_nil. discriminate.
  - rewrite prod_cons. intros H. symmetry in H. apply Nat.eq_mul_0 in H as [H|H]; [specialize (Hp' c (or_introl eq_refl)); lia|]. apply IH; [intros x Hx; apply Hp'; right; exact Hx|symmetry; exact H].
Qed.

Lemma forallb_ext' {A} (f g : A -> bool) l : (forall x, In x l -> f x = g x) -> forallb f l = forallb g l.
Proof. induction l as [|x l IH]; intros H; [reflexivity|]. cbn. rewrite IH by (intros; apply H; right; assumption). rewrite H by (left; reflexivity). reflexivity. Qed.

Section Masks.
Variables (size : nat -> nat) (dyn : nat -> option tensor) (rank : nat -> nat).
Hypothesis Hok : lengths_ok size dyn rank.

(** a mask that is right where the lengths are *)
Definition a_mask (d : dim) (t m : tensor) : Prop :=
  well size m /\ (forall c, In c (bases (dims m)) <-> c = d_base d \/ In c (bases (dims t))) /\
  forall env, inside size env (dims m) -> all_in dyn (bases (dims t)) env = true -> truth (value m env) = in_sequence dyn env (d_base d).

Lemma copy_masked_ok mask t v : well size t ->
  (forall x l, In x (dims t) -> dyn (d_base x) = Some l -> incl (bases (dims l)) (bases (dims t)) -> exists m, mask x = Ok m /\ a_mask x l m) ->
  exists s, copy_masked mask dyn t v = Ok s /\ well size s /\ (forall c, In c (bases (dims s)) <-> In c (bases (dims t))) /\
    forall env, inside size env (dims t) -> all_in dyn (bases (dims t)) env = true -> value s env = value t env.
Proof.
  intros Ht Hm. unfold copy_masked. set (axes := filter _ (dims t)).
  assert (HA : forall x, In x axes -> exists l m, In x (dims t) /\ dyn (d_base x) = Some l /\ incl (bases (dims l)) (bases (dims t)) /\ mask x = Ok m /\ a_mask x l m).
  { intros x Hx. unfold axes in Hx. apply filter_In in Hx as [Hx E]. apply andb_true_iff in E as [E1 E2]. destruct (dyn (d_base x)) as [l|] eqn:El; [|discriminate].
    apply subset_spec in E2. destruct (Hm x l Hx El E2) as (m & Em & Hmm). exists l, m. auto. }
  clearbody axes.
  (* what a mask gives *)
  assert (HG : forall x, In x axes -> exists m, mask x = Ok m /\ well size m /\ incl (bases (dims m)) (bases (dims t)) /\
     forall env, inside size env (dims t) -> all_in dyn (bases (dims t)) env = true -> truth (value m env) = true).
  { intros x Hx. destruct (HA x Hx) as (l & m & Hin & El & Hi & Em & (Hw & Hc & Hv)). exists m. split; [exact Em|]. split; [exact Hw|].
    assert (Hinc : incl (bases (dims m)) (bases (dims t))). { intros c H. apply Hc in H as [->|H]; [apply In_base, Hin|apply Hi, H]. }
    split; [exact Hinc|]. intros env Hins Hall. unfold all_in in *. rewrite forallb_forall in Hall. rewrite Hv.
    - apply Hall, In_base, Hin.
    - eapply inside_incl; eassumption.
    - apply forallb_forall. intros c H. apply Hall, Hi, H. }
  clear HA Hm. destruct axes as [|x axes].
  - exists t. repeat split; try apply Ht; auto.
  - destruct (HG x (or_introl eq_refl)) as (m & Em & Hm). rewrite Em. cbn [bind].
    assert (HF : exists m', fold_left (fun m x => let* m := m in let* m' := mask x in combine_tensors (fun a b => of_bool (truth a && truth b)) m m' (Some true) None) axes (Ok m) = Ok m' /\
      well size m' /\ incl (bases (dims m')) (bases (dims t)) /\ forall env, inside size env (dims t) -> all_in dyn (bases (dims t)) env = true -> truth (value m' env) = true).
    { assert (HG' : forall y, In y axes -> _) by (intros y Hy; exact (HG y (or_intror Hy))). clear HG Em. revert m Hm. induction axes as [|y axes IH]; intros m Hm; cbn [fold_left].
      - exists m. split; [reflexivity|exact Hm].
      - cbn [bind]. destruct (HG' y (or_introl eq_refl)) as (m2 & Em2 & Hw2 & Hi2 & Hv2). rewrite Em2. cbn [bind]. destruct Hm as (Hw & Hi & Hv).
        destruct (combine_ok size (fun a b => of_bool (truth a && truth b)) m m2 (Some true) None Hw Hw2 (or_intror eq_refl)) as (m3 & E3 & (Hw3 & Hc3 & Hv3) & _).
        rewrite E3. apply IH; [intros z Hz; apply HG'; right; exact Hz|]. split; [exact Hw3|].
        assert (Hinc : incl (bases (dims m3)) (bases (dims t))). { intros c H. apply Hc3 in H as [H|H]; [apply Hi, H|apply Hi2, H]. }
        split; [exact Hinc|]. intros env Hins Hall. rewrite Hv3 by (eapply inside_incl; eassumption). rewrite truth_of_bool, Hv, Hv2 by assumption. reflexivity. }
    destruct HF as (m' & EF & Hw' & Hi' & Hv'). rewrite EF. cbn [bind].
    destruct (combine_ok size (fun a m => where_ v m a) t m' None None Ht Hw' (or_introl (or_intror Hi'))) as (s & Es & (Hws & Hcs & Hvs) & _). exists s. split; [exact Es|]. split; [exact Hws|].
    split; [intros c; rewrite Hcs; split; [intros [H|H]; [exact H|apply Hi', H]|auto]|]. intros env Hins Hall. rewrite Hvs.
    + unfold where_. rewrite Hv' by assumption. reflexivity.
    + eapply inside_incl; [exact Hins|]. intros c H. apply Hcs in H as [H|H]; [exact H|apply Hi', H].
Qed.
Lemma mask_ok fuel : forall d order t, rank (d_base d) < fuel -> dyn (d_base d) = Some t -> (forall c, In c (bases (dims t)) -> 0 < size c) ->
  exists m, get_mask fuel size dyn d order = Ok m /\ a_mask d t m.
Proof.
  induction fuel as [|fuel IH]; intros d order t Hr Et Hp; [lia|]. cbn [get_mask]. rewrite Et. pose proof (len_well _ _ _ Hok _ _ Et) as Ht.
  destruct (data (traw t)) as [|n ns] eqn:Ed; [exfalso; exact (well_data _ _ Ht Hp Ed)|].
  destruct (copy_masked_ok (fun x => get_mask fuel size dyn x (dims t)) t (fold_left Z.max ns n) Ht) as (s & Es & Hws & Hcs & Hvs).
  { intros x l Hx El Hi. apply IH; [|exact El|intros c Hc; apply Hp, Hi, Hc]. pose proof (len_nested _ _ _ Hok _ _ (d_base x) Et (In_base _ _ Hx)). lia. }
  rewrite Es. cbn [bind].
  destruct (combine_ok size (fun i n => of_bool (i <? n)%Z) (range_over size d) s (Some true) (Some (filter (fun x => mem x (dims t ++ [d])) order)) (range_well size d) Hws (or_intror eq_refl)) as (m & Em & (Hwm & Hcm & Hvm) & _).
  exists m. split; [exact Em|]. split; [exact Hwm|]. split.
  - intros c. rewrite Hcm, Hcs. cbn. intuition.
  - intros env Hins Hall. rewrite Hvm by exact Hins. rewrite truth_of_bool, range_value, Hvs; [unfold in_sequence; rewrite Et; reflexivity| |exact Hall|].
    + eapply inside_incl; [exact Hins|]. intros c Hc. apply Hcm. right. apply Hcs, Hc.
    + unfold inside in Hins. rewrite Forall_forall in Hins. apply Hins, Hcm. left. left. reflexivity.
Qed.

Lemma get_base ds d dflt : In (d_base d) (bases ds) -> d_base (nth (dim_index ds d) ds dflt) = d_base d.
Proof.
  induction ds as [|o ds IH]; intros H; [destruct H|]. cbn [dim_index]. destruct (deq d o) eqn:E; [apply deq_eq in E; symmetry; exact E|]. cbn [nth]. apply IH. destruct H as [H|H]; [|exact H].
  assert (deq d o = true) by (apply deq_eq; auto). congruence.
Qed.
Lemma no_mask_in d env : need_masking dyn d = false -> env (d_base d) < size (d_base d) -> in_sequence dyn env (d_base d) = true.
Proof.
  unfold need_masking, in_sequence. destruct (dyn (d_base d)) as [t|] eqn:E; [|reflexivity]. intros H Hi. apply Nat.ltb_ge in H. destruct (dims t) eqn:Ed; [|cbn in H; lia].
  rewrite (len_scalar _ _ _ Hok _ _ env E Ed). apply Z.ltb_lt. lia.
Qed.
Lemma mask_axis_ok fuel v ds r d : rank (d_base d) < fuel -> well size {| dims := ds; traw := r |} -> In (d_base d) (bases ds) ->
  (forall t, dyn (d_base d) = Some t -> incl (bases (dims t)) (bases ds)) -> (forall c, In c (bases ds) -> 0 < size c) ->
  exists r' b, mask_axis fuel size dyn v ds r d = Ok r' /\ well size {| dims := ds; traw := r' |} /\
    forall env, inside size env ds -> value {| dims := ds; traw := r' |} env = (if b env : bool then value {| dims := ds; traw := r |} env else v) /\
      ((forall t, dyn (d_base d) = Some t -> all_in dyn (bases (dims t)) env = true) -> b env = in_sequence dyn env (d_base d)).
Proof.
  intros Hr Hw Hd Hl Hp. pose proof Hw as (Hs & Hda & Hn). cbn [dims traw] in *. unfold mask_axis. destruct (need_masking dyn d) eqn:En.
  - rewrite (axis_of_index ds d Hn Hd). cbn [bind]. pose proof (get_base ds d d Hd) as Eb. set (tag := nth (dim_index ds d) ds d) in *. clearbody tag. rewrite Eb.
    destruct (dyn (d_base d)) as [t|] eqn:Et; [|unfold need_masking in En; rewrite Et in En; discriminate]. rewrite (proj2 (subset_spec (dims t) ds) (Hl t eq_refl)). cbn [assert_ bind].
    destruct (mask_ok fuel tag ds t) as (m & Em & (Hwm & Hcm & Hvm)); [rewrite Eb; exact Hr|rewrite Eb; exact Et|intros c Hc; apply Hp, (Hl t eq_refl), Hc|].
    rewrite Em. cbn [bind]. rewrite Eb in *.
    assert (Hinc : incl (bases (dims m)) (bases ds)). { intros c H. apply Hcm in H as [->|H]; [exact Hd|apply (Hl t eq_refl), H]. }
    destruct (compatible_ok size m ds Hwm Hn Hinc) as (mr & Emr & Hst & Hlen). rewrite Emr. cbn [bind].
    destruct (stands_self size {| dims := ds; traw := r |} Hw) as (Hself & Hlself). cbn [dims traw] in *.
    destruct (map2_ok size (where_ v) ds (dims m) ds (value m) (value {| dims := ds; traw := r |}) mr r Hst Hself (or_introl Hlen)) as (r' & Er & Hs' & Hd' & Hv'); [auto|].
    exists r', (fun env => truth (value m env)). split; [exact Er|]. split; [repeat split; assumption|]. intros env Hi. split.
    + unfold value at 1. cbn [dims traw]. rewrite Hv' by exact Hi. reflexivity.
    + intros Ht. apply Hvm; [eapply inside_incl; eassumption|apply Ht; reflexivity].
  - exists r, (fun _ => true). split; [reflexivity|]. split; [exact Hw|]. intros env Hi. split; [reflexivity|]. intros _. symmetry. apply no_mask_in; [exact En|].
    unfold inside in Hi. rewrite Forall_forall in Hi. apply Hi, Hd.
Qed.
Lemma mask_axes_ok fuel v ds axis : forall r, (forall d, In d axis -> rank (d_base d) < fuel) -> well size {| dims := ds; traw := r |} -> incl (bases axis) (bases ds) ->
  (forall c t, In c (bases axis) -> dyn c = Some t -> incl (bases (dims t)) (bases ds)) -> (forall c, In c (bases ds) -> 0 < size c) ->
  exists r' b, fold_left (fun r d => let* r := r in mask_axis fuel size dyn v ds r d) axis (Ok r) = Ok r' /\ well size {| dims := ds; traw := r' |} /\
    forall env, inside size env ds -> value {| dims := ds; traw := r' |} env = (if forallb (fun c => b c env) (bases axis) then value {| dims := ds; traw := r |} env else v) /\
      forall c, In c (bases axis) -> (forall t, dyn c = Some t -> all_in dyn (bases (dims t)) env = true) -> b c env = in_sequence dyn env c.
Proof.
  induction axis as [|d axis IH]; intros r Hr Hw Hi Hl Hp; cbn [fold_left].
  - exists r, (fun _ _ => true). split; [reflexivity|]. split; [exact Hw|]. intros env Hins. split; [reflexivity|]. intros c [].
  - cbn [bind]. destruct (mask_axis_ok fuel v ds r d) as (r1 & b1 & E1 & Hw1 & H1); try assumption; [apply Hr; left; reflexivity|apply Hi; left; reflexivity|intros t Et; apply (Hl (d_base d) t); [left; reflexivity|exact Et]|].
    rewrite E1. destruct (IH r1) as (r2 & b2 & E2 & Hw2 & H2); [intros x Hx; apply Hr; right; exact Hx|exact Hw1|intros c Hc; apply Hi; right; exact Hc|intros c t Hc; apply Hl; right; exact Hc|exact Hp|].
    exists r2. destruct (in_dec Nat.eq_dec (d_base d) (bases axis)) as [Hin|Hnin].
    + (* the same dim twice: both masks *)
      exists (fun c env => b2 c env && (if c =? d_base d then b1 env else true)). split; [exact E2|]. split; [exact Hw2|]. intros env Hins. destruct (H1 env Hins) as [V1 B1]. destruct (H2 env Hins) as [V2 B2]. split.
      * rewrite V2, V1. change (bases (d :: axis)) with (d_base d :: bases axis). cbn [forallb]. rewrite Nat.eqb_refl.
        assert (E : forallb (fun c => b2 c env && (if c =? d_base d then b1 env else true)) (bases axis) = forallb (fun c => b2 c env) (bases axis) && b1 env).
        { apply eq_true_iff_eq. rewrite andb_true_iff, !forallb_forall. split.
          - intros H. split; [intros c Hc; apply H, andb_true_iff in Hc as [Hc _]; exact Hc|]. specialize (H _ Hin). rewrite Nat.eqb_refl in H. apply andb_true_iff in H as [_ H]. exact H.
          - intros [Ha Hb] c Hc. rewrite Ha by exact Hc. cbn. destruct (c =? d_base d); auto. }
        rewrite E. destruct (forallb _ (bases axis)) eqn:EF.
        -- rewrite forallb_forall in EF. rewrite (EF _ Hin). cbn. destruct (b1 env); reflexivity.
        -- rewrite andb_false_l, andb_false_r. reflexivity.
      * intros c Hc Ht. destruct (Nat.eqb_spec c (d_base d)) as [->|Ec].
        -- rewrite (B2 _ Hin Ht), (B1 Ht). apply andb_diag.
        -- destruct Hc as [Hc|Hc]; [congruence|]. rewrite (B2 _ Hc Ht). apply andb_true_r.
    + exists (fun c env => if c =? d_base d then b1 env else b2 c env). split; [exact E2|]. split; [exact Hw2|]. intros env Hins. destruct (H1 env Hins) as [V1 B1]. destruct (H2 env Hins) as [V2 B2]. split.
      * rewrite V2, V1. change (bases (d :: axis)) with (d_base d :: bases axis). cbn [forallb]. rewrite Nat.eqb_refl.
        assert (E : forallb (fun c => if c =? d_base d then b1 env else b2 c env) (bases axis) = forallb (fun c => b2 c env) (bases axis)).
        { apply forallb_ext'. intros c Hc. destruct (Nat.eqb_spec c (d_base d)) as [->|]; [contradiction|reflexivity]. }
        rewrite E. destruct (forallb _ (bases axis)), (b1 env); reflexivity.
      * intros c Hc Ht. destruct (Nat.eqb_spec c (d_base d)) as [->|Ec]; [apply B1, Ht|]. destruct Hc as [Hc|Hc]; [congruence|]. apply B2; assumption.
Qed.
(** the masks hold at the places that count *)
Lemma masks_agree (b : nat -> (nat -> nat) -> bool) axis env :
  (forall c, In c axis -> (forall t, dyn c = Some t -> all_in dyn (bases (dims t)) env = true) -> b c env = in_sequence dyn env c) ->
  (forall x t c, In x axis -> dyn x = Some t -> In c (bases (dims t)) -> ~ In c axis -> in_sequence dyn env c = true) -> forallb (fun c => b c env) axis = all_in dyn axis env.
Proof.
  intros Hb Hrest. apply eq_true_iff_eq. unfold all_in. rewrite !forallb_forall. split; intros H.
  - assert (G : forall n c, rank c < n -> In c axis -> in_sequence dyn env c = true).
    { induction n as [|n IH]; intros c Hn Hc; [lia|]. rewrite <- Hb; [apply H, Hc|exact Hc|]. intros t Et. apply forallb_forall. intros x Hx.
      destruct (in_dec Nat.eq_dec x axis) as [Hin|Hnin].
      - apply IH; [|exact Hin]. pose proof (len_nested _ _ _ Hok _ _ _ Et Hx). lia.
      - apply (Hrest c t); assumption. }
    intros c Hc. apply (G (S (rank c))); [lia|exact Hc].
  - intros c Hc. rewrite Hb; [apply H, Hc|exact Hc|]. intros t Et. apply forallb_forall. intros x Hx. destruct (in_dec Nat.eq_dec x axis) as [Hin|Hnin]; [apply H, Hin|].
    apply (Hrest c t); assumption.
Qed.
End Masks.

(** * All indices *)
Lemma seq_shift_n a n : seq a n = map (fun q => a + q) (seq 0 n).
Proof. revert a. induction n as [|n IH]; intros a; [reflexivity|]. cbn [seq map]. rewrite Nat.add_0_r. f_equal. rewrite IH, (IH 1), map_map. apply map_ext. intros. lia. Qed.
Lemma seq_mul n m : seq 0 (n * m) = flat_map (fun k => map (fun q => k * m + q) (seq 0 m)) (seq 0 n).
Proof.
  induction n as [|n IH]; [reflexivity|]. rewrite seq_S, flat_map_app, <- IH. cbn [flat_map]. rewrite app_nil_r. replace (S n * m) with (n * m + m) by lia. rewrite seq_app. f_equal. apply seq_shift_n.
Qed.
Lemma map_flat_map {A B C} (g : B -> C) (f : A -> list B) l : map g (flat_map f l) = flat_map (fun x => map g (f x)) l.
Proof. induction l as [|x l IH]; [reflexivity|]. cbn. rewrite map_app, IH. reflexivity. Qed.
Lemma flat_map_ext_in {A B} (f g : A -> list B) l : (forall x, In x l -> f x = g x) -> flat_map f l = flat_map g l.
Proof. induction l as [|x l IH]; intros H; [reflexivity|]. cbn. rewrite IH by (intros; apply H; right; assumption). rewrite H by (left; reflexivity). reflexivity. Qed.
Definition respectful {A} (f : (nat -> nat) -> A) : Prop := forall e e', (forall x, e x = e' x) -> f e = f e'.
Lemma places_unflat {A} size (F : (nat -> nat) -> A) : respectful F -> forall R env, NoDup R ->
  map (fun p => F (over R (unflat (map size R) p) env)) (seq 0 (prod (map size R))) = map F (places size R env).
Proof.
  intros HF. induction R as [|d R IH]; intros env Hn; cbn [map places].
  - rewrite prod_nil. cbn [seq map]. apply f_equal2; [apply HF; reflexivity|reflexivity].
  - apply NoDup_cons_iff in Hn as [Hd Hn]. rewrite prod_cons, seq_mul, !map_flat_map. apply flat_map_ext_in. intros k Hk. apply in_seq in Hk. rewrite map_map, <- IH by exact Hn. apply map_ext_in. intros q Hq. apply in_seq in Hq. apply HF. intros x.
    rewrite unflat_cons. rewrite Nat.div_add_l by lia. rewrite Nat.div_small by lia. rewrite Nat.add_0_r, Nat.add_comm, Nat.mod_add, Nat.mod_small by lia.
    unfold over, with_index. cbn. fold (inb x R). destruct (Nat.eqb_spec x d) as [->|E]; cbn [orb].
    + apply inb_false in Hd. rewrite Hd. reflexivity.
    + reflexivity.
Qed.
Lemma places_respects {A} size (F : (nat -> nat) -> A) : respectful F -> forall R, respectful (fun env => map F (places size R env)).
Proof.
  intros HF. induction R as [|d R IH]; intros e e' He; cbn [places map].
  - f_equal. apply HF, He.
  - rewrite !map_flat_map. apply flat_map_ext_in. intros k _. apply IH. intros x. unfold with_index. destruct (x =? d); auto.
Qed.
Lemma flat_map_perm {A B} (f g : A -> list B) l : (forall x, In x l -> Permutation (f x) (g x)) -> Permutation (flat_map f l) (flat_map g l).
Proof. induction l as [|x l IH]; intros H; [constructor|]. cbn. apply Permutation_app; [apply H; left; reflexivity|apply IH; intros; apply H; right; assumption]. Qed.
Lemma flat_map_nil' {A B} (l : list A) : flat_map (fun _ => @nil B) l = [].
Proof. induction l; auto. Qed.
Lemma flat_map_split {A B} (f g : A -> list B) l : Permutation (flat_map (fun x => f x ++ g x) l) (flat_map f l ++ flat_map g l).
Proof.
  induction l as [|x l IH]; [constructor|]. cbn. rewrite <- !app_assoc. apply Permutation_app_head. rewrite IH. rewrite !app_assoc. apply Permutation_app_tail, Permutation_app_comm.
Qed.
Lemma flat_map_swap {A B C} (f : A -> B -> list C) la lb : Permutation (flat_map (fun a => flat_map (fun b => f a b) lb) la) (flat_map (fun b => flat_map (fun a => f a b) la) lb).
Proof.
  induction la as [|a la IH]; cbn [flat_map].
  - rewrite flat_map_nil'. reflexivity.
  - rewrite IH. symmetry. apply flat_map_split.
Qed.
Lemma places_perm {A} size (F : (nat -> nat) -> A) l l' : respectful F -> Permutation l l' -> NoDup l -> forall env, Permutation (map F (places size l env)) (map F (places size l' env)).
Proof.
  intros HF HP. induction HP as [|x l l' HP IH|x y l|l l' l'' HP1 IH1 HP2 IH2]; intros Hn env.
  - reflexivity.
  - cbn [places]. rewrite !map_flat_map. apply flat_map_perm. intros k _. apply IH. now inversion Hn.
  - cbn [places]. rewrite !map_flat_map. erewrite flat_map_ext_in by (intros k _; apply map_flat_map). erewrite (flat_map_ext_in (fun z => map F (flat_map _ _))) by (intros k _; apply map_flat_map).
    rewrite flat_map_swap. apply flat_map_perm. intros k _. apply flat_map_perm. intros j _. rewrite (places_respects size F HF l _ (with_index (with_index env x k) y j)); [reflexivity|]. intros z. unfold with_index.
    destruct (Nat.eqb_spec z x), (Nat.eqb_spec z y); try reflexivity. subst. exfalso. inversion Hn; subst. apply H1. left. reflexivity.
  - rewrite IH1 by exact Hn. apply IH2. eapply Permutation_NoDup; eassumption.
Qed.
Lemma places_inside size R : forall env e, In e (places size R env) -> (forall c, In c R -> NoDup R -> e c < size c) /\ (forall c, ~ In c R -> e c = env c).
Proof.
  induction R as [|d R IH]; intros env e H; cbn [places] in H.
  - destruct H as [<-|[]]. split; [intros c []|reflexivity].
  - apply in_flat_map in H as (k & Hk & H). apply in_seq in Hk. destruct (IH _ _ H) as [H1 H2]. split.
    + intros c Hc Hn. apply NoDup_cons_iff in Hn as [Hd Hn]. destruct Hc as [<-|Hc]; [|apply H1; assumption]. rewrite H2 by exact Hd. unfold with_index. rewrite Nat.eqb_refl. lia.
    + intros c Hc. rewrite H2 by (intros X; apply Hc; right; exact X). unfold with_index. destruct (Nat.eqb_spec c d) as [->|]; [exfalso; apply Hc; left; reflexivity|reflexivity].
Qed.
Lemma value_respectful t : respectful (value t).
Proof. intros e e' H. apply value_respects. exact H. Qed.

(** * The raw reduction *)
Lemma nth_pos_map (g : nat -> nat) a l : In a l -> nth (pos a l) (map g l) 0 = g a.
Proof. intros H. rewrite (nth_indep _ 0 (g 0)) by (rewrite map_length; apply pos_lt, H). rewrite map_nth, pos_nth_In by exact H. reflexivity. Qed.
Lemma reduce_axes_ok size f t R : well size t -> NoDup (bases R) -> incl (bases R) (bases (dims t)) ->
  let r := {| dims := rest t R; traw := reduce_axes f (traw t) (map (dim_index (dims t)) R) |} in
  well size r /\ forall env, inside size env (rest t R) -> value r env = f (map (value t) (places size (bases R) env)).
Proof.
  intros (Hs & Hda & Hn) HR Hi r. assert (Hlen : length (shape (traw t)) = length (dims t)) by (rewrite Hs, map_length, bases_len; reflexivity).
  assert (Erest : filter (fun a => negb (inb a (map (dim_index (dims t)) R))) (seq 0 (length (shape (traw t)))) = map (dim_index (dims t)) (rest t R)).
  { rewrite Hlen, filter_axes by exact Hn. f_equal. unfold rest. apply filter_ext_in. intros d Hd. rewrite inb_axes; [reflexivity|apply In_base, Hd|exact Hi]. }
  assert (Hir : incl (bases (rest t R)) (bases (dims t))). { intros c Hc. apply in_filter_bases in Hc as (d & <- & Hd & _). apply In_base, Hd. }
  assert (Es : axes_shape (shape (traw t)) (map (dim_index (dims t)) (rest t R)) = map size (bases (rest t R))) by (rewrite Hs; apply axes_size, Hir).
  assert (Ea : axes_shape (shape (traw t)) (map (dim_index (dims t)) R) = map size (bases R)) by (rewrite Hs; apply axes_size, Hi).
  unfold r, reduce_axes. rewrite Erest, Es, Ea. split.
  - split; [reflexivity|]. split; [apply tabulate_len|]. cbn [dims]. apply NoDup_bases_filter, Hn.
  - intros env Hins. unfold value at 1. cbn [dims traw]. rewrite at_tabulate by (apply inside_indexes, Hins). f_equal.
    rewrite <- (places_unflat size (value t) (value_respectful t) (bases R) env HR). apply map_ext. intros p. rewrite <- (value_over t R _ env Hn Hi). f_equal. rewrite Hlen. apply map_ext_in. intros a Ha. unfold over. destruct (inb a (map (dim_index (dims t)) R)) eqn:E; [reflexivity|].
    rewrite <- (map_by_axis (dims t) env (rest t R) Hir). apply nth_pos_map. rewrite <- Erest, Hlen. apply filter_In. split; [exact Ha|]. rewrite E. reflexivity.
Qed.

(** * The whole reduction *)
Lemma prod_pos l : (forall n, In n l -> 0 < n) -> prod l <> 0.
Proof. induction l as [|n l IH]; intros H; [rewrite prod_nil; discriminate|]. rewrite prod_cons. apply Nat.neq_mul_0. split; [specialize (H n (or_introl eq_refl)); lia|apply IH; intros x Hx; apply H; right; exact Hx]. Qed.
Lemma rest_dims source axis : NoDup (bases (dims source)) -> incl (bases axis) (bases (dims source)) ->
  map snd (filter (fun '(i, _) => negb (inb i (map (dim_index (dims source)) axis))) (enumerated (dims source))) = rest source axis.
Proof.
  intros Hn Hi. rewrite enumerated_index by exact Hn. rewrite filter_of_map, map_map. cbn [snd]. rewrite map_id. unfold rest. apply filter_ext_in. intros d Hd. rewrite inb_axes; [reflexivity|apply In_base, Hd|exact Hi].
Qed.
Lemma in_rest c source axis : In c (bases (rest source axis)) <-> In c (bases (dims source)) /\ ~ In c (bases axis).
Proof.
  split.
  - intros H. apply in_filter_bases in H as (d & <- & Hd & E). split; [apply In_base, Hd|]. intros Hx. apply mem_In in Hx. rewrite Hx in E. discriminate.
  - intros [H Hx]. unfold bases in H. apply in_map_iff in H as (d & <- & Hd). apply In_base. unfold rest. apply filter_In. split; [exact Hd|]. destruct (mem d axis) eqn:E; [apply mem_In in E; contradiction|reflexivity].
Qed.
Lemma places_in_source size source axis env e : NoDup (bases axis) -> incl (bases axis) (bases (dims source)) -> inside size env (rest source axis) -> In e (places size (bases axis) env) -> inside size e (dims source).
Proof.
  intros Hn Hi Hins He. destruct (places_inside size _ _ _ He) as [H1 H2]. unfold inside in *. rewrite Forall_forall in *. intros c Hc. destruct (in_dec Nat.eq_dec c (bases axis)) as [Hin|Hnin]; [apply H1; assumption|].
  rewrite H2 by exact Hnin. apply Hins, in_rest. auto.
Qed.
Lemma reduce_core size dyn rank fuel lo hi m source axis (use_mask : bool) : lengths_ok size dyn rank -> reducible size dyn source axis -> (forall d, In d axis -> rank (d_base d) < fuel) ->
  (picks m = true -> length axis = 1 \/ rest source axis = []) ->
  exists src r, reduce fuel size dyn lo hi m source axis use_mask = Ok r /\ well size r /\ dims r = rest source axis /\
    (forall env, inside size env (dims source) -> (use_mask = true -> settled dyn axis env) ->
      value src env = if negb use_mask || all_in dyn (bases axis) env then value source env else mask_value lo hi m) /\
    (forall env, inside size env (rest source axis) -> exists L, value r env = reduce_list m L /\ Permutation L (map (value src) (places size (bases axis) env)) /\
       (length axis = 1 -> L = map (value src) (places size (bases axis) env))).
Proof.
  intros Hok Hred Hfuel Hpick. destruct Hred as [Hw (HnA & HneA & HiA) Hlens Hsize]. pose proof Hw as (Hs & Hda & Hn). unfold reduce.
  assert (Eraw : mapM (axis_of (dims source)) axis = Ok (map (dim_index (dims source)) axis)).
  { apply mapM_ok_map. intros d Hd. apply axis_of_index; [exact Hn|]. apply HiA, In_base, Hd. }
  rewrite Eraw. cbn [bind]. rewrite rest_dims by assumption.
  (* the masks *)
  assert (HM : exists r1, (if use_mask && existsb (need_masking dyn) axis then fold_left (fun r d => let* r := r in mask_axis fuel size dyn (mask_value lo hi m) (dims source) r d) axis (Ok (traw source)) else Ok (traw source)) = Ok r1 /\
     well size {| dims := dims source; traw := r1 |} /\ forall env, inside size env (dims source) -> (use_mask = true -> settled dyn axis env) ->
      value {| dims := dims source; traw := r1 |} env = if negb use_mask || all_in dyn (bases axis) env then value source env else mask_value lo hi m).
  { destruct use_mask; cbn [andb negb orb].
    - destruct (existsb (need_masking dyn) axis) eqn:Ex.
      + destruct (mask_axes_ok size dyn rank Hok fuel (mask_value lo hi m) (dims source) axis (traw source) Hfuel) as (r1 & b & E1 & Hw1 & H1); [destruct source; exact Hw|exact HiA|exact Hlens|exact Hsize|].
        exists r1. split; [exact E1|]. split; [exact Hw1|]. intros env Hins Hrest. destruct (H1 env Hins) as [V B]. rewrite V.
        rewrite (masks_agree size dyn rank Hok b (bases axis) env); [destruct source; reflexivity|exact B|exact (Hrest eq_refl)].
      + exists (traw source). split; [reflexivity|]. split; [destruct source; exact Hw|]. intros env Hins _. replace (all_in dyn (bases axis) env) with true; [destruct source; reflexivity|]. symmetry. apply forallb_forall. intros c Hc. unfold bases in Hc. apply in_map_iff in Hc as (d & <- & Hd).
        eapply no_mask_in; [exact Hok| |].
        * destruct (need_masking dyn d) eqn:E; [|reflexivity]. assert (existsb (need_masking dyn) axis = true) by (apply existsb_exists; exists d; auto). congruence.
        * unfold inside in Hins. rewrite Forall_forall in Hins. apply Hins, HiA, In_base, Hd.
    - exists (traw source). split; [reflexivity|]. split; [destruct source; exact Hw|]. intros env Hins _. destruct source; reflexivity. }
  destruct HM as (r1 & E1 & Hw1 & HV). rewrite E1. cbn [bind]. set (src := {| dims := dims source; traw := r1 |}) in *. exists src.
  (* the axes *)
  set (R := if length (rest source axis) =? 0 then dims source else axis).
  assert (Eaxes : (if length (rest source axis) =? 0 then seq 0 (length (dims source)) else map (dim_index (dims source)) axis) = map (dim_index (dims src)) R).
  { unfold R. destruct (length (rest source axis) =? 0); [symmetry; apply dim_index_self, Hn|reflexivity]. }
  rewrite Eaxes.
  assert (HRn : NoDup (bases R)) by (unfold R; destruct (length (rest source axis) =? 0); assumption).
  assert (HRi : incl (bases R) (bases (dims src))) by (unfold R; destruct (length (rest source axis) =? 0); [apply incl_refl|exact HiA]).
  assert (HRr : rest src R = rest source axis).
  { unfold R. destruct (Nat.eqb_spec (length (rest source axis)) 0) as [E|E]; [|reflexivity]. apply length_zero_iff_nil in E. rewrite E. destruct (rest src (dims source)) as [|d l] eqn:Er; [reflexivity|]. exfalso.
    assert (H : In (d_base d) (bases (rest src (dims source)))) by (rewrite Er; left; reflexivity). apply in_rest in H as [H1 H2]. exact (H2 H1). }
  assert (HRp : Permutation (bases R) (bases axis)).
  { unfold R. destruct (Nat.eqb_spec (length (rest source axis)) 0) as [E|E]; [|reflexivity]. apply NoDup_Permutation; [assumption|assumption|]. intros c. split; [|apply HiA]. intros Hc. destruct (in_dec Nat.eq_dec c (bases axis)) as [H|H]; [exact H|]. exfalso.
    assert (Hx : In c (bases (rest source axis))) by (apply in_rest; auto). apply length_zero_iff_nil in E. rewrite E in Hx. exact Hx. }
  assert (Eprod : (prod (axes_shape (shape r1) (map (dim_index (dims src)) R)) =? 0) = false).
  { apply Nat.eqb_neq. destruct Hw1 as (Hs1 & _). change (traw src) with r1 in Hs1. rewrite Hs1. rewrite axes_size by exact HRi. apply prod_pos. intros n Hin. apply in_map_iff in Hin as (c & <- & Hc). apply Hsize. exact (HRi c Hc). }
  rewrite Eprod, andb_false_r.
  assert (Epick : picks m && negb (length (rest source axis) =? 0) && negb (length (map (dim_index (dims source)) axis) =? 1) = false).
  { rewrite map_length. destruct (picks m); [|reflexivity]. destruct (Hpick eq_refl) as [H|H]; rewrite H; [|reflexivity]. rewrite Nat.eqb_refl. cbn. apply andb_false_r. }
  rewrite Epick. destruct (reduce_axes_ok size (reduce_list m) src R Hw1 HRn HRi) as [Hwr Hvr]. rewrite HRr in *. eexists. split; [reflexivity|]. split; [exact Hwr|]. split; [reflexivity|]. split; [exact HV|].
  intros env Hins. exists (map (value src) (places size (bases R) env)). split; [apply Hvr, Hins|]. split; [apply places_perm; [apply value_respectful|exact HRp|exact HRn]|].
  intros Hl. f_equal. f_equal. destruct axis as [|d [|]]; try discriminate Hl. cbn in HRp. apply Permutation_sym, Permutation_length_1_inv in HRp. rewrite HRp. reflexivity.
Qed.

(** * Values that do not count *)
Definition is_arg (m : mode) : bool := match m with MArgmax | MArgmin => true | _ => false end.
Lemma sum_perm l l' : Permutation l l' -> fold_right Z.add 0%Z l = fold_right Z.add 0%Z l'.
Proof. induction 1; cbn; lia. Qed.
Lemma forallb_perm {A} (f : A -> bool) l l' : Permutation l l' -> forallb f l = forallb f l'.
Proof. intros H. apply eq_true_iff_eq. rewrite !forallb_forall. split; intros G x Hx; apply G; [apply Permutation_sym in H|]; eapply Permutation_in; eassumption. Qed.
Lemma existsb_perm {A} (f : A -> bool) l l' : Permutation l l' -> existsb f l = existsb f l'.
Proof. intros H. apply eq_true_iff_eq. rewrite !existsb_exists. split; intros (x & Hx & E); exists x; (split; [|exact E]); [|apply Permutation_sym in H]; eapply Permutation_in; eassumption. Qed.
Lemma best_spec (f : Z -> Z -> Z) (le : Z -> Z -> Prop) : (forall x y, (f x y = x \/ f x y = y) /\ le x (f x y) /\ le y (f x y)) -> (forall x, le x x) -> (forall x y z, le x y -> le y z -> le x z) ->
  forall l, l <> [] -> In (best_of f l) l /\ forall y, In y l -> le y (best_of f l).
Proof.
  intros Hf Hrefl Htr [|x l] Hne; [congruence|]. cbn [best_of]. clear Hne. revert x. induction l as [|y l IH]; intros x; cbn [fold_left].
  - split; [left; reflexivity|]. intros y [<-|[]]. apply Hrefl.
  - destruct (Hf x y) as (Hor & H1 & H2). destruct (IH (f x y)) as [Hin Hub]. split.
    + destruct Hin as [Hin|Hin]; [|right; right; exact Hin]. rewrite <- Hin. destruct Hor as [E|E]; rewrite E; [left|right; left]; reflexivity.
    + intros z [<-|[<-|Hz]]; [eapply Htr; [exact H1|apply Hub; left; reflexivity]|eapply Htr; [exact H2|apply Hub; left; reflexivity]|apply Hub; right; exact Hz].
Qed.
Lemma max_spec l : l <> [] -> In (best_of Z.max l) l /\ forall y, In y l -> (y <= best_of Z.max l)%Z.
Proof. apply best_spec; intros; lia. Qed.
Lemma min_spec l : l <> [] -> In (best_of Z.min l) l /\ forall y, In y l -> (best_of Z.min l <= y)%Z.
Proof. apply (best_spec Z.min (fun x y => (y <= x)%Z)); intros; lia. Qed.
Lemma reduced_perm m l l' x : Permutation l l' -> reduced m l x -> reduced m l' x.
Proof.
  intros HP. pose proof (Permutation_sym HP) as HP'. destruct m; cbn; intros H.
  - rewrite H. apply sum_perm, HP.
  - destruct H as [H1 H2]. split; [eapply Permutation_in; eassumption|]. intros y Hy. apply H2. eapply Permutation_in; eassumption.
  - destruct H as [H1 H2]. split; [eapply Permutation_in; eassumption|]. intros y Hy. apply H2. eapply Permutation_in; eassumption.
  - rewrite H. f_equal. apply forallb_perm, HP.
  - rewrite H. f_equal. apply existsb_perm, HP.
  - exact H.
  - exact H.
Qed.
Lemma reduce_list_ok m l : is_arg m = false -> (picks m = true -> l <> []) -> reduced m l (reduce_list m l).
Proof. destruct m; cbn; intros Ha Hp; try discriminate; try reflexivity; [apply max_spec, Hp; reflexivity|apply min_spec, Hp; reflexivity]. Qed.
(** the mask value changes nothing *)
Lemma masked_reduced {A} lo hi m (ok : A -> bool) (val : A -> Z) P x : 
  (picks m = true -> filter ok P <> [] /\ forall a, In a P -> ok a = true -> (lo <= val a <= hi)%Z) ->
  reduced m (map (fun a => if ok a then val a else mask_value lo hi m) P) x -> reduced m (map val (filter ok P)) x.
Proof.
  intros Hp. destruct m; cbn [reduced mask_value]; try tauto.
  - intros ->. induction P as [|a P IH]; [reflexivity|]. cbn. destruct (ok a); cbn; rewrite IH by discriminate; lia.
  - destruct (Hp eq_refl) as [Hne Hb]. intros [Hin Hub]. destruct (filter ok P) as [|a0 l0] eqn:EF; [congruence|]. rewrite <- EF. assert (H0 : In a0 (filter ok P)) by (rewrite EF; left; reflexivity). apply filter_In in H0 as [Ha0 Hoka0].
    assert (Hle : forall a, In a P -> ok a = true -> (val a <= x)%Z). { intros a Ha Eo. apply Hub. apply in_map_iff. exists a. rewrite Eo. auto. }
    split.
    + apply in_map_iff in Hin as (a & E & Ha). destruct (ok a) eqn:Eo.
      * apply in_map_iff. exists a. split; [exact E|]. apply filter_In. auto.
      * apply in_map_iff. exists a0. split; [|apply filter_In; auto]. specialize (Hle a0 Ha0 Hoka0). specialize (Hb a0 Ha0 Hoka0). lia.
    + intros y Hy. apply in_map_iff in Hy as (a & <- & Ha). apply filter_In in Ha as [Ha Eo]. apply Hle; assumption.
  - destruct (Hp eq_refl) as [Hne Hb]. intros [Hin Hub]. destruct (filter ok P) as [|a0 l0] eqn:EF; [congruence|]. rewrite <- EF. assert (H0 : In a0 (filter ok P)) by (rewrite EF; left; reflexivity). apply filter_In in H0 as [Ha0 Hoka0].
    assert (Hle : forall a, In a P -> ok a = true -> (x <= val a)%Z). { intros a Ha Eo. apply Hub. apply in_map_iff. exists a. rewrite Eo. auto. }
    split.
    + apply in_map_iff in Hin as (a & E & Ha). destruct (ok a) eqn:Eo.
      * apply in_map_iff. exists a. split; [exact E|]. apply filter_In. auto.
      * apply in_map_iff. exists a0. split; [|apply filter_In; auto]. specialize (Hle a0 Ha0 Hoka0). specialize (Hb a0 Ha0 Hoka0). lia.
    + intros y Hy. apply in_map_iff in Hy as (a & <- & Ha). apply filter_In in Ha as [Ha Eo]. apply Hle; assumption.
  - intros ->. f_equal. induction P as [|a P IH]; [reflexivity|]. cbn. destruct (ok a); cbn; rewrite IH by discriminate; reflexivity.
  - intros ->. f_equal. induction P as [|a P IH]; [reflexivity|]. cbn. destruct (ok a); cbn; rewrite IH by discriminate; reflexivity.
Qed.

Section Reduce.
Variables (size : nat -> nat) (dyn : nat -> option tensor) (rank : nat -> nat) (fuel : nat) (lo hi : Z) (source : tensor).
Hypothesis Hok : lengths_ok size dyn rank.

Lemma places_map src m axis env : reducible size dyn source axis -> inside size env (rest source axis) -> (forall e, In e (places size (bases axis) env) -> settled dyn axis e) ->
  (forall e, inside size e (dims source) -> (true = true -> settled dyn axis e) -> value src e = if negb true || all_in dyn (bases axis) e then value source e else mask_value lo hi m) ->
  map (value src) (places size (bases axis) env) = map (fun e => if all_in dyn (bases axis) e then value source e else mask_value lo hi m) (places size (bases axis) env).
Proof.
  intros [Hw (HnA & HneA & HiA) Hlens Hsize] Hins Hset Hv. apply map_ext_in. intros e He. apply Hv; [eapply places_in_source; eassumption|intros _; apply Hset, He].
Qed.
Lemma places_nonempty env l : (forall c, In c l -> 0 < size c) -> places size l env <> [].
Proof.
  revert env. induction l as [|d l IH]; intros env H; cbn [places]; [discriminate|]. specialize (H d (or_introl eq_refl)) as Hd. destruct (size d) as [|n]; [lia|]. cbn [seq flat_map].
  intros E. apply app_eq_nil in E as [E _]. revert E. apply IH. intros c Hc. apply H. right. exact Hc.
Qed.
Lemma reduce_ok m axis : reducible size dyn source axis -> (forall d, In d axis -> rank (d_base d) < fuel) -> is_arg m = false -> (picks m = true -> length axis = 1 \/ rest source axis = []) ->
  exists r, reduce fuel size dyn lo hi m source axis true = Ok r /\ well size r /\ dims r = rest source axis /\
    forall env, inside size env (rest source axis) -> (forall e, In e (places size (bases axis) env) -> settled dyn axis e) ->
      (picks m = true -> entries size dyn axis source env <> [] /\ forall y, In y (entries size dyn axis source env) -> (lo <= y <= hi)%Z) ->
      reduced m (entries size dyn axis source env) (value r env).
Proof.
  intros Hred Hfuel Harg Hpick. destruct (reduce_core size dyn rank fuel lo hi m source axis true Hok Hred Hfuel Hpick) as (src & r & E & Hw & Hd & HV & HR).
  exists r. split; [exact E|]. split; [exact Hw|]. split; [exact Hd|]. intros env Hins Hset Hb. destruct (HR env Hins) as (L & EL & HL & _). rewrite EL. unfold entries. rewrite (places_map src m axis env Hred Hins Hset HV) in HL.
  apply (masked_reduced lo hi m).
  - intros Hp. destruct (Hb Hp) as [Hne Hr]. split; [intros En; apply Hne; unfold entries; rewrite En; reflexivity|]. intros a Ha Hoka. apply Hr. unfold entries. apply in_map, filter_In. auto.
  - eapply reduced_perm; [exact HL|]. apply reduce_list_ok; [exact Harg|]. intros _ En. rewrite En in HL. apply Permutation_nil in HL. apply map_eq_nil in HL. revert HL. apply places_nonempty.
    intros c Hc. apply (red_size _ _ _ _ Hred), (proj2 (proj2 (red_axes _ _ _ _ Hred))), Hc.
Qed.
Lemma reduce_unmasked m axis : reducible size dyn source axis -> (forall d, In d axis -> rank (d_base d) < fuel) -> is_arg m = false -> (picks m = true -> length axis = 1 \/ rest source axis = []) ->
  exists r, reduce fuel size dyn lo hi m source axis false = Ok r /\ well size r /\ dims r = rest source axis /\
    forall env, inside size env (rest source axis) -> reduced m (map (value source) (places size (bases axis) env)) (value r env).
Proof.
  intros Hred Hfuel Harg Hpick. destruct (reduce_core size dyn rank fuel lo hi m source axis false Hok Hred Hfuel Hpick) as (src & r & E & Hw & Hd & HV & HR).
  exists r. split; [exact E|]. split; [exact Hw|]. split; [exact Hd|]. intros env Hins. destruct (HR env Hins) as (L & EL & HL & _). rewrite EL.
  assert (Em : map (value src) (places size (bases axis) env) = map (value source) (places size (bases axis) env)).
  { destruct Hred as [Hw0 (HnA & HneA & HiA) Hlens Hsize]. apply map_ext_in. intros e He. apply HV; [eapply places_in_source; eassumption|discriminate]. }
  rewrite Em in HL. eapply reduced_perm; [exact HL|]. apply reduce_list_ok; [exact Harg|]. intros _ En. rewrite En in HL. apply Permutation_nil in HL. apply map_eq_nil in HL. revert HL. apply places_nonempty.
  intros c Hc. apply (red_size _ _ _ _ Hred), (proj2 (proj2 (red_axes _ _ _ _ Hred))), Hc.
Qed.

(** the first best index *)
Lemma zpos_spec x l : In x l -> zpos x l < length l /\ nth (zpos x l) l 0%Z = x /\ forall j, j < zpos x l -> nth j l 0%Z <> x.
Proof.
  induction l as [|y l IH]; intros H; [destruct H|]. cbn [zpos]. destruct (Z.eqb_spec x y) as [->|E].
  - split; [cbn; lia|]. split; [reflexivity|]. intros j Hj. lia.
  - destruct H as [H|H]; [congruence|]. destruct (IH H) as (H1 & H2 & H3). split; [cbn; lia|]. split; [exact H2|]. intros [|j] Hj; cbn [nth]; [congruence|]. apply H3. lia.
Qed.
Lemma nth_map_seq (g : nat -> Z) n k : k < n -> nth k (map g (seq 0 n)) 0%Z = g k.
Proof. intros H. erewrite nth_error_nth; [reflexivity|]. rewrite nth_error_map, nth_error_seq by exact H. reflexivity. Qed.
Lemma first_best_ok (f : Z -> Z -> Z) (le : Z -> Z -> Prop) (v : Z) n (ok : nat -> bool) (val : nat -> Z) :
  (forall l, l <> [] -> In (best_of f l) l /\ forall y, In y l -> le y (best_of f l)) -> (forall x y, le x y -> le y x -> x = y) -> (forall x y z, le x y -> le y z -> le x z) ->
  (forall j k, j < k -> ok k = true -> ok j = true) -> (exists k, k < n /\ ok k = true) -> (forall k, k < n -> ok k = true -> le v (val k)) ->
  let l := map (fun k => if ok k then val k else v) (seq 0 n) in first_best le n ok val (zpos (best_of f l) l).
Proof.
  intros Hf Has Htr Hdown (k0 & Hk0 & Eok0) Hv l. assert (Hlen : length l = n) by (unfold l; rewrite map_length, seq_length; reflexivity). assert (Hne : l <> []) by (intros E; rewrite E in Hlen; cbn in Hlen; lia).
  destruct (Hf l Hne) as [Hin Hub]. destruct (zpos_spec _ _ Hin) as (Hlt & Hval & Hfirst). set (x := best_of f l) in *. set (k := zpos x l) in *. rewrite Hlen in Hlt.
  assert (Hnth : forall j, j < n -> nth j l 0%Z = if ok j then val j else v) by (intros j Hj; unfold l; rewrite nth_map_seq by exact Hj; reflexivity).
  assert (Hle : forall j, j < n -> ok j = true -> le (val j) x). { intros j Hj Ej. apply Hub. apply in_map_iff. exists j. rewrite Ej. split; [reflexivity|apply in_seq; lia]. }
  assert (Eok : ok k = true).
  { destruct (ok k) eqn:Ek; [reflexivity|]. exfalso. rewrite Hnth, Ek in Hval by exact Hlt. assert (E : val k0 = x) by (apply Has; [apply Hle; assumption|rewrite <- Hval; apply Hv; assumption]).
    destruct (Nat.lt_trichotomy k k0) as [H|[H|H]].
    - rewrite (Hdown k k0 H Eok0) in Ek. discriminate.
    - congruence.
    - apply (Hfirst k0 H). rewrite Hnth, Eok0 by exact Hk0. exact E. }
  rewrite Hnth, Eok in Hval by exact Hlt. split; [exact Hlt|]. split; [exact Eok|]. split.
  - intros j Hj Ej. rewrite Hval. apply Hle; assumption.
  - intros j Hj Ej Hc. apply (Hfirst j Hj). rewrite Hnth, Ej by lia. apply Has; [apply Hle; [lia|exact Ej]|]. rewrite <- Hval. exact Hc.
Qed.
Lemma in_sequence_index d env k : in_sequence dyn (with_index env d k) d = match dyn d with Some t => (Z.of_nat k <? value t env)%Z | None => true end.
Proof.
  unfold in_sequence. destruct (dyn d) as [t|] eqn:E; [|reflexivity]. f_equal; [unfold with_index; rewrite Nat.eqb_refl; reflexivity|]. unfold value. f_equal. apply map_ext_in. intros c Hc. unfold with_index. destruct (Nat.eqb_spec c d) as [->|]; [|reflexivity].
  pose proof (len_nested _ _ _ Hok _ _ _ E Hc). lia.
Qed.
Lemma reduce_arg m le v d : (m = MArgmax /\ le = Z.le /\ v = lo) \/ (m = MArgmin /\ le = (fun x y => (y <= x)%Z) /\ v = hi) -> reducible size dyn source [d] -> rank (d_base d) < fuel ->
  exists r, reduce fuel size dyn lo hi m source [d] true = Ok r /\ well size r /\ dims r = rest source [d] /\
    forall env, inside size env (rest source [d]) -> settled dyn [d] env ->
      let ok k := in_sequence dyn (with_index env (d_base d) k) (d_base d) in let val k := value source (with_index env (d_base d) k) in
      (exists k, k < size (d_base d) /\ ok k = true) -> (forall k, k < size (d_base d) -> ok k = true -> le v (val k)) ->
      exists k, value r env = Z.of_nat k /\ first_best le (size (d_base d)) ok val k.
Proof.
  intros Hm Hred Hfuel. destruct (reduce_core size dyn rank fuel lo hi m source [d] true Hok Hred) as (src & r & E & Hw & Hd & HV & HR); [intros x [<-|[]]; exact Hfuel|left; reflexivity|].
  exists r. split; [exact E|]. split; [exact Hw|]. split; [exact Hd|]. intros env Hins Hset ok val Hex Hb. destruct (HR env Hins) as (L & EL & _ & HL). specialize (HL eq_refl). rewrite (places_map src m [d] env Hred Hins) in HL; [| |exact HV].
  - cbn [bases map places] in HL. rewrite map_flat_map in HL. cbn [map] in HL.
    assert (EL2 : L = map (fun k => if ok k then val k else v) (seq 0 (size (d_base d)))).
    { rewrite HL. clear HL. induction (seq 0 (size (d_base d))) as [|k l IH]; [reflexivity|]. cbn [flat_map app map]. f_equal; [|exact IH]. unfold all_in. cbn [forallb]. rewrite andb_true_r. fold (ok k). destruct (ok k); [reflexivity|]. destruct Hm as [(-> & _ & ->)|(-> & _ & ->)]; reflexivity. }
    assert (Hdown : forall j k, j < k -> ok k = true -> ok j = true).
    { intros j k Hjk. unfold ok. rewrite !in_sequence_index. destruct (dyn (d_base d)); [|auto]. rewrite !Z.ltb_lt. lia. }
    rewrite EL, EL2. destruct Hm as [(-> & -> & ->)|(-> & -> & ->)]; cbn [reduce_list]; eexists; (split; [reflexivity|]).
    + apply first_best_ok; try assumption; [apply max_spec|intros; lia|intros; lia].
    + apply (first_best_ok Z.min (fun x y => (y <= x)%Z)); try assumption; [apply min_spec|intros; lia|intros; lia].
  - intros e He x t c Hx Et Hc Hnc. destruct (places_inside size _ _ _ He) as [_ H2]. cbn [bases map] in *. destruct Hx as [<-|[]]. specialize (Hset _ _ _ (or_introl eq_refl) Et Hc Hnc). rewrite <- Hset.
    unfold in_sequence. destruct (dyn c) as [tc|] eqn:Ec; [|reflexivity]. rewrite (H2 c Hnc). f_equal. unfold value. f_equal. apply map_ext_in. intros y Hy. apply H2. intros [Hy'|[]]. subst y.
    pose proof (len_nested _ _ _ Hok _ _ _ Et Hc). pose proof (len_nested _ _ _ Hok _ _ _ Ec Hy). lia.
Qed.
End Reduce.

(** * The number of elements *)
Definition zsum (l : list Z) : Z := fold_right Z.add 0%Z l.
Lemma zsum_cons x l : zsum (x :: l) = (x + zsum l)%Z.
Proof. reflexivity. Qed.
Lemma zsum_app l1 l2 : zsum (l1 ++ l2) = (zsum l1 + zsum l2)%Z.
Proof. induction l1 as [|x l1 IH]; [reflexivity|]. cbn [app]. rewrite !zsum_cons, IH. lia. Qed.
Lemma zsum_flat_map {A} (f : A -> list Z) l : zsum (flat_map f l) = zsum (map (fun x => zsum (f x)) l).
Proof. induction l as [|x l IH]; [reflexivity|]. cbn [flat_map map]. rewrite zsum_app, IH. reflexivity. Qed.
Lemma zsum_scale {A} (f : A -> Z) c l : zsum (map (fun x => f x * c)%Z l) = (zsum (map f l) * c)%Z.
Proof. induction l as [|x l IH]; [reflexivity|]. cbn [map]. rewrite !zsum_cons, IH. lia. Qed.
Lemma count_sum {A} (ok : A -> bool) l : Z.of_nat (length (filter ok l)) = zsum (map (fun e => of_bool (ok e)) l).
Proof. induction l as [|x l IH]; [reflexivity|]. cbn [filter map]. rewrite zsum_cons. destruct (ok x); cbn [length of_bool]; lia. Qed.
Lemma filter_sum {A} (ok : A -> bool) (f : A -> Z) l : zsum (map f (filter ok l)) = zsum (map (fun e => of_bool (ok e) * f e)%Z l).
Proof. induction l as [|x l IH]; [reflexivity|]. cbn [filter map]. rewrite zsum_cons. destruct (ok x); cbn [map of_bool]; rewrite ?zsum_cons; lia. Qed.
Lemma below_sum n len : (0 <= len <= Z.of_nat n)%Z -> zsum (map (fun k => of_bool (Z.of_nat k <? len)%Z) (seq 0 n)) = len.
Proof.
  revert len. induction n as [|n IH]; intros len H; [cbn; lia|]. rewrite seq_S, map_app, zsum_app. cbn [map Nat.add]. destruct (Z.eq_dec len (Z.of_nat (S n))) as [->|E].
  - assert (E : zsum (map (fun k => of_bool (Z.of_nat k <? Z.of_nat (S n))%Z) (seq 0 n)) = Z.of_nat n).
    { transitivity (zsum (map (fun k => of_bool (Z.of_nat k <? Z.of_nat n)%Z) (seq 0 n))); [|apply IH; lia]. f_equal. apply map_ext_in. intros k Hk. apply in_seq in Hk. rewrite !(proj2 (Z.ltb_lt _ _)) by lia. reflexivity. }
    rewrite E. rewrite (proj2 (Z.ltb_lt _ _)) by lia. cbn. lia.
  - rewrite IH by lia. rewrite (proj2 (Z.ltb_ge _ _)) by lia. cbn. lia.
Qed.
Lemma places_app size R1 R2 : forall env, places size (R1 ++ R2) env = flat_map (places size R2) (places size R1 env).
Proof. induction R1 as [|d R1 IH]; intros env; cbn [app places]; [cbn; rewrite app_nil_r; reflexivity|]. rewrite flat_map_concat_map, (flat_map_concat_map (places size R2)).
  rewrite (flat_map_concat_map _ (seq 0 (size d))). rewrite concat_map, map_map. induction (seq 0 (size d)) as [|k l IHl]; [reflexivity|]. cbn [map concat]. rewrite concat_app, IHl, IH, flat_map_concat_map. reflexivity.
Qed.
Lemma value_agree t e e' : (forall c, In c (bases (dims t)) -> e c = e' c) -> value t e = value t e'.
Proof. intros H. unfold value. f_equal. apply map_ext_in. exact H. Qed.

Definition zprod (l : list Z) : Z := fold_right Z.mul 1%Z l.
Lemma size_product (size : nat -> nat) (ds : list dim) : fold_left (fun n d => n * Z.of_nat (size (d_base d)))%Z ds 1%Z = zprod (map (fun c => Z.of_nat (size c)) (bases ds)).
Proof.
  assert (G : forall l a, fold_left (fun n d => n * Z.of_nat (size (d_base d)))%Z l a = (a * zprod (map (fun c => Z.of_nat (size c)) (bases l)))%Z); [|rewrite G; lia].
  induction l as [|d l IH]; intros a; [cbn; lia|]. cbn [fold_left]. rewrite IH. change (zprod (map (fun c => Z.of_nat (size c)) (bases (d :: l)))) with (Z.of_nat (size (d_base d)) * zprod (map (fun c => Z.of_nat (size c)) (bases l)))%Z. lia.
Qed.

Section Count.
Variables (size : nat -> nat) (dyn : nat -> option tensor) (rank : nat -> nat) (fuel : nat).
Hypothesis Hok : lengths_ok size dyn rank.
Definition len (c : nat) (e : nat -> nat) : Z := match dyn c with Some t => value t e | None => Z.of_nat (size c) end.
Lemma in_sequence_agree c e e' : e c = e' c -> (forall t x, dyn c = Some t -> In x (bases (dims t)) -> e x = e' x) -> in_sequence dyn e c = in_sequence dyn e' c.
Proof. intros Hc Ht. unfold in_sequence. destruct (dyn c) as [t|]; [|reflexivity]. rewrite Hc. f_equal. apply value_agree. intros x Hx. apply (Ht t); auto. Qed.
Lemma len_agree c e e' : (forall t x, dyn c = Some t -> In x (bases (dims t)) -> e x = e' x) -> len c e = len c e'.
Proof. intros Ht. unfold len. destruct (dyn c) as [t|]; [|reflexivity]. apply value_agree. intros x Hx. apply (Ht t); auto. Qed.

(** dims whose lengths do not depend on each other: the product *)
Lemma count_product N : forall e, NoDup N -> (forall d t x, In d N -> dyn d = Some t -> In x (bases (dims t)) -> ~ In x N) ->
  (forall d, In d N -> (0 <= len d e <= Z.of_nat (size d))%Z) -> zsum (map (fun e' => of_bool (all_in dyn N e')) (places size N e)) = zprod (map (fun d => len d e) N).
Proof.
  induction N as [|d N IH]; intros e Hn Hind Hb; [reflexivity|]. apply NoDup_cons_iff in Hn as [Hd Hn]. cbn [places map]. rewrite map_flat_map, zsum_flat_map.
  rewrite (map_ext_in _ (fun k => of_bool (Z.of_nat k <? len d e)%Z * zprod (map (fun d => len d e) N))%Z).
  - rewrite (zsum_scale (fun k => of_bool (Z.of_nat k <? len d e)%Z)). rewrite below_sum by (apply Hb; left; reflexivity). reflexivity.
  - intros k Hk. apply in_seq in Hk.
    assert (Elen : forall c, In c (d :: N) -> len c (with_index e d k) = len c e). { intros c Hc. apply len_agree. intros t x Et Hx. unfold with_index. destruct (Nat.eqb_spec x d) as [->|]; [|reflexivity]. exfalso. apply (Hind c t d Hc Et Hx). left. reflexivity. }
    rewrite (map_ext_in _ (fun e' => of_bool (all_in dyn N e') * of_bool (Z.of_nat k <? len d e)%Z)%Z).
    + rewrite (zsum_scale (fun e' => of_bool (all_in dyn N e'))). rewrite IH; [rewrite Z.mul_comm; f_equal; f_equal; apply map_ext_in; intros c Hc; apply Elen; right; exact Hc|exact Hn| |].
      * intros c t x Hc Et Hx Hin. apply (Hind c t x (or_intror Hc) Et Hx). right. exact Hin.
      * intros c Hc. rewrite Elen by (right; exact Hc). apply Hb. right. exact Hc.
    + intros e' He'. destruct (places_inside size _ _ _ He') as [_ H2]. unfold all_in. cbn [forallb].
      assert (Ed : in_sequence dyn e' d = (Z.of_nat k <? len d e)%Z).
      { rewrite (in_sequence_agree d e' (with_index e d k)).
        - rewrite (in_sequence_index size dyn rank Hok). unfold len. destruct (dyn d); [reflexivity|]. symmetry. apply Z.ltb_lt. lia.
        - apply H2, Hd.
        - intros t x Et Hx. apply H2. intros Hin. apply (Hind d t x (or_introl eq_refl) Et Hx). right. exact Hin. }
      rewrite Ed. destruct (Z.of_nat k <? len d e)%Z, (forallb (in_sequence dyn e') N); reflexivity.
Qed.

Definition depends (ds : list dim) (d : dim) : bool := existsb (fun d' => match dyn (d_base d') with Some t => mem d (dims t) | None => false end) ds.
Lemma depends_spec ds d : depends ds d = true <-> exists c t, In c (bases ds) /\ dyn c = Some t /\ In (d_base d) (bases (dims t)).
Proof.
  unfold depends. rewrite existsb_exists. split.
  - intros (d' & Hd' & E). destruct (dyn (d_base d')) as [t|] eqn:Et; [|discriminate]. apply mem_In in E. exists (d_base d'), t. split; [apply In_base, Hd'|auto].
  - intros (c & t & Hc & Et & Hin). unfold bases in Hc. apply in_map_iff in Hc as (d' & <- & Hd'). exists d'. split; [exact Hd'|]. rewrite Et. apply mem_In, Hin.
Qed.
Lemma enumerated_In ds i d : In (i, d) (enumerated ds) -> nth_error ds i = Some d.
Proof.
  unfold enumerated. assert (G : forall ds a, In (i, d) (combine (seq a (length ds)) ds) -> a <= i /\ nth_error ds (i - a) = Some d); [|intros H; destruct (G ds 0 H) as [_ E]; rewrite Nat.sub_0_r in E; exact E].
  clear. induction ds as [|x ds IH]; intros a H; [destruct H|]. cbn [length seq combine] in H. destruct H as [H|H].
  - injection H as -> ->. split; [lia|]. rewrite Nat.sub_diag. reflexivity.
  - destruct (IH _ H) as [Ha E]. split; [lia|]. replace (i - a) with (S (i - S a)) by lia. exact E.
Qed.
Lemma enumerated_snd ds : map snd (enumerated ds) = ds.
Proof. unfold enumerated. generalize 0. induction ds as [|x ds IH]; intros a; [reflexivity|]. cbn. f_equal. apply IH. Qed.
Lemma related_depends ds i d : NoDup (bases ds) -> In (i, d) (enumerated ds) -> related dyn ds i d = depends ds d.
Proof.
  intros Hn Hi. pose proof (enumerated_In _ _ _ Hi) as Ei. apply eq_true_iff_eq. unfold related, depends. rewrite !existsb_exists. split.
  - intros ((j & d') & Hj & E). apply andb_true_iff in E as [_ E]. exists d'. split; [|exact E]. rewrite <- (enumerated_snd ds). apply in_map_iff. exists (j, d'). auto.
  - intros (d' & Hd' & E). rewrite <- (enumerated_snd ds) in Hd'. apply in_map_iff in Hd' as ((j & d2) & E2 & Hj). cbn in E2. subst d2. exists (j, d'). split; [exact Hj|]. rewrite E, andb_true_r.
    destruct (Nat.eqb_spec i j) as [->|]; [|reflexivity]. exfalso. apply enumerated_In in Hj. assert (d' = d) by congruence. subst d'. destruct (dyn (d_base d)) as [t|] eqn:Et; [|discriminate]. apply mem_In in E.
    pose proof (len_nested _ _ _ Hok _ _ _ Et E). lia.
Qed.
Lemma scalar_well x : well size (scalar x).
Proof. split; [reflexivity|]. split; [reflexivity|constructor]. Qed.
Lemma size_tensor_well d : well size (size_tensor size dyn d).
Proof. unfold size_tensor. destruct (dyn (d_base d)) as [t|] eqn:E; [apply (len_well _ _ _ Hok _ _ E)|apply scalar_well]. Qed.
Lemma size_tensor_value d e : value (size_tensor size dyn d) e = len (d_base d) e.
Proof. unfold size_tensor, len. destruct (dyn (d_base d)); reflexivity. Qed.

Section Counting.
Variables (ds : list dim).
Hypothesis Hcnt : countable size dyn ds.

(** the product has the dims of one of the lengths *)
Definition of_one (n : tensor) : Prop := dims n = [] \/ exists c t, In c (bases ds) /\ dyn c = Some t /\ forall x, In x (bases (dims n)) <-> In x (bases (dims t)).
Lemma product_loop : forall l n post, (forall i d, In (i, d) l -> related dyn ds i d = depends ds d /\ In d ds) -> well size n -> of_one n ->
  exists n', fold_left (fun st '(i, d) => let* (n, postponed) := st in if related dyn ds i d then Ok (n, postponed ++ [d]) else let* n := combine_tensors Z.mul n (size_tensor size dyn d) None None in Ok (n, postponed)) l (Ok (n, post))
     = Ok (n', post ++ filter (depends ds) (map snd l)) /\ well size n' /\ of_one n' /\
    (forall x, In x (bases (dims n')) <-> In x (bases (dims n)) \/ exists d t, In d (map snd l) /\ depends ds d = false /\ dyn (d_base d) = Some t /\ In x (bases (dims t))) /\
    forall e, inside size e (dims n') -> value n' e = (value n e * zprod (map (fun d => len (d_base d) e) (filter (fun d => negb (depends ds d)) (map snd l))))%Z.
Proof.
  induction l as [|(i, d) l IH]; intros n post Hl Hw Hone.
  - exists n. split; [cbn; rewrite app_nil_r; reflexivity|]. split; [exact Hw|]. split; [exact Hone|]. split; [intros x; split; [auto|intros [H|(d & t & [] & _)]; exact H]|]. intros e _. cbn. lia.
  - destruct (Hl i d (or_introl eq_refl)) as [Er Hd]. cbn [fold_left map snd filter]. cbn [bind]. rewrite Er. destruct (depends ds d) eqn:Ed; cbn [negb].
    + destruct (IH n (post ++ [d])) as (n' & E & Hw' & Hone' & Hc' & Hv'); [intros j x Hj; apply Hl; right; exact Hj|exact Hw|exact Hone|]. exists n'. split; [etransitivity; [exact E|]; rewrite <- app_assoc; reflexivity|].
      split; [exact Hw'|]. split; [exact Hone'|]. split; [|exact Hv']. intros x. rewrite Hc'. split; (intros [H|(d' & t & Hd' & Hdep & H)]; [left; exact H|right; exists d', t]); (split; [|auto]); [right; exact Hd'|].
      destruct Hd' as [<-|Hd']; [congruence|exact Hd'].
    + assert (Hall : one_has_all n (size_tensor size dyn d) /\ forall n2, (forall c, In c (bases (dims n2)) <-> In c (bases (dims n)) \/ In c (bases (dims (size_tensor size dyn d)))) -> of_one n2).
      { unfold size_tensor, one_has_all. destruct (dyn (d_base d)) as [t|] eqn:Et.
        - destruct Hone as [Hz|(c & t1 & Hc & Et1 & Heq)].
          + split; [left; rewrite Hz; intros x []|]. intros n2 Hn2. right. exists (d_base d), t. split; [apply In_base, Hd|]. split; [exact Et|]. intros x. rewrite Hn2, Hz. cbn. tauto.
          + destruct (cnt_nested _ _ _ Hcnt _ _ _ _ Hc (In_base _ _ Hd) Et1 Et) as [Hi|Hi].
            * split; [left; intros x Hx; apply Hi, Heq, Hx|]. intros n2 Hn2. right. exists (d_base d), t. split; [apply In_base, Hd|]. split; [exact Et|]. intros x. rewrite Hn2. split; [intros [H|H]; [apply Hi, Heq, H|exact H]|auto].
            * split; [right; intros x Hx; apply Heq, Hi, Hx|]. intros n2 Hn2. right. exists c, t1. split; [exact Hc|]. split; [exact Et1|]. intros x. rewrite Hn2. split; [intros [H|H]; [apply Heq, H|apply Hi, H]|left; apply Heq; exact H].
        - split; [right; intros x []|]. intros n2 Hn2. destruct Hone as [Hz|(c & t1 & Hc & Et1 & Heq)].
          + left. destruct (dims n2) as [|y l2] eqn:E2; [reflexivity|]. exfalso. assert (H : In (d_base y) (bases (y :: l2))) by (left; reflexivity). apply Hn2 in H as [H|H]; [rewrite Hz in H; exact H|exact H].
          + right. exists c, t1. split; [exact Hc|]. split; [exact Et1|]. intros x. rewrite Hn2, Heq. cbn. tauto. }
      destruct Hall as [Hall Hone2]. destruct (combine_ok size Z.mul n (size_tensor size dyn d) None None Hw (size_tensor_well d) (or_introl Hall)) as (n2 & E2 & (Hw2 & Hc2 & Hv2) & _). rewrite E2. cbn [bind].
      destruct (IH n2 post) as (n' & E & Hw' & Hone' & Hc' & Hv'); [intros j x Hj; apply Hl; right; exact Hj|exact Hw2|apply Hone2, Hc2|]. exists n'. split; [exact E|]. split; [exact Hw'|]. split; [exact Hone'|]. split.
      * intros x. rewrite Hc', Hc2. unfold size_tensor. split.
        -- intros [[H|H]|(d' & t & Hd' & H)]; [left; exact H| |right; exists d', t; split; [right; exact Hd'|exact H]]. destruct (dyn (d_base d)) as [t|] eqn:Et; [|destruct H]. right. exists d, t. split; [left; reflexivity|auto].
        -- intros [H|(d' & t & [<-|Hd'] & Hdep & Et & H)]; [left; left; exact H| |right; exists d', t; auto]. left. right. rewrite Et. exact H.
      * intros e He. rewrite Hv' by exact He. rewrite Hv2, size_tensor_value; [cbn [map]; change (zprod (?a :: ?b)) with (a * zprod b)%Z; cbn [zprod fold_right]; unfold zprod; lia|].
        eapply inside_incl; [exact He|]. intros c Hc. apply Hc'. left. exact Hc.
Qed.
(** a dim that others depend on is there in the product *)
Lemma climb c t x : In c (bases ds) -> dyn c = Some t -> In x (bases (dims t)) -> exists d t', In d ds /\ depends ds d = false /\ dyn (d_base d) = Some t' /\ incl (bases (dims t)) (bases (dims t')).
Proof.
  set (M := list_max (map rank (bases ds))). assert (HM : forall c, In c (bases ds) -> rank c <= M).
  { intros c' Hc'. assert (G := proj1 (list_max_le (map rank (bases ds)) M) (Nat.le_refl _)). rewrite Forall_forall in G. apply G, in_map, Hc'. }
  remember (M - rank c) as k eqn:Ek. revert c t x Ek. induction k as [k IH] using lt_wf_ind. intros c t x Ek Hc Et Hx. pose proof Hc as Hc0. unfold bases in Hc. apply in_map_iff in Hc as (d & <- & Hd).
  destruct (depends ds d) eqn:E; [|exists d, t; split; [exact Hd|]; split; [exact E|]; split; [exact Et|apply incl_refl]].
  apply depends_spec in E as (c2 & t2 & Hc2 & Et2 & Hin). pose proof (len_nested _ _ _ Hok _ _ _ Et2 Hin) as Hr. pose proof (HM c2 Hc2).
  assert (Hi : incl (bases (dims t)) (bases (dims t2))).
  { destruct (cnt_nested _ _ _ Hcnt _ _ _ _ Hc0 Hc2 Et Et2) as [H0|H0]; [exact H0|]. exfalso. apply H0 in Hin. pose proof (len_nested _ _ _ Hok _ _ _ Et Hin). lia. }
  destruct (IH (M - rank c2) ltac:(lia) c2 t2 (d_base d) eq_refl Hc2 Et2 Hin) as (d' & t' & H1 & H2 & H3 & H4). exists d', t'. split; [exact H1|]. split; [exact H2|]. split; [exact H3|]. intros y Hy. apply H4, Hi, Hy.
Qed.
(** postponed dims and the others *)
Let P := filter (depends ds) ds.
Let N := filter (fun d => negb (depends ds d)) ds.
Lemma split_perm : Permutation (bases ds) (bases P ++ bases N).
Proof.
  unfold P, N. unfold bases. rewrite <- map_app. apply Permutation_map. generalize (depends ds). intros f. clear. induction ds as [|d l IH]; [constructor|]. cbn. destruct (f d); cbn; [constructor; exact IH|]. apply Permutation_cons_app, IH.
Qed.
Lemma N_free c t x : In c (bases ds) -> dyn c = Some t -> In x (bases (dims t)) -> ~ In x (bases N).
Proof.
  intros Hc Et Hx Hin. unfold N in Hin. apply in_filter_bases in Hin as (d & <- & Hd & E). assert (depends ds d = true) by (apply depends_spec; exists c, t; auto). rewrite H in E. discriminate.
Qed.
Lemma in_PN x : In x (bases ds) <-> In x (bases P) \/ In x (bases N).
Proof. rewrite <- in_app_iff. split; apply Permutation_in; [|apply Permutation_sym]; apply split_perm. Qed.
(** the number of all places that count *)
Lemma elements_split env : (forall e, In e (places size (bases P) env) -> forall d, In d (bases N) -> (0 <= len d e <= Z.of_nat (size d))%Z) ->
  Z.of_nat (elements size dyn ds env) = zsum (map (fun e => zprod (map (fun d => len d e) (bases N))) (filter (all_in dyn (bases P)) (places size (bases P) env))).
Proof.
  intros Hb. unfold elements. rewrite count_sum. assert (HnPN : NoDup (bases P ++ bases N)) by (eapply Permutation_NoDup; [apply split_perm|apply (cnt_dims _ _ _ Hcnt)]).
  assert (Hresp : respectful (fun e => of_bool (all_in dyn (bases ds) e))).
  { intros e e' He. f_equal. unfold all_in. apply forallb_ext'. intros c _. apply in_sequence_agree; auto. }
  unfold zsum at 1. rewrite (sum_perm _ _ (places_perm size _ _ _ Hresp split_perm (cnt_dims _ _ _ Hcnt) env)). fold (zsum (map (fun e => of_bool (all_in dyn (bases ds) e)) (places size (bases P ++ bases N) env))).
  rewrite places_app, map_flat_map, zsum_flat_map, filter_sum. f_equal. apply map_ext_in. intros e He.
  rewrite (map_ext_in _ (fun e' => of_bool (all_in dyn (bases N) e') * of_bool (all_in dyn (bases P) e))%Z).
  - rewrite (zsum_scale (fun e' => of_bool (all_in dyn (bases N) e'))). rewrite count_product; [lia|apply NoDup_app_r in HnPN; exact HnPN| |apply Hb, He].
    intros d t x Hd Et Hx. apply (N_free d t x); [apply in_PN; right; exact Hd|exact Et|exact Hx].
  - intros e' He'. destruct (places_inside size _ _ _ He') as [_ H2].
    assert (E : all_in dyn (bases P) e' = all_in dyn (bases P) e).
    { apply forallb_ext'. intros c Hc. apply in_sequence_agree.
      - apply H2. intros Hx. exact (NoDup_disj _ _ HnPN c Hc Hx).
      - intros t x Et Hx. apply H2. apply (N_free c t x); [apply in_PN; left; exact Hc|exact Et|exact Hx]. }
    assert (E2 : all_in dyn (bases ds) e' = all_in dyn (bases N) e' && all_in dyn (bases P) e').
    { unfold all_in. rewrite (forallb_perm _ _ _ split_perm), forallb_app. apply andb_comm. }
    rewrite E2, E. destruct (all_in dyn (bases N) e'), (all_in dyn (bases P) e); reflexivity.
Qed.

Lemma elements_none env : P = [] -> (forall d, In d (bases ds) -> (0 <= len d env <= Z.of_nat (size d))%Z) -> Z.of_nat (elements size dyn ds env) = zprod (map (fun d => len d env) (bases N)).
Proof.
  intros EP Hb. rewrite elements_split.
  - rewrite EP. cbn. lia.
  - rewrite EP. intros e [<-|[]] d Hd. apply Hb, in_PN. right. exact Hd.
Qed.
Lemma filter_id {A} (f : A -> bool) l : (forall x, In x l -> f x = true) -> filter f l = l.
Proof. induction l as [|x l IH]; intros H; [reflexivity|]. cbn. rewrite H by (left; reflexivity). f_equal. apply IH. intros y Hy. apply H. right. exact Hy. Qed.
Lemma filter_empty {A} (f : A -> bool) l : (forall x, In x l -> f x = false) -> filter f l = [].
Proof. induction l as [|x l IH]; intros H; [reflexivity|]. cbn. rewrite H by (left; reflexivity). apply IH. intros y Hy. apply H. right. exact Hy. Qed.
Lemma free_split : (forall d, In d ds -> depends ds d = false) -> P = [] /\ N = ds.
Proof. intros H. unfold P, N. split; [apply filter_empty, H|apply filter_id]. intros d Hd. rewrite H by exact Hd. reflexivity. Qed.
Lemma one_or {A B} (l : list A) : (exists d, l = [d]) \/ (forall (f : A -> B) y, match l with [d] => f d | _ => y end = y).
Proof. destruct l as [|a [|b l]]; [right; reflexivity|left; exists a; reflexivity|right; reflexivity]. Qed.
Lemma num_ok : ds <> [] -> (forall d, In d ds -> rank (d_base d) < fuel) ->
  exists r, num_elements fuel size dyn ds = Ok r /\ well size r /\
    (forall x, In x (bases (dims r)) -> ~ In x (bases ds) /\ exists c t, In c (bases ds) /\ dyn c = Some t /\ In x (bases (dims t))) /\
    forall env, inside size env (dims r) -> settled_outside dyn ds env -> value r env = Z.of_nat (elements size dyn ds env).
Proof.
  intros Hne Hfuel. unfold num_elements. destruct (forallb (static dyn) ds) eqn:Est.
  - rewrite forallb_forall in Est. assert (Hst : forall c, In c (bases ds) -> dyn c = None). { intros c Hc. unfold bases in Hc. apply in_map_iff in Hc as (d & <- & Hd). specialize (Est d Hd). unfold static in Est. destruct (dyn (d_base d)); [discriminate|reflexivity]. }
    eexists. split; [reflexivity|]. split; [apply scalar_well|]. split; [intros x []|]. intros env _ _.
    destruct free_split as [EP EN]. { intros d Hd. destruct (depends ds d) eqn:E; [|reflexivity]. apply depends_spec in E as (c & t & Hc & Et & _). rewrite (Hst c Hc) in Et. discriminate. }
    rewrite elements_none; [|exact EP|].
    + rewrite EN. unfold value, scalar, at_. cbn [traw dims bases map shape data flat nth]. rewrite size_product. f_equal. apply map_ext_in. intros c Hc. unfold len. rewrite (Hst c Hc). reflexivity.
    + intros c Hc. unfold len. rewrite (Hst c Hc). lia.
  - destruct (product_loop (enumerated ds) (scalar 1) []) as (n & En & Hwn & Hone & Hcn & Hvn).
    { intros i d Hi. split; [apply related_depends; [apply (cnt_dims _ _ _ Hcnt)|exact Hi]|]. eapply nth_error_In, enumerated_In, Hi. }
    { apply scalar_well. }
    { left. reflexivity. }
    rewrite enumerated_snd in *. cbn [app] in En. fold P in En. fold N in Hvn.
    (* the dims of the product *)
    assert (HcN : forall d t x, In d ds -> dyn (d_base d) = Some t -> In x (bases (dims t)) -> In x (bases (dims n))).
    { intros d t x Hd Et Hx. destruct (climb (d_base d) t x (In_base _ _ Hd) Et Hx) as (d' & t' & H1 & H2 & H3 & H4). apply Hcn. right. exists d', t'. split; [exact H1|]. split; [exact H2|]. split; [exact H3|]. apply H4, Hx. }
    assert (Hv : forall e, inside size e (dims n) -> value n e = zprod (map (fun d => len d e) (bases N))).
    { intros e He. rewrite Hvn by exact He. change (value (scalar 1) e) with 1%Z. unfold bases. rewrite map_map. lia. }
    assert (Hlen : forall e d, inside size e (dims n) -> In d (bases ds) -> (0 <= len d e <= Z.of_nat (size d))%Z).
    { intros e d He Hd. unfold len. destruct (dyn d) as [t|] eqn:Et; [|lia]. apply (cnt_range _ _ _ Hcnt); [exact Hd|exact Et|]. eapply inside_incl; [exact He|]. intros x Hx.
      unfold bases in Hd. apply in_map_iff in Hd as (d' & <- & Hd'). exact (HcN d' t x Hd' Et Hx). }
    assert (Hfrom : forall x, In x (bases (dims n)) -> exists c t, In c (bases ds) /\ dyn c = Some t /\ In x (bases (dims t))).
    { intros x Hx. apply Hcn in Hx as [[]|(d & t & Hd & _ & Et & Hx)]. exists (d_base d), t. split; [apply In_base, Hd|auto]. }
    assert (HG : exists r, match P with [] => Ok n | _ => reduce fuel size dyn 0%Z 0%Z MSum n P true end = Ok r /\ well size r /\
      (forall x, In x (bases (dims r)) -> ~ In x (bases ds) /\ exists c t, In c (bases ds) /\ dyn c = Some t /\ In x (bases (dims t))) /\
      forall env, inside size env (dims r) -> settled_outside dyn ds env -> value r env = Z.of_nat (elements size dyn ds env)).
    { destruct (list_eq_dec (fun a b : dim => ltac:(repeat decide equality)) P []) as [EP|EP].
      - rewrite EP. exists n. split; [reflexivity|]. split; [exact Hwn|]. split.
        + intros x Hx. destruct (Hfrom x Hx) as (c & t & Hc & Et & Hin). split; [|exists c, t; auto]. intros Hd. apply in_PN in Hd as [Hd|Hd]; [rewrite EP in Hd; exact Hd|exact (N_free c t x Hc Et Hin Hd)].
        + intros env He _. rewrite elements_none; [apply Hv, He|exact EP|]. intros d Hd. apply Hlen; assumption.
      - assert (Hred : reducible size dyn n P).
        { split.
          - exact Hwn.
          - split; [apply NoDup_bases_filter, (cnt_dims _ _ _ Hcnt)|]. split; [exact EP|]. intros x Hx. unfold P in Hx. apply in_filter_bases in Hx as (d & <- & Hd & E). apply depends_spec in E as (c & t & Hc & Et & Hin).
            unfold bases in Hc. apply in_map_iff in Hc as (d' & <- & Hd'). exact (HcN d' t _ Hd' Et Hin).
          - intros c t Hc Et x Hx. unfold P in Hc. apply in_filter_bases in Hc as (d & <- & Hd & _). exact (HcN d t x Hd Et Hx).
          - intros c Hc. destruct (Hfrom c Hc) as (c1 & t & Hc1 & Et & Hin). exact (cnt_size _ _ _ Hcnt _ _ _ Hc1 Et Hin). }
        destruct (reduce_ok size dyn rank fuel 0 0 n Hok MSum P Hred) as (r & Er & Hwr & Hdr & Hvr); [intros d Hd; unfold P in Hd; apply filter_In in Hd as [Hd _]; apply Hfuel, Hd|reflexivity|discriminate|].
        exists r. split; [destruct P; [congruence|exact Er]|]. split; [exact Hwr|]. rewrite Hdr. split.
        + intros x Hx. apply in_rest in Hx as [Hx HxP]. destruct (Hfrom x Hx) as (c & t & Hc & Et & Hin). split; [|exists c, t; auto]. intros Hd. apply in_PN in Hd as [Hd|Hd]; [exact (HxP Hd)|exact (N_free c t x Hc Et Hin Hd)].
        + intros env He Hset. specialize (Hvr env He). cbn [reduced picks] in Hvr. rewrite Hvr; [| |discriminate].
          * assert (Hins : forall e, In e (places size (bases P) env) -> inside size e (dims n)). { intros e Hin. eapply places_in_source; [apply (proj1 (red_axes _ _ _ _ Hred))|apply (red_axes _ _ _ _ Hred)|exact He|exact Hin]. }
            rewrite elements_split; [|intros e Hin d Hd; apply Hlen; [apply Hins, Hin|apply in_PN; right; exact Hd]]. unfold entries, zsum. f_equal. apply map_ext_in. intros e Hin. apply filter_In in Hin as [Hin _]. apply Hv, Hins, Hin.
          * intros e Hin x t c Hx Et Hc HcP. destruct (places_inside size _ _ _ Hin) as [_ H2]. assert (Hx' : In x (bases ds)) by (apply in_PN; left; exact Hx). apply (Hset e) with (x := x) (t := t); try assumption.
            -- intros y Hy. apply H2. intros H. apply Hy, in_PN. left. exact H.
            -- intros H. apply in_PN in H as [H|H]; [exact (HcP H)|exact (N_free x t c Hx' Et Hc H)]. }
    destruct (@one_or dim (res tensor) ds) as [[d Ed]|Hmany].
    + (* one dim: its lengths *)
      exists (size_tensor size dyn d). split; [rewrite Ed; reflexivity|]. split; [apply size_tensor_well|].
      assert (Hself : forall t x, dyn (d_base d) = Some t -> In x (bases (dims t)) -> x <> d_base d). { intros t x Et Hx E. subst x. pose proof (len_nested _ _ _ Hok _ _ _ Et Hx). lia. }
      assert (Hin : In (d_base d) (bases ds)) by (rewrite Ed; left; reflexivity).
      destruct free_split as [EP EN]. { intros d' Hd'. destruct (depends ds d') eqn:E; [|reflexivity]. exfalso. rewrite Ed in Hd'. destruct Hd' as [<-|[]]. apply depends_spec in E as (c & t & Hc & Et & Hx). rewrite Ed in Hc. destruct Hc as [<-|[]]. exact (Hself t _ Et Hx eq_refl). }
      split.
      * unfold size_tensor. destruct (dyn (d_base d)) as [t|] eqn:Et; [|intros x []]. intros x Hx. split; [|exists (d_base d), t; auto]. rewrite Ed. intros [H|[]]. exact (Hself t x eq_refl Hx (eq_sym H)).
      * intros env He _. rewrite elements_none; [|exact EP|].
        -- rewrite EN, Ed, size_tensor_value. cbn. lia.
        -- intros c Hc. rewrite Ed in Hc. destruct Hc as [<-|[]]. unfold len. destruct (dyn (d_base d)) as [t|] eqn:Et; [|lia]. apply (cnt_range _ _ _ Hcnt _ _ _ Hin Et). unfold size_tensor in He. rewrite Et in He. exact He.
    + destruct HG as (r & Er & HG). exists r. split; [|exact HG]. rewrite Hmany, En. cbn [bind]. exact Er.
Qed.
End Counting.
End Count.

(** * The mean *)
From Coq Require Import QArith Field.
Local Open Scope nat_scope.
Lemma places_length size l : forall env, Z.of_nat (length (places size l env)) = zprod (map (fun c => Z.of_nat (size c)) l).
Proof.
  induction l as [|d l IH]; intros env; [reflexivity|]. cbn [places map]. change (zprod (Z.of_nat (size d) :: map (fun c => Z.of_nat (size c)) l)) with (Z.of_nat (size d) * zprod (map (fun c => Z.of_nat (size c)) l))%Z.
  rewrite flat_map_concat_map. generalize 0. induction (size d) as [|n IHn]; intros a; [cbn; lia|]. cbn [seq map concat]. rewrite app_length, Nat2Z.inj_add, IHn, IH. lia.
Qed.
Lemma zprod_pos l : (forall x, In x l -> (0 < x)%Z) -> (0 < zprod l)%Z.
Proof. induction l as [|x l IH]; intros H; [reflexivity|]. change (zprod (x :: l)) with (x * zprod l)%Z. apply Z.mul_pos_pos; [apply H; left; reflexivity|apply IH; intros y Hy; apply H; right; exact Hy]. Qed.
Lemma inject_nonzero z : (0 < z)%Z -> ~ (inject_Z z == 0)%Q.
Proof. intros H E. unfold Qeq in E. cbn in E. lia. Qed.
Lemma fraction_at size ds (g : list nat -> Q) env : inside size env ds ->
  fraction size {| q_dims := ds; q_data := map g (map (unflat (map size (bases ds))) (seq 0 (prod (map size (bases ds))))) |} env = g (map env (bases ds)).
Proof.
  intros Hi. unfold fraction. cbn [q_dims q_data]. pose proof (inside_indexes size env ds Hi) as Hix. pose proof (flat_lt _ _ Hix) as Hlt.
  erewrite nth_error_nth; [reflexivity|]. rewrite !nth_error_map, nth_error_seq by exact Hlt. cbn [option_map Nat.add]. rewrite unflat_flat by exact Hix. reflexivity.
Qed.
Lemma mean_ok size dyn rank fuel source axis : lengths_ok size dyn rank -> reducible size dyn source axis -> countable size dyn axis -> (forall d, In d axis -> rank (d_base d) < fuel) ->
  exists q, reduce_mean fuel size dyn source axis true = Ok q /\ q_dims q = rest source axis /\
    forall env, inside size env (rest source axis) -> settled_outside dyn axis env -> 0 < elements size dyn axis env ->
      (fraction size q env == inject_Z (fold_right Z.add 0%Z (entries size dyn axis source env)) / inject_Z (Z.of_nat (elements size dyn axis env)))%Q.
Proof.
  intros Hok Hred Hcnt Hfuel. unfold reduce_mean. destruct (reduce_ok size dyn rank fuel 0 0 source Hok MSum axis Hred Hfuel eq_refl) as (s & Es & Hws & Hds & Hvs); [discriminate|]. rewrite Es. cbn [bind].
  pose proof (proj1 Hws) as Hshape. rewrite Hds in Hshape. rewrite Hshape, Hds.
  assert (Htot : (0 < fold_left (fun n d => n * Z.of_nat (size (d_base d)))%Z axis 1%Z)%Z).
  { rewrite size_product. apply zprod_pos. intros x Hx. apply in_map_iff in Hx as (c & <- & Hc). pose proof (red_size _ _ _ _ Hred c (proj2 (proj2 (red_axes _ _ _ _ Hred)) c Hc)). lia. }
  assert (Hset' : forall env, settled_outside dyn axis env -> forall e, In e (places size (bases axis) env) -> settled dyn axis e). { intros env H e He. apply H. exact (proj2 (places_inside size _ _ _ He)). }
  destruct (existsb (need_masking dyn) axis) eqn:Ex; cbn [andb].
  - destruct (num_ok size dyn rank fuel Hok axis Hcnt) as (n & En & Hwn & Hcn & Hvn); [apply (proj1 (proj2 (red_axes _ _ _ _ Hred)))|exact Hfuel|]. rewrite En. cbn [bind].
    assert (Hinc : incl (bases (dims n)) (bases (rest source axis))). { intros x Hx. destruct (Hcn x Hx) as (Hna & c & t & Hc & Et & Hin). apply in_rest. split; [|exact Hna]. apply (red_lens _ _ _ _ Hred c t Hc Et), Hin. }
    destruct (compatible_ok size n (rest source axis) Hwn) as (c & Ec & Hst & Hlen); [rewrite <- Hds; apply Hws|exact Hinc|]. rewrite Ec. cbn [bind]. eexists. split; [reflexivity|]. split; [reflexivity|].
    intros env Hi Hset Hpos. rewrite fraction_at by exact Hi. destruct Hst as (_ & _ & _ & Hst). rewrite Hst by exact Hi. rewrite Hvn; [|eapply inside_incl; eassumption|exact Hset].
    specialize (Hvs env Hi (Hset' env Hset)). unfold value in Hvs. rewrite Hds in Hvs. cbn [reduced picks] in Hvs. rewrite Hvs by discriminate. field. split; apply inject_nonzero; [lia|exact Htot].
  - eexists. split; [reflexivity|]. split; [reflexivity|]. intros env Hi Hset Hpos. rewrite fraction_at by exact Hi. specialize (Hvs env Hi (Hset' env Hset)). unfold value in Hvs. rewrite Hds in Hvs. cbn [reduced picks] in Hvs. rewrite Hvs by discriminate.
    replace (Z.of_nat (elements size dyn axis env)) with (fold_left (fun n d => n * Z.of_nat (size (d_base d)))%Z axis 1%Z); [reflexivity|]. rewrite size_product, <- (places_length size (bases axis) env). unfold elements. f_equal. f_equal. symmetry. apply filter_id. intros e He.
    apply forallb_forall. intros c Hc. assert (Hlt : e c < size c) by (apply (proj1 (places_inside size _ _ _ He)); [exact Hc|apply (red_axes _ _ _ _ Hred)]). unfold bases in Hc. apply in_map_iff in Hc as (d & <- & Hd). eapply no_mask_in; [exact Hok| |exact Hlt].
    destruct (need_masking dyn d) eqn:E; [|reflexivity]. assert (existsb (need_masking dyn) axis = true) by (apply existsb_exists; exists d; auto). congruence.
Qed.
