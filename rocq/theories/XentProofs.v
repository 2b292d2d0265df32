From Verif Require Import Base ListLemmas TensorModel TensorSpec TensorProofs MatmulModel MatmulSpec MatmulProofs ReshapeModel ReshapeSpec ReshapeProofs XentModel XentSpec.
Local Open Scope nat_scope.

Definition nodim : dim := {| d_base := 0; d_copy := 0; d_prio := 0 |}.
Definition get_dims (ds : list dim) (p : list nat) : list dim := map (fun i => nth i ds nodim) p.
Lemma dim_index_nth ds i : NoDup (bases ds) -> i < length ds -> dim_index ds (nth i ds nodim) = i.
Proof.
  intros Hn Hi. rewrite dim_index_pos. assert (E : d_base (nth i ds nodim) = nth i (bases ds) 0) by (unfold bases; rewrite (nth_indep _ 0 (d_base nodim)) by (rewrite map_length; exact Hi); rewrite map_nth; reflexivity). rewrite E.
  assert (Hin : In (nth i (bases ds) 0) (bases ds)) by (apply nth_In; unfold bases; rewrite map_length; exact Hi). pose proof (pos_lt _ _ Hin) as H1. pose proof (pos_nth_In _ _ Hin) as H2.
  apply (proj1 (NoDup_nth (bases ds) 0) Hn); [exact H1|unfold bases; rewrite map_length; exact Hi|exact H2].
Qed.
Lemma get_dims_axes ds p : NoDup (bases ds) -> (forall i, In i p -> i < length ds) -> map (dim_index ds) (get_dims ds p) = p.
Proof. intros Hn Hp. unfold get_dims. rewrite map_map. apply map_fixed. intros i Hi. apply dim_index_nth; auto. Qed.
Lemma get_dims_perm ds p : Permutation p (seq 0 (length ds)) -> Permutation (bases (get_dims ds p)) (bases ds).
Proof.
  intros HP. unfold bases. apply Permutation_map. unfold get_dims. rewrite HP. clear HP p. induction ds as [|d ds IH]; [reflexivity|]. cbn [length seq map nth]. constructor. rewrite <- seq_shift, map_map. exact IH.
Qed.
Lemma same_set_perm a b : NoDup (bases a) -> NoDup (bases b) -> same_set a b = true -> Permutation (bases a) (bases b).
Proof.
  intros Ha Hb H. unfold same_set in H. apply andb_true_iff in H as [H1 H2]. rewrite forallb_forall in H1, H2. apply NoDup_Permutation; [exact Ha|exact Hb|].
  intros c. unfold bases. rewrite !in_map_iff. split; intros (d & <- & Hd); [apply H1, mem_In in Hd|apply H2, mem_In in Hd]; unfold bases in Hd; apply in_map_iff in Hd as (x & E & Hx); exists x; auto.
Qed.
Lemma perm_same_set a b : Permutation (bases a) (bases b) -> same_set a b = true.
Proof. intros HP. unfold same_set. apply andb_true_iff. split; apply forallb_forall; intros d Hd; apply mem_In; [apply (Permutation_in _ HP)|apply (Permutation_in _ (Permutation_sym HP))]; apply In_base, Hd. Qed.

Section WithSize.
Context (size : nat -> nat).

Lemma transpose_axes_ok t p : well size t -> Permutation p (seq 0 (length (dims t))) ->
  exists r, transpose_axes t p = Ok {| dims := get_dims (dims t) p; traw := r |} /\ well size {| dims := get_dims (dims t) p; traw := r |} /\
    forall env, inside size env (dims t) -> value {| dims := get_dims (dims t) p; traw := r |} env = value t env.
Proof.
  intros Hw HP. pose proof Hw as (_ & _ & Hn). assert (Hlt : forall i, In i p -> i < length (dims t)) by (intros i; apply perm_In, HP). assert (Hlen : length p = length (dims t)) by (rewrite (Permutation_length HP), seq_length; reflexivity).
  destruct (permute_values size t (get_dims (dims t) p) Hw (get_dims_perm _ _ HP)) as (r & E & Hwr & Hv). rewrite get_dims_axes in E by assumption. exists r. split; [|auto].
  unfold transpose_axes. rewrite Hlen, Nat.eqb_refl. cbn [assert_ bind]. pose proof (perm_check _ _ HP) as Hc. apply andb_true_iff in Hc as [_ Hc]. rewrite Hc.
  assert (Hb : forallb (fun a => a <? length (dims t)) p = true) by (apply forallb_forall; intros a Ha; apply Nat.ltb_lt, Hlt, Ha). rewrite Hb. cbn [andb assert_ bind]. rewrite E. reflexivity.
Qed.

(** the dims of the logits after the code has permuted them *)
Definition permuted_dims (L O : list dim) : list dim := get_dims L (map (dim_index O) L).
Lemma index_perm L O : NoDup (bases O) -> Permutation (bases O) (bases L) -> Permutation (map (dim_index O) L) (seq 0 (length L)).
Proof. intros Hn HP. assert (E : length L = length O) by (rewrite <- (bases_len L), <- (bases_len O); symmetry; apply Permutation_length, HP). rewrite E. apply axes_perm; [exact Hn|symmetry; exact HP]. Qed.
Lemma permuted_nth L O k x : nth_error (bases L) k = Some x -> incl (bases L) (bases O) -> length O = length L -> nth_error (bases (permuted_dims L O)) k = nth_error (bases L) (pos x (bases O)).
Proof.
  intros Hk Hi Hl. assert (Hx : In x (bases O)) by (apply Hi; eapply nth_error_In, Hk). pose proof (pos_lt _ _ Hx) as Hp. rewrite bases_len, Hl in Hp.
  unfold permuted_dims, get_dims, bases. rewrite !nth_error_map. unfold bases in Hk. rewrite nth_error_map in Hk. destruct (nth_error L k) as [d|]; [|discriminate]. cbn in Hk. injection Hk as Hk. cbn. rewrite dim_index_pos, Hk.
  fold (bases O). rewrite (nth_error_nth' L nodim) by exact Hp. reflexivity.
Qed.
Lemma mirrored_iff L O : NoDup (bases L) -> Permutation (bases O) (bases L) -> mirrored L O <-> bases (permuted_dims L O) = bases O.
Proof.
  intros Hn HP. assert (Hl : length O = length L) by (rewrite <- (bases_len L), <- (bases_len O); apply Permutation_length, HP). assert (Hi : incl (bases L) (bases O)) by (intros c; apply Permutation_in, Permutation_sym, HP).
  assert (HnO : NoDup (bases O)) by (eapply Permutation_NoDup; [apply Permutation_sym, HP|exact Hn]).
  split.
  - intros Hm. apply nth_error_ext. intros k. destruct (nth_error (bases L) k) as [x|] eqn:Ex.
    + rewrite (permuted_nth L O k x Ex Hi Hl). assert (Hx : In x (bases O)) by (apply Hi; eapply nth_error_In, Ex). pose proof (pos_lt _ _ Hx) as Hp.
      assert (Ej : nth_error (bases O) (pos x (bases O)) = Some x) by (rewrite (nth_error_nth' _ 0 Hp), pos_nth_In by exact Hx; reflexivity).
      destruct (nth_error (bases L) (pos x (bases O))) as [y|] eqn:Ey; [|apply nth_error_None in Ey; rewrite bases_len in *; lia]. symmetry. eapply Hm; eassumption.
    + apply nth_error_None in Ex. rewrite bases_len in Ex. rewrite !(proj2 (nth_error_None _ k)); [reflexivity| |]; rewrite bases_len; [lia|]. unfold permuted_dims, get_dims. rewrite !map_length. lia.
  - intros E i j x y H1 H2 H3. rewrite <- E, (permuted_nth L O i x H1 Hi Hl). assert (Hx : In x (bases O)) by (eapply nth_error_In, H2). pose proof (pos_lt _ _ Hx) as Hp.
    assert (j = pos x (bases O)). { apply (proj1 (NoDup_nth_error (bases O)) HnO); [apply nth_error_Some; congruence|]. rewrite H2, (nth_error_nth' _ 0 Hp), pos_nth_In by exact Hx. reflexivity. }
    subst j. exact H3.
Qed.

Lemma bases_nil l : bases l = [] -> l = [].
Proof. destruct l; [reflexivity|discriminate]. Qed.
Lemma with_in_mid env X axis c : ~ In (d_base axis) (bases X) -> map (with_index env (d_base axis) c) (bases (class_second axis X)) = match map env (bases X) with [] => [c] | k :: i => k :: c :: i end.
Proof.
  intros Ha. destruct X as [|x X]; cbn [class_second bases map].
  - rewrite with_at. reflexivity.
  - fold (bases X). rewrite with_at. cbn in Ha. rewrite with_out by (intros H; apply Ha; right; exact H). unfold with_index. destruct (Nat.eqb_spec (d_base x) (d_base axis)) as [E|_]; [exfalso; apply Ha; left; exact E|reflexivity].
Qed.
Lemma classes_ok t t' X axis env : bases (dims t') = bases (class_second axis X) -> ~ In (d_base axis) (bases X) -> Permutation (bases (dims t')) (bases (dims t)) ->
  (forall e, inside size e (dims t) -> value t' e = value t e) -> inside size env X ->
  over_classes (traw t') (size (d_base axis)) (map env (bases X)) = class_values size t axis env.
Proof.
  intros Hb Ha HP Hv Hi. unfold over_classes, class_values. apply map_ext_in. intros c Hc. apply in_seq in Hc. rewrite <- Hv.
  - unfold value. rewrite Hb, with_in_mid by exact Ha. reflexivity.
  - eapply inside_perm; [exact HP|]. unfold inside in *. rewrite Hb. rewrite Forall_forall in *. intros x Hx. unfold with_index. destruct (Nat.eqb_spec x (d_base axis)) as [->|Hne]; [lia|]. apply Hi.
    destruct X as [|y X]; cbn in *; [destruct Hx as [Hx|[]]; congruence|]. destruct Hx as [Hx|[Hx|Hx]]; [left; exact Hx|congruence|right; exact Hx].
Qed.
Lemma second_shape X axis : exists (b : nat) (s : list nat), sizes size (class_second axis X) = b :: s /\ match s with [] => (b, []) | c :: s => (c, b :: s) end = (size (d_base axis), sizes size X).
Proof. destruct X as [|x X]; [exists (size (d_base axis)), []|exists (size (d_base x)), (size (d_base axis) :: sizes size X)]; split; reflexivity. Qed.

(** the logits are in the order of the target *)
Lemma core_ok ce logits logits' targets targets' X axis (dense : bool) : ~ In (d_base axis) (bases X) -> NoDup (bases X) ->
  well size logits' -> bases (dims logits') = bases (class_second axis X) -> Permutation (bases (dims logits')) (bases (dims logits)) -> (forall e, inside size e (dims logits) -> value logits' e = value logits e) ->
  well size targets' -> bases (dims targets') = bases (if dense then class_second axis X else X) -> Permutation (bases (dims targets')) (bases (dims targets)) -> (forall e, inside size e (dims targets) -> value targets' e = value targets e) ->
  NoDup (bases (dims logits)) ->
  exists r, cross_entropy_raw ce dense (traw logits') (traw targets') = Ok r /\ is_cross_entropy size ce logits targets dense axis {| dims := remove_dim axis (dims logits'); traw := r |}.
Proof.
  intros Ha Hn (Hs & Hl & _) Hb HP Hv (Hst & Hlt & _) Hbt HPt Hvt HnL. destruct (second_shape X axis) as (b & s & Es & E2). unfold cross_entropy_raw. rewrite Hs, Hb. fold (sizes size (class_second axis X)). rewrite Es, E2.
  assert (Hchk : same_nats (shape (traw targets')) (if dense then b :: s else sizes size X) = true) by (apply same_nats_eq; rewrite Hst, Hbt; destruct dense; [rewrite <- Es|]; reflexivity). rewrite Hchk.
  eexists. split; [reflexivity|].
  assert (Hbr : bases (remove_dim axis (dims logits')) = bases X).
  { destruct (dims logits') as [|l0 L0] eqn:EL; [destruct X; discriminate|]. destruct X as [|x X]; cbn [class_second bases map] in Hb.
    - injection Hb as Hb1 Hb2. cbn. rewrite (proj2 (deq_eq l0 axis) Hb1). exact Hb2.
    - injection Hb as Hb1 Hb2. cbn [remove_dim]. destruct (deq l0 axis) eqn:E; [apply deq_eq in E; exfalso; apply Ha; left; congruence|]. destruct L0 as [|l1 L0]; [discriminate|]. cbn in Hb2. injection Hb2 as Hb2 Hb3. cbn [remove_dim]. rewrite (proj2 (deq_eq l1 axis) Hb2). cbn. f_equal; [exact Hb1|exact Hb3]. }
  split; [|split].
  - split; [|split]; cbn [dims traw]; rewrite ?Hbr; [reflexivity|apply tabulate_len|exact Hn].
  - cbn [dims]. rewrite Hbr. rewrite Hb in HP. apply NoDup_Permutation; [exact Hn|apply NoDup_filter, HnL|]. intros c. unfold other_names. rewrite filter_In. rewrite <- HP. destruct X as [|x X]; cbn [class_second bases map In].
    + split; [intros []|]. intros [[<-|[]] H]. rewrite Nat.eqb_refl in H. discriminate.
    + split.
      * intros H. split; [tauto|]. apply negb_true_iff, Nat.eqb_neq. intros ->. apply Ha. exact H.
      * intros [[H|[H|H]] H2]; [left; exact H| |right; exact H]. subst c. rewrite Nat.eqb_refl in H2. discriminate.
  - intros env Hi. unfold inside in Hi. cbn [dims] in Hi. rewrite Hbr in Hi. unfold value at 1. cbn [dims traw]. rewrite Hbr. rewrite at_tabulate by (apply inside_indexes, Hi).
    rewrite (classes_ok logits logits' X axis env Hb Ha HP Hv Hi). destruct dense.
    + rewrite (classes_ok targets targets' X axis env Hbt Ha HPt Hvt Hi). reflexivity.
    + do 2 f_equal. rewrite <- Hvt by (eapply inside_perm; [exact HPt|]; unfold inside; rewrite Hbt; exact Hi). unfold value. rewrite Hbt. reflexivity.
Qed.
(** if all sizes are different, nothing else passes the check of the shapes *)
Lemma core_only ce logits' targets' X axis (dense : bool) r : (forall c c', In c (bases (dims logits')) -> In c' (bases (dims logits')) -> size c = size c' -> c = c') ->
  well size logits' -> Permutation (bases (dims logits')) (bases (class_second axis X)) -> well size targets' -> bases (dims targets') = bases (if dense then class_second axis X else X) ->
  cross_entropy_raw ce dense (traw logits') (traw targets') = Ok r -> bases (dims logits') = bases (class_second axis X).
Proof.
  intros Hinj (Hs & _) HP (Hst & _) Hbt H. unfold cross_entropy_raw in H. rewrite Hs, Hst, Hbt in H.
  assert (Hm : forall a b, (forall c, In c a -> In c (bases (dims logits'))) -> (forall c, In c b -> In c (bases (dims logits'))) -> map size a = map size b -> a = b).
  { induction a as [|x a IH]; intros [|y b] H1 H2 E; try discriminate; [reflexivity|]. cbn in E. injection E as E1 E2. f_equal; [apply Hinj; auto; [apply H1; left; reflexivity|apply H2; left; reflexivity]|]. apply IH; [intros c Hc; apply H1; right; exact Hc|intros c Hc; apply H2; right; exact Hc|exact E2]. }
  destruct (bases (dims logits')) as [|l0 l] eqn:EL; [discriminate|]. cbn [map] in H. destruct l as [|l1 l].
  - apply Permutation_length_1_inv in HP. symmetry. exact HP.
  - cbn [map] in H. destruct (same_nats (map size _) (if dense then _ else _)) eqn:E; [|discriminate]. apply same_nats_eq in E. destruct dense.
    + symmetry. apply Hm; [intros c; apply Permutation_in, Permutation_sym, HP|auto|exact E].
    + assert (HX : incl (bases X) (l0 :: l1 :: l)) by (intros c Hc; apply (Permutation_in _ (Permutation_sym HP)); destruct X; [destruct Hc|]; cbn in *; tauto).
      change (size l0 :: map size l) with (map size (l0 :: l)) in E. apply Hm in E; [|exact HX|intros c [<-|Hc]; [left; reflexivity|right; right; exact Hc]].
      destruct X as [|x X]; [discriminate|]. cbn in E. injection E as E1 E2. cbn [class_second bases map] in *. fold (bases X) in *. rewrite E1, E2 in *. f_equal.
      apply Permutation_cons_inv in HP. change (l1 :: l) with ([l1] ++ l) in HP. change (d_base axis :: l) with ([d_base axis] ++ l) in HP. apply Permutation_app_inv_r, Permutation_length_1_inv in HP. injection HP as ->. reflexivity.
Qed.

Lemma names_filter t axis : bases (filter (fun d => negb (deq d axis)) (dims t)) = other_names t axis.
Proof. unfold other_names, bases. induction (dims t) as [|d l IH]; [reflexivity|]. cbn. unfold deq. destruct (d_base d =? d_base axis); cbn; [exact IH|f_equal; exact IH]. Qed.
Lemma names_in t axis : In (d_base axis) (bases (dims t)) -> NoDup (bases (dims t)) -> Permutation (d_base axis :: other_names t axis) (bases (dims t)).
Proof.
  intros Ha Hn. apply NoDup_Permutation; [constructor; [unfold other_names; rewrite filter_In; intros [_ H]; rewrite Nat.eqb_refl in H; discriminate|apply NoDup_filter, Hn]|exact Hn|].
  intros c. cbn. unfold other_names. rewrite filter_In. split; [intros [<-|[H _]]; assumption|]. intros H. destruct (Nat.eqb_spec c (d_base axis)); [left; auto|right; auto].
Qed.
Lemma second_perm axis X : Permutation (bases (class_second axis X)) (d_base axis :: bases X).
Proof. destruct X as [|x X]; cbn; [reflexivity|]. apply perm_swap. Qed.

(** moving the classes to the second axis *)
Lemma move_ok t axis : well size t -> In (d_base axis) (bases (dims t)) -> 2 <= length (dims t) ->
  exists t', move_axis t (dim_index (dims t) axis) 1 = Ok t' /\ well size t' /\ bases (dims t') = bases (class_second axis (filter (fun d => negb (deq d axis)) (dims t))) /\
    forall e, inside size e (dims t) -> value t' e = value t e.
Proof.
  intros Hw Ha Hl. pose proof Hw as (_ & _ & Hn). unfold move_axis. pose proof (index_lt _ _ Ha) as Hi. rewrite (proj2 (Nat.ltb_lt _ _) Hi), (proj2 (Nat.ltb_lt 1 (length (dims t)))) by lia. cbn [andb assert_ bind].
  destruct (axis_around size t axis Hw Ha) as (A & x & B & El & Ex & Ei & HA & HB & HAB).
  assert (Ef : filter (fun d => negb (deq d axis)) (dims t) = A ++ B).
  { rewrite El, filter_app. cbn [filter]. rewrite (proj2 (deq_eq x axis) Ex). cbn [negb]. f_equal; apply filter_all; intros d Hd; apply negb_true_iff; unfold deq; apply Nat.eqb_neq; intros E; [apply HA|apply HB]; rewrite <- E; apply In_base, Hd. }
  rewrite Ef. destruct (Nat.eqb_spec (dim_index (dims t) axis) 1) as [E1|E1].
  - exists t. split; [reflexivity|]. split; [exact Hw|]. split; [|reflexivity]. rewrite E1 in Ei. destruct A as [|a [|a' A]]; try discriminate. rewrite El. cbn. rewrite Ex. reflexivity.
  - set (oth := filter (fun i => negb (i =? dim_index (dims t) axis)) (seq 0 (length (dims t)))).
    assert (Eo : oth = map (dim_index (dims t)) (A ++ B)).
    { unfold oth. rewrite filter_axes by exact Hn. f_equal. rewrite <- Ef. apply filter_ext_in. intros d Hd. f_equal. unfold deq. destruct (Nat.eqb_spec (d_base d) (d_base axis)) as [E|E].
      - apply Nat.eqb_eq. rewrite !dim_index_pos, E. reflexivity.
      - apply Nat.eqb_neq. rewrite !dim_index_pos. intros E'. apply E. eapply pos_inj; [apply In_base, Hd|exact Ha|exact E']. }
    assert (HABne : exists y Y, A ++ B = y :: Y).
    { destruct (A ++ B) as [|y Y] eqn:EAB; [|eauto]. apply app_eq_nil in EAB as [-> ->]. rewrite El in Hl. cbn in Hl. lia. }
    destruct HABne as (y & Y & EY). rewrite Eo, EY. cbn [map firstn skipn app].
    set (p := dim_index (dims t) y :: dim_index (dims t) axis :: map (dim_index (dims t)) Y).
    assert (Ep : p = map (dim_index (dims t)) (y :: x :: Y)) by (unfold p; cbn [map]; do 2 f_equal; rewrite !dim_index_pos, Ex; reflexivity).
    assert (HPd : Permutation (y :: x :: Y) (dims t)) by (rewrite El, perm_swap, <- EY; apply Permutation_middle).
    assert (HPp : Permutation p (seq 0 (length (dims t)))) by (rewrite Ep; apply axes_perm; [exact Hn|apply Permutation_map, HPd]).
    destruct (transpose_axes_ok t p Hw HPp) as (r & E & Hwr & Hv). rewrite E. eexists. split; [reflexivity|]. split; [exact Hwr|]. split; [|exact Hv]. cbn [dims]. rewrite Ep. unfold get_dims. rewrite map_map, map_fixed; [cbn; rewrite Ex; reflexivity|].
    intros d Hd. apply get_index; [exact Hn|]. eapply Permutation_in; [exact HPd|exact Hd].
Qed.

Lemma prepared ce logits targets sparse axis (dense : bool) : well size logits -> well size targets -> In (d_base axis) (bases (dims logits)) -> sparse_ok sparse axis dense -> targets_ok logits targets axis dense ->
  exists targets' order L', bases order = bases (target_order targets axis dense) /\ well size targets' /\ Permutation (bases (dims targets')) (bases (dims targets)) /\ (forall e, inside size e (dims targets) -> value targets' e = value targets e) /\
    bases (dims targets') = bases (if dense then target_order targets axis dense else dims targets) /\
    well size L' /\ bases (dims L') = bases (permuted_dims (dims logits) order) /\ Permutation (bases (dims L')) (bases (dims logits)) /\ (forall e, inside size e (dims logits) -> value L' e = value logits e) /\
    Permutation (bases order) (bases (dims logits)) /\
    cross_entropy ce logits targets sparse axis = (let* r := cross_entropy_raw ce dense (traw L') (traw targets') in Ok {| dims := remove_dim axis (dims L'); traw := r |}).
Proof.
  intros Hw Hwt Ha Hsp Hto. pose proof Hw as (_ & _ & Hn). pose proof Hwt as (_ & _ & Hnt).
  (* the targets *)
  assert (Ht : exists targets' order, bases order = bases (target_order targets axis dense) /\ well size targets' /\ Permutation (bases (dims targets')) (bases (dims targets)) /\ (forall e, inside size e (dims targets) -> value targets' e = value targets e) /\
    bases (dims targets') = bases (if dense then target_order targets axis dense else dims targets) /\ Permutation (bases order) (bases (dims logits)) /\
    cross_entropy ce logits targets sparse axis = (let* p := mapM (index_of order) (dims logits) in let* logits := transpose_axes logits p in let* r := cross_entropy_raw ce dense (traw logits) (traw targets') in Ok {| dims := remove_dim axis (dims logits); traw := r |})).
  { unfold cross_entropy. rewrite (proj2 (mem_In axis (dims logits)) Ha). cbn [assert_ bind]. destruct dense; cbn [sparse_ok targets_ok target_order] in *.
    - subst sparse. cbn [assert_ bind]. rewrite perm_same_set by (symmetry; exact Hto). cbn [assert_ bind]. assert (Hat : In (d_base axis) (bases (dims targets))) by (apply (Permutation_in _ (Permutation_sym Hto)), Ha). rewrite (proj2 (mem_In axis (dims targets)) Hat). cbn [assert_ bind].
      assert (HPo : Permutation (bases (class_second axis (filter (fun d => negb (deq d axis)) (dims targets)))) (bases (dims targets))) by (rewrite second_perm, names_filter; apply names_in; assumption).
      destruct (Nat.ltb_spec 1 (length (dims targets))) as [Hlen|Hlen].
      + destruct (move_ok targets axis Hwt Hat Hlen) as (t' & E & Hwt' & Hbt' & Hvt'). exists t', (dims t'). rewrite E. cbn [bind]. split; [exact Hbt'|]. split; [exact Hwt'|]. split; [rewrite Hbt'; exact HPo|]. split; [exact Hvt'|]. split; [exact Hbt'|]. split; [rewrite Hbt', HPo; exact Hto|reflexivity].
      + exists targets, (dims targets). assert (E : bases (dims targets) = bases (class_second axis (filter (fun d => negb (deq d axis)) (dims targets)))).
        { destruct (dims targets) as [|d [|d' l]]; [destruct Hat|destruct Hat as [Hat|[]]|cbn in Hlen; lia]. cbn. rewrite (proj2 (deq_eq d axis) Hat). cbn. rewrite Hat. reflexivity. }
        split; [exact E|]. split; [exact Hwt|]. split; [reflexivity|]. split; [reflexivity|]. split; [exact E|]. split; [exact Hto|reflexivity].
    - destruct Hsp as (d & -> & Ed). rewrite (proj2 (deq_eq axis d)) by congruence. rewrite perm_same_set by (rewrite names_filter; symmetry; exact Hto). cbn [assert_ bind]. exists targets, (class_second axis (dims targets)).
      split; [reflexivity|]. split; [exact Hwt|]. split; [reflexivity|]. split; [reflexivity|]. split; [reflexivity|]. split; [rewrite second_perm, Hto; apply names_in; assumption|reflexivity]. }
  destruct Ht as (targets' & order & Ho & Hwt' & HPt & Hvt & Hbt & HPo & ->). exists targets', order.
  rewrite (mapM_ok_map _ (dim_index order)) by (intros d Hd; unfold index_of; rewrite (proj2 (mem_In d order)); [reflexivity|apply (Permutation_in _ (Permutation_sym HPo)), In_base, Hd]). cbn [bind].
  assert (Hno : NoDup (bases order)) by (eapply Permutation_NoDup; [apply Permutation_sym, HPo|exact Hn]).
  destruct (transpose_axes_ok logits (map (dim_index order) (dims logits)) Hw (index_perm _ _ Hno HPo)) as (r & E & HwL & HvL). rewrite E. cbn [bind]. eexists. do 5 (split; [eassumption|]). split; [exact HwL|]. split; [reflexivity|]. split; [apply get_dims_perm, index_perm; assumption|]. split; [exact HvL|]. split; [exact HPo|reflexivity].
Qed.

Lemma order_parts logits targets axis (dense : bool) : well size logits -> well size targets -> In (d_base axis) (bases (dims logits)) -> targets_ok logits targets axis dense ->
  exists X, target_order targets axis dense = class_second axis X /\ ~ In (d_base axis) (bases X) /\ NoDup (bases X) /\ (if dense then target_order targets axis dense else dims targets) = (if dense then class_second axis X else X).
Proof.
  intros (_ & _ & Hn) (_ & _ & Hnt) Ha Hto. unfold target_order. destruct dense; cbn in *.
  - exists (filter (fun d => negb (deq d axis)) (dims targets)). split; [reflexivity|]. rewrite names_filter. split; [unfold other_names; rewrite filter_In, Nat.eqb_refl; intros [_ H]; discriminate|]. split; [apply NoDup_filter, Hnt|reflexivity].
  - exists (dims targets). split; [reflexivity|]. split; [intros H; apply (Permutation_in _ Hto) in H; unfold other_names in H; apply filter_In in H as [_ H]; rewrite Nat.eqb_refl in H; discriminate|]. split; [exact Hnt|reflexivity].
Qed.
Lemma xent_ok ce logits targets sparse axis dense : well size logits -> well size targets -> In (d_base axis) (bases (dims logits)) -> sparse_ok sparse axis dense -> targets_ok logits targets axis dense ->
  mirrored (dims logits) (target_order targets axis dense) ->
  exists r, cross_entropy ce logits targets sparse axis = Ok r /\ is_cross_entropy size ce logits targets dense axis r.
Proof.
  intros Hw Hwt Ha Hsp Hto Hm. destruct (prepared ce logits targets sparse axis dense Hw Hwt Ha Hsp Hto) as (targets' & order & L' & Ho & Hwt' & HPt & Hvt & Hbt & HwL & HbL & HPL & HvL & HPo & ->).
  destruct (order_parts logits targets axis dense Hw Hwt Ha Hto) as (X & EX & HaX & HnX & EX2). pose proof Hw as (_ & _ & Hn).
  assert (Hm' : mirrored (dims logits) order) by (intros i j x y; rewrite Ho; apply Hm). apply mirrored_iff in Hm'; [|exact Hn|exact HPo]. rewrite Ho, EX in Hm'. rewrite EX2 in Hbt. rewrite <- HbL in Hm'.
  destruct (core_ok ce logits L' targets targets' X axis dense HaX HnX HwL Hm' HPL HvL Hwt' Hbt HPt Hvt Hn) as (r & E & H). rewrite E. cbn [bind]. eexists. split; [reflexivity|exact H].
Qed.
Lemma xent_only ce logits targets sparse axis dense r : well size logits -> well size targets -> In (d_base axis) (bases (dims logits)) -> sparse_ok sparse axis dense -> targets_ok logits targets axis dense ->
  (forall c c', In c (bases (dims logits)) -> In c' (bases (dims logits)) -> size c = size c' -> c = c') ->
  cross_entropy ce logits targets sparse axis = Ok r -> mirrored (dims logits) (target_order targets axis dense).
Proof.
  intros Hw Hwt Ha Hsp Hto Hinj H. destruct (prepared ce logits targets sparse axis dense Hw Hwt Ha Hsp Hto) as (targets' & order & L' & Ho & Hwt' & HPt & Hvt & Hbt & HwL & HbL & HPL & HvL & HPo & E). rewrite E in H. apply bind_Ok in H as (r' & H & _).
  destruct (order_parts logits targets axis dense Hw Hwt Ha Hto) as (X & EX & HaX & HnX & EX2). pose proof Hw as (_ & _ & Hn). rewrite EX2 in Hbt.
  apply core_only with (X := X) (axis := axis) in H; [|intros c c' Hc Hc'; apply Hinj; apply (Permutation_in _ HPL); assumption|exact HwL|rewrite HPL, <- HPo, Ho, EX; reflexivity|exact Hwt'|exact Hbt].
  assert (Hm : mirrored (dims logits) order) by (apply mirrored_iff; [exact Hn|exact HPo|rewrite <- HbL, H, Ho, EX; reflexivity]). intros i j x y. rewrite <- Ho. apply Hm.
Qed.
End WithSize.

Lemma mem_bases d l : mem d l = true <-> In (d_base d) (bases l).
Proof.
  unfold mem, bases. rewrite existsb_exists, in_map_iff. split; intros (x & A & B).
  - unfold deq in B. apply Nat.eqb_eq in B. exists x. auto.
  - exists x. split; [exact B|]. unfold deq. apply Nat.eqb_eq. auto.
Qed.
Lemma xent_accepts : forall ce logits targets sparse axis r, cross_entropy ce logits targets sparse axis = Ok r ->
  In (d_base axis) (bases (dims logits)) /\
  ((exists d, sparse = Some d /\ d_base d = d_base axis /\ forall b, In b (bases (dims targets)) <-> In b (bases (dims logits)) /\ b <> d_base axis) \/
   (sparse = None /\ forall b, In b (bases (dims targets)) <-> In b (bases (dims logits)))).
Proof.
  intros ce logits targets sparse axis r H. unfold cross_entropy in H.
  destruct (mem axis (dims logits)) eqn:Ha; [|discriminate]. cbn [assert_ bind] in H. split; [apply mem_bases; exact Ha|].
  assert (SS : forall a b, same_set a b = true -> forall c, In c (bases b) <-> In c (bases a)).
  { intros a b E c. unfold same_set in E. apply andb_prop in E as [E1 E2]. rewrite forallb_forall in E1, E2. split; intros Hc; apply in_map_iff in Hc as (d & <- & Hd); apply mem_bases; auto. }
  destruct sparse as [d|].
  - destruct (deq axis d) eqn:Ed; [|discriminate]. left. exists d. split; [reflexivity|]. unfold deq in Ed. apply Nat.eqb_eq in Ed. split; [auto|].
    destruct (same_set (filter (fun d => negb (deq d axis)) (dims logits)) (dims targets)) eqn:E; [|discriminate]. intros b. rewrite (SS _ _ E b). unfold bases. rewrite !in_map_iff. split.
    + intros (x & <- & Hx). apply filter_In in Hx as [Hx N]. split; [exists x; auto|]. unfold deq in N. intros Q. rewrite Q, Nat.eqb_refl in N. discriminate.
    + intros [(x & <- & Hx) N]. exists x. split; [reflexivity|]. apply filter_In. split; [exact Hx|]. unfold deq. apply Nat.eqb_neq in N. rewrite N. reflexivity.
  - right. split; [reflexivity|]. cbn [assert_ bind] in H. destruct (same_set (dims logits) (dims targets)) eqn:E; [|discriminate]. apply SS. exact E.
Qed.
