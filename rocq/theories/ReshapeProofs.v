From Coq Require Import Sorted.
From Verif Require Import Base ListLemmas PySort PySortProofs TensorModel TensorSpec TensorProofs MatmulModel MatmulSpec MatmulProofs ReshapeModel ReshapeSpec.
Local Open Scope nat_scope.

(** * Lists *)
Lemma nth_error_combine_inv {X Y} : forall (l : list X) (l' : list Y) j x y, nth_error (combine l l') j = Some (x, y) -> nth_error l j = Some x /\ nth_error l' j = Some y.
Proof. induction l as [|a l IH]; intros [|b l'] [|j] x y H; cbn in *; try discriminate; [injection H as <- <-; auto|]. apply IH, H. Qed.
Lemma Forall2_of_nth {X Y} (R : X -> Y -> Prop) : forall l l', length l = length l' -> (forall j x y, nth_error l j = Some x -> nth_error l' j = Some y -> R x y) -> Forall2 R l l'.
Proof.
  induction l as [|x l IH]; intros [|y l'] Hl H; try discriminate; constructor; [apply (H 0); reflexivity|]. apply IH; [now injection Hl|]. intros j a b Ha Hb. apply (H (S j)); assumption.
Qed.
Lemma map_snd_combine {X Y} : forall (l : list X) (l' : list Y), length l = length l' -> map snd (combine l l') = l'.
Proof. induction l as [|x l IH]; intros [|y l'] H; try discriminate; [reflexivity|]. cbn. f_equal. apply IH. now injection H. Qed.

(** * Transposing *)
Lemma somes_all p : length (somes p) = length p -> p = map Some (somes p).
Proof.
  assert (Hle : forall q, length (somes q) <= length q) by (induction q as [|[j|] q IH]; cbn in *; [lia|fold (somes q); lia|fold (somes q); lia]).
  induction p as [|[j|] p IH]; intros H; [reflexivity| |].
  - cbn in *. fold (somes p) in *. f_equal. apply IH. lia.
  - cbn in H. fold (somes p) in H. pose proof (Hle p). lia.
Qed.
Lemma permutation_axes own ds p : NoDup (bases own) -> Permutation (bases ds) (bases own) -> out_permutation own ds = Ok p -> p = map Some (map (dim_index own) ds).
Proof.
  intros Hn HP E. pose proof (out_permutation_spec _ _ _ E) as (Hl & Hs & Hf). assert (El : length ds = length own) by (rewrite <- (bases_len ds), <- (bases_len own); apply Permutation_length, HP).
  assert (E' : p = map Some (somes p)) by (apply somes_all; rewrite (Permutation_length Hs), seq_length; lia).
  rewrite E'. f_equal. apply nth_error_ext. intros k. rewrite nth_error_map. destruct (lt_dec k (length ds)) as [Hk|Hk].
  - destruct (nth_error (somes p) k) as [j|] eqn:Ej; [|apply nth_error_None in Ej; rewrite (Permutation_length Hs), seq_length in Ej; lia].
    destruct (nth_error ds k) as [d|] eqn:Ed; [|apply nth_error_None in Ed; lia]. cbn. f_equal.
    destruct (Hf k j d) as (o & Eo & Hb); [rewrite E', nth_error_map, Ej; reflexivity|exact Ed|]. rewrite dim_index_pos.
    assert (Hi : In (d_base d) (bases own)) by (rewrite <- Hb; apply In_base; eapply nth_error_In, Eo).
    pose proof (pos_nth_In _ _ Hi) as H1. pose proof (pos_lt _ _ Hi) as H2. apply (NoDup_nth_error (bases own)); [exact Hn|unfold bases; rewrite map_length; apply nth_error_Some; congruence|].
    rewrite (nth_error_nth' _ 0 H2), H1. unfold bases. rewrite nth_error_map, Eo. cbn. f_equal. exact Hb.
  - rewrite (proj2 (nth_error_None ds k)) by lia. cbn. apply nth_error_None. rewrite (Permutation_length Hs), seq_length. lia.
Qed.

Section WithSize.
Context (size : nat -> nat).

Lemma by_axis_range t env : well size t -> inside size env (dims t) -> in_range (traw t) (by_axis (dims t) env).
Proof.
  intros (Hs & _ & Hn) Hi a Ha. unfold by_axis. rewrite Hs in Ha |- *. rewrite map_length in Ha. unfold inside in Hi. rewrite Forall_forall in Hi.
  rewrite (nth_indep (map size (bases (dims t))) 0 (size 0)) by (rewrite map_length; exact Ha). rewrite map_nth. apply Hi. apply nth_In. exact Ha.
Qed.
Lemma value_by_axis t env : NoDup (bases (dims t)) -> at_ (traw t) (map (by_axis (dims t) env) (seq 0 (length (dims t)))) = value t env.
Proof. intros Hn. unfold value. f_equal. rewrite <- dim_index_self by exact Hn. apply map_by_axis. apply incl_refl. Qed.

Lemma permute_values t ds : well size t -> Permutation (bases ds) (bases (dims t)) ->
  exists r, permute (traw t) (map (dim_index (dims t)) ds) = Ok r /\ well size {| dims := ds; traw := r |} /\
    forall env, inside size env (dims t) -> value {| dims := ds; traw := r |} env = value t env.
Proof.
  intros Hw HP. destruct Hw as (Hs & Hl & Hn). assert (Hlen : length (shape (traw t)) = length (dims t)) by (rewrite Hs, map_length, bases_len; reflexivity).
  destruct (permute_at (traw t) (map (dim_index (dims t)) ds)) as (r & E & Hsh & Hda & Hat); [rewrite Hlen; apply axes_perm; assumption|].
  assert (Hincl : incl (bases ds) (bases (dims t))) by (intros x; apply Permutation_in, HP).
  exists r. split; [exact E|]. rewrite Hs, axes_size in Hsh by exact Hincl. split.
  - split; [exact Hsh|]. split; [exact Hda|]. cbn. eapply Permutation_NoDup; [apply Permutation_sym, HP|exact Hn].
  - intros env Hi. specialize (Hat (by_axis (dims t) env) (by_axis_range t env (conj Hs (conj Hl Hn)) Hi)). rewrite Hlen, value_by_axis, map_by_axis in Hat by assumption. exact Hat.
Qed.

Lemma raw_eta r s : shape r = s -> {| shape := s; data := data r |} = r.
Proof. intros <-. destruct r. reflexivity. Qed.

Lemma transpose_ok t ds : well size t -> Permutation (bases ds) (bases (dims t)) ->
  exists r, transpose_to t ds = Ok {| dims := ds; traw := r |} /\ well size {| dims := ds; traw := r |} /\
    forall env, inside size env (dims t) -> value {| dims := ds; traw := r |} env = value t env.
Proof.
  intros Hw HP. pose proof Hw as (Hs & Hl & Hn). unfold transpose_to. assert (El : length ds = length (dims t)) by (rewrite <- (bases_len ds), <- (bases_len (dims t)); apply Permutation_length, HP).
  rewrite El, Nat.eqb_refl. cbn [assert_ bind]. unfold compatible_raw.
  assert (Hnd : NoDup (bases ds)) by (eapply Permutation_NoDup; [apply Permutation_sym, HP|exact Hn]).
  destruct (out_permutation_complete (dims t) ds Hn Hnd) as (p & Ep); [intros x; apply Permutation_in, Permutation_sym, HP|]. rewrite Ep. cbn [bind].
  pose proof (permutation_axes _ _ _ Hn HP Ep) as E. assert (Es : somes p = map (dim_index (dims t)) ds).
  { rewrite E. generalize (map (dim_index (dims t)) ds). intros l. induction l as [|x l IH]; [reflexivity|]. cbn. f_equal. exact IH. }
  destruct (permute_values t ds Hw HP) as (r & Er & Hwr & Hv).
  destruct ((length p =? length (dims t)) && is_identity 0 p) eqn:Eid.
  - cbn [bind]. exists (traw t). split; [reflexivity|]. apply andb_true_iff in Eid as [E1 E2]. apply Nat.eqb_eq in E1. apply identity_somes in E2 as [E2 _]. rewrite Es, E1 in E2.
    assert (Eb : bases ds = bases (dims t)).
    { rewrite <- dim_index_self, !axes_by_pos in E2 by exact Hn. 
      assert (Hm : forall l l', (forall x, In x l -> In x (bases (dims t))) -> (forall x, In x l' -> In x (bases (dims t))) ->
        map (fun c => pos c (bases (dims t))) l = map (fun c => pos c (bases (dims t))) l' -> l = l').
      { induction l as [|x l IH]; intros [|y l'] H1 H2 H; try discriminate; [reflexivity|]. cbn in H. injection H as Hx H. f_equal.
        - eapply pos_inj; [apply H1; left; reflexivity|apply H2; left; reflexivity|exact Hx].
        - apply IH; [intros z Hz; apply H1; right; exact Hz|intros z Hz; apply H2; right; exact Hz|exact H]. }
      apply Hm; [intros x; apply Permutation_in, HP|auto|exact E2]. }
    split.
    + unfold well. cbn [dims traw]. rewrite Eb. exact Hw.
    + intros env _. unfold value. cbn [dims traw]. rewrite Eb. reflexivity.
  - rewrite Es, Er. cbn [bind].
    assert (Esh : map (fun o => match o with Some j => nth j (shape (traw t)) 0 | None => 1 end) p = shape r).
    { rewrite E, !map_map. destruct Hwr as (Hsr & _). cbn [dims traw] in Hsr. rewrite Hsr. rewrite Hs, <- (axes_size size (dims t) ds) by (intros x; apply Permutation_in, HP). unfold axes_shape. rewrite map_map. reflexivity. }
    rewrite Esh, reshape_ok by reflexivity. cbn [bind]. rewrite raw_eta by reflexivity. exists r. split; [reflexivity|]. split; assumption.
Qed.

(** * Reshaping *)
Lemma position_flat ds env : forall b, position size ds env b = b * prod (sizes size ds) + flat (sizes size ds) (map env (bases ds)).
Proof.
  induction ds as [|d ds IH]; intros b; cbn [position sizes bases map].
  - rewrite prod_nil. cbn. lia.
  - rewrite IH. change (map d_base ds) with (bases ds). change (map size (bases ds)) with (sizes size ds). rewrite prod_cons, flat_cons. nia.
Qed.
Lemma position_flat0 ds env : position size ds env 0 = flat (sizes size ds) (map env (bases ds)).
Proof. rewrite position_flat. lia. Qed.
Lemma at_reshape d s1 s2 s2' s3 i1 i2 i2' i3 : length i1 = length s1 -> length i2 = length s2 -> length i2' = length s2' -> flat s2 i2 = flat s2' i2' -> prod s2 = prod s2' ->
  at_ {| shape := s1 ++ s2' ++ s3; data := d |} (i1 ++ i2' ++ i3) = at_ {| shape := s1 ++ s2 ++ s3; data := d |} (i1 ++ i2 ++ i3).
Proof. intros H1 H2 H2' Hf Hp. unfold at_. cbn [shape data]. f_equal. rewrite !flat_app by assumption. rewrite !prod_app, Hf, Hp. reflexivity. Qed.
Lemma inside_app env a b : inside size env (a ++ b) <-> inside size env a /\ inside size env b.
Proof. unfold inside. rewrite bases_app. apply Forall_app. Qed.
Lemma inside_indexes env ds : inside size env ds -> indexes (map env (bases ds)) (sizes size ds).
Proof. unfold inside, indexes, sizes. generalize (bases ds). intros l H. induction H; cbn; constructor; assumption. Qed.
Lemma shape_sizes ds : shape_of size ds = sizes size ds.
Proof. unfold shape_of, sizes, bases. rewrite map_map. reflexivity. Qed.
Lemma sizes_app a b : sizes size (a ++ b) = sizes size a ++ sizes size b.
Proof. unfold sizes. rewrite bases_app, map_app. reflexivity. Qed.
Lemma sizes_len ds : length (sizes size ds) = length ds.
Proof. unfold sizes. rewrite map_length, bases_len. reflexivity. Qed.

Lemma inside_perm env a b : Permutation (bases a) (bases b) -> inside size env a -> inside size env b.
Proof. unfold inside. intros HP H. rewrite Forall_forall in *. intros x Hx. apply H. eapply Permutation_in; [apply Permutation_sym, HP|exact Hx]. Qed.

(** after transposing, the dims [ins] are adjacent *)
Lemma reshape_core t t' pre ins outs post : well size t -> well size t' -> dims t' = pre ++ ins ++ post -> Permutation (bases (dims t')) (bases (dims t)) ->
  (forall env, inside size env (dims t) -> value t' env = value t env) -> NoDup (bases (pre ++ outs ++ post)) -> prod (sizes size ins) = prod (sizes size outs) ->
  exists r, reshape (traw t') (shape_of size (pre ++ outs ++ post)) = Ok r /\ well size {| dims := pre ++ outs ++ post; traw := r |} /\
  forall e e', inside size e (dims t) -> inside size e' (pre ++ outs ++ post) -> (forall c, ~ In c (bases ins) -> ~ In c (bases outs) -> e c = e' c) ->
    position size ins e 0 = position size outs e' 0 -> value {| dims := pre ++ outs ++ post; traw := r |} e' = value t e.
Proof.
  intros Hw (Hs' & Hl' & Hn') Hd HP Hv Hno Hp. rewrite shape_sizes. assert (Hs : shape (traw t') = sizes size pre ++ sizes size ins ++ sizes size post) by (rewrite Hs', Hd; fold (sizes size (pre ++ ins ++ post)); rewrite !sizes_app; reflexivity).
  rewrite reshape_ok by (rewrite Hs, !sizes_app, !prod_app, Hp; reflexivity). eexists. split; [reflexivity|]. split.
  - split; [reflexivity|]. split; [|exact Hno]. cbn [traw data shape]. rewrite Hl', Hs, !sizes_app, !prod_app, Hp. reflexivity.
  - intros e e' He He' Hc Hpos. rewrite <- (Hv e He). unfold value. cbn [dims traw]. rewrite Hd, !bases_app, !map_app, !sizes_app. rewrite !position_flat0 in Hpos.
    rewrite <- (raw_eta (traw t') _ Hs). cbn [data]. rewrite Hd in Hn'. rewrite !bases_app in Hn', Hno.
    assert (H1 : map e' (bases pre) = map e (bases pre)).
    { apply map_ext_in. intros c Hi. symmetry. apply Hc; intros Hx; [apply (NoDup_disj _ _ Hn' c Hi)|apply (NoDup_disj _ _ Hno c Hi)]; apply in_or_app; left; exact Hx. }
    assert (H3 : map e' (bases post) = map e (bases post)).
    { apply map_ext_in. intros c Hi. symmetry. apply NoDup_app_r in Hn', Hno. apply Hc; intros Hx; [apply (NoDup_disj _ _ Hn' c Hx Hi)|apply (NoDup_disj _ _ Hno c Hx Hi)]. }
    rewrite H1, H3. apply at_reshape; rewrite ?map_length, ?bases_len, ?sizes_len; auto.
Qed.

(** the place of the first of [ins] *)
Fixpoint first_in (ins l : list dim) : nat :=
  match l with
  | [] => 0
  | x :: l => if mem x ins then 0 else S (first_in ins l)
  end.
Definition others (ins l : list dim) : list dim := filter (fun d => negb (mem d ins)) l.
Lemma instead_split ins outs l : (exists d, In d l /\ mem d ins = true) -> instead ins outs l = firstn (first_in ins l) l ++ outs ++ others ins (skipn (first_in ins l) l).
Proof.
  induction l as [|x l IH]; intros (d & Hd & Hm); [destruct Hd|]. cbn [instead first_in]. destruct (mem x ins) eqn:E.
  - cbn [firstn skipn app]. unfold others. cbn [filter]. rewrite E. reflexivity.
  - cbn [firstn skipn app]. f_equal. apply IH. destruct Hd as [->|Hd]; [congruence|]. eauto.
Qed.
Lemma first_before ins l : forall d, In d (firstn (first_in ins l) l) -> mem d ins = false.
Proof. induction l as [|x l IH]; intros d H; cbn in *; [contradiction|]. destruct (mem x ins) eqn:E; cbn in H; [contradiction|]. destruct H as [<-|H]; [exact E|]. apply IH, H. Qed.
Lemma first_le ins l : first_in ins l <= length l.
Proof. induction l as [|x l IH]; cbn; [lia|]. destruct (mem x ins); lia. Qed.
Lemma first_below ins l d : In d ins -> first_in ins l <= dim_index l d.
Proof.
  intros Hd. induction l as [|x l IH]; cbn; [lia|]. destruct (mem x ins) eqn:E; [lia|]. destruct (deq d x) eqn:E2; [|lia]. apply deq_eq in E2.
  assert (mem x ins = true) by (apply mem_In; rewrite <- E2; apply In_base, Hd). congruence.
Qed.
Lemma first_reached ins l : ins <> [] -> incl (bases ins) (bases l) -> exists d, In d ins /\ first_in ins l = dim_index l d.
Proof.
  intros Hne. induction l as [|x l IH]; intros Hi.
  - destruct ins as [|d ins]; [congruence|]. destruct (Hi (d_base d)); left; reflexivity.
  - cbn [first_in]. destruct (mem x ins) eqn:E.
    + apply mem_In in E. unfold bases in E. apply in_map_iff in E as (d & E & Hd). exists d. split; [exact Hd|]. cbn. assert (deq d x = true) by (apply deq_eq; exact E). rewrite H. reflexivity.
    + destruct IH as (d & Hd & E2).
      * intros c Hc. destruct (Hi c Hc) as [Hx|Hx]; [|exact Hx]. exfalso. assert (mem x ins = true) by (apply mem_In; rewrite Hx; exact Hc). congruence.
      * exists d. split; [exact Hd|]. cbn. assert (deq d x = false). { destruct (deq d x) eqn:E3; [|reflexivity]. apply deq_eq in E3. assert (mem x ins = true) by (apply mem_In; rewrite <- E3; apply In_base, Hd). congruence. }
        rewrite H. f_equal. exact E2.
Qed.
Lemma min_of (x0 : nat) l : fold_right Nat.min x0 l <= x0 /\ (forall x, In x l -> fold_right Nat.min x0 l <= x) /\ (fold_right Nat.min x0 l = x0 \/ In (fold_right Nat.min x0 l) l).
Proof.
  induction l as [|y l (I1 & I2 & I3)]; cbn; [repeat split; auto; intros x []|]. repeat split; [lia|intros x [<-|Hx]; [lia|specialize (I2 x Hx); lia]|].
  destruct (Nat.min_spec y (fold_right Nat.min x0 l)) as [[_ ->]|[_ ->]]; [right; left; reflexivity|]. destruct I3 as [I3|I3]; [left; exact I3|right; right; exact I3].
Qed.
Lemma first_min ins l x0 : ins <> [] -> incl (bases ins) (bases l) -> first_in ins l <= x0 -> fold_right Nat.min x0 (map (dim_index l) ins) = first_in ins l.
Proof.
  intros Hne Hi H0. destruct (min_of x0 (map (dim_index l) ins)) as (_ & H2 & H3). destruct (first_reached ins l Hne Hi) as (d & Hd & E). specialize (H2 (dim_index l d) (in_map _ _ _ Hd)).
  assert (first_in ins l <= fold_right Nat.min x0 (map (dim_index l) ins)); [|lia]. destruct H3 as [->|H3]; [exact H0|]. apply in_map_iff in H3 as (d' & <- & Hd'). apply first_below, Hd'.
Qed.

Section Placed.
Context (t : tensor) (ins outs : list dim) (Hw : well size t) (Hr : replaceable size t ins outs).
Let k := first_in ins (dims t).
Let pre := firstn k (dims t).
Let post := others ins (skipn k (dims t)).
Lemma placed_some : exists d, In d (dims t) /\ mem d ins = true.
Proof.
  destruct Hr as (_ & Hi & Hne & _). destruct ins as [|d l]; [congruence|]. specialize (Hi (d_base d) (or_introl eq_refl)). unfold bases in Hi. apply in_map_iff in Hi as (x & E & Hx). exists x. split; [exact Hx|]. apply mem_In. left. symmetry. exact E.
Qed.
Lemma placed_dims : instead ins outs (dims t) = pre ++ outs ++ post.
Proof. apply instead_split, placed_some. Qed.
Lemma placed_others : others ins (dims t) = pre ++ post.
Proof.
  unfold others. rewrite <- (firstn_skipn k (dims t)) at 1. rewrite filter_app. f_equal. apply filter_all. intros d Hd. rewrite (first_before ins (dims t) d Hd). reflexivity.
Qed.
Lemma placed_perm : Permutation (bases (pre ++ ins ++ post)) (bases (dims t)).
Proof.
  destruct Hw as (_ & _ & Hn). destruct Hr as (Hni & Hi & _). assert (HP : Permutation (pre ++ ins ++ post) (ins ++ others ins (dims t))) by (rewrite placed_others, !app_assoc; apply Permutation_app_tail, Permutation_app_comm).
  apply (Permutation_map d_base) in HP. fold (bases (pre ++ ins ++ post)) (bases (ins ++ others ins (dims t))) in HP. rewrite HP. apply NoDup_Permutation.
  - rewrite bases_app. apply NoDup_app_intro2; [exact Hni|apply NoDup_bases_filter, Hn|]. intros c Hc Hc'. apply in_filter_bases in Hc' as (d & <- & _ & HPd). apply mem_In in Hc. rewrite Hc in HPd. discriminate.
  - exact Hn.
  - intros c. rewrite bases_app, in_app_iff. split.
    + intros [Hc|Hc]; [apply Hi, Hc|]. apply in_filter_bases in Hc as (d & <- & Hd & _). apply In_base, Hd.
    + intros Hc. unfold bases in Hc. apply in_map_iff in Hc as (d & <- & Hd). destruct (mem d ins) eqn:E; [left; apply mem_In, E|right]. apply In_base. apply filter_In. split; [exact Hd|]. rewrite E. reflexivity.
Qed.
Lemma placed_nodup : NoDup (bases (pre ++ outs ++ post)).
Proof.
  destruct Hw as (_ & _ & Hn). destruct Hr as (_ & _ & _ & Hno & Hf & _). assert (HP : Permutation (bases (pre ++ outs ++ post)) (bases outs ++ bases (others ins (dims t)))).
  { rewrite <- bases_app. apply Permutation_map. rewrite placed_others, !app_assoc. apply Permutation_app_tail, Permutation_app_comm. }
  eapply Permutation_NoDup; [apply Permutation_sym, HP|]. apply NoDup_app_intro2; [exact Hno|apply NoDup_bases_filter, Hn|]. intros c Hc Hc'. apply in_filter_bases in Hc' as (d & <- & Hd & HPd).
  specialize (Hf _ Hc (In_base _ _ Hd)). apply mem_In in Hf. rewrite Hf in HPd. discriminate.
Qed.
Lemma placed_reshape t' : well size t' -> dims t' = pre ++ ins ++ post -> (forall env, inside size env (dims t) -> value t' env = value t env) ->
  exists r, reshape (traw t') (shape_of size (pre ++ outs ++ post)) = Ok r /\ reshaped size t ins outs {| dims := pre ++ outs ++ post; traw := r |}.
Proof.
  intros Hw' Hd Hv. destruct (reshape_core t t' pre ins outs post Hw Hw' Hd) as (r & E & Hwr & H); [rewrite Hd; apply placed_perm|exact Hv|apply placed_nodup|apply Hr|].
  exists r. split; [exact E|]. split; [exact Hwr|]. split; [cbn [dims]; symmetry; apply placed_dims|exact H].
Qed.
End Placed.

Lemma merge_ok t ds out : well size t -> replaceable size t ds [out] -> 2 <= length ds -> exists r, merge_dims size t ds out = Ok r /\ reshaped size t ds [out] r.
Proof.
  intros Hw Hr Hlen. pose proof Hw as (_ & _ & Hn). pose proof Hr as (Hni & Hi & Hne & _). unfold merge_dims. rewrite (proj2 (Nat.leb_le 2 (length ds)) Hlen). cbn [assert_ bind].
  rewrite (mapM_ok_map _ (dim_index (dims t))) by (intros d Hd; unfold index_of; rewrite (proj2 (mem_In d (dims t))); [reflexivity|apply Hi, In_base, Hd]). cbn [bind].
  rewrite first_min by (auto; apply first_le). set (k := first_in ds (dims t)). set (pre := firstn k (dims t)).
  assert (Ep : filter (fun d => negb (mem d ds) && negb (mem d pre)) (dims t) = others ds (skipn k (dims t))).
  { unfold others. rewrite <- (firstn_skipn k (dims t)) at 1. fold pre. rewrite filter_app. rewrite (filter_ext_in _ (fun _ => false) pre) by (intros d Hd; rewrite (mem_in d pre Hd), andb_false_r; reflexivity). rewrite filter_none. cbn [app].
    apply filter_ext_in. intros d Hd. destruct (mem d pre) eqn:E; [|apply andb_true_r]. exfalso. apply mem_In in E. rewrite <- (firstn_skipn k (dims t)), bases_app in Hn. apply (NoDup_disj _ _ Hn (d_base d) E). apply In_base, Hd. }
  rewrite Ep. destruct (transpose_ok t (pre ++ ds ++ others ds (skipn k (dims t))) Hw (placed_perm t ds [out] Hw Hr)) as (r1 & E1 & Hw1 & Hv1). rewrite E1. cbn [bind traw].
  destruct (placed_reshape t ds [out] Hw Hr _ Hw1 eq_refl Hv1) as (r & E & H). cbn [traw] in E. fold k in E, H. fold pre in E, H. rewrite E. cbn [bind]. eexists. split; [reflexivity|exact H].
Qed.
Lemma reshape_dims_ok t ins outs : well size t -> replaceable size t ins outs -> exists r, reshape_dims size t ins outs = Ok r /\ reshaped size t ins outs r.
Proof.
  intros Hw Hr. pose proof Hw as (_ & _ & Hn). pose proof Hr as (Hni & Hi & Hne & _). unfold reshape_dims.
  rewrite (mapM_ok_map _ (dim_index (dims t))) by (intros d Hd; apply axis_of_index; [exact Hn|apply Hi, In_base, Hd]). cbn [bind].
  assert (Hna : NoDup (map (dim_index (dims t)) ins)).
  { rewrite axes_by_pos. apply NoDup_map_inj; [|exact Hni]. intros x y Hx Hy E. eapply pos_inj; [apply Hi, Hx|apply Hi, Hy|exact E]. }
  rewrite (nodup_fixed_point _ Hna), Nat.eqb_refl. cbn [assert_ bind].
  assert (Hm : (match map (dim_index (dims t)) ins with [] => Err ValueError | a :: l => Ok (fold_right Nat.min a l) end) = Ok (first_in ins (dims t))).
  { destruct ins as [|d l] eqn:El; [congruence|]. cbn [map]. f_equal. rewrite <- (first_min (d :: l) (dims t) (dim_index (dims t) d)); [|congruence|exact Hi|apply first_below; left; reflexivity].
    cbn [map fold_right]. destruct (min_of (dim_index (dims t) d) (map (dim_index (dims t)) l)) as (H & _). lia. }
  rewrite Hm. cbn [bind]. set (k := first_in ins (dims t)).
  assert (Erest : filter (fun i => negb (inb i (map (dim_index (dims t)) ins))) (seq 0 (length (dims t))) = map (dim_index (dims t)) (others ins (dims t))).
  { rewrite filter_axes by exact Hn. f_equal. apply filter_ext_in. intros d Hd. rewrite inb_axes; [reflexivity|apply In_base, Hd|exact Hi]. }
  rewrite Erest. set (get := fun i => nth i (dims t) _).
  assert (Eget : map get (map (dim_index (dims t)) (others ins (dims t))) = others ins (dims t)).
  { rewrite map_map. apply map_fixed. intros d Hd. unfold get. apply get_index; [exact Hn|]. apply filter_In in Hd. apply Hd. }
  rewrite Eget. pose proof (placed_others t ins) as Eo. fold k in Eo.
  assert (Hlk : length (firstn k (dims t)) = k) by (apply firstn_length_le, first_le).
  assert (E1 : firstn k (others ins (dims t)) = firstn k (dims t)) by (rewrite Eo, <- Hlk at 1; rewrite firstn_app, Nat.sub_diag, firstn_O, app_nil_r, firstn_all2 by lia; reflexivity).
  assert (E2 : skipn k (others ins (dims t)) = others ins (skipn k (dims t))) by (rewrite Eo, <- Hlk at 1; rewrite skipn_app, Nat.sub_diag, skipn_all2 by lia; reflexivity).
  rewrite firstn_map, skipn_map, E1, E2, <- !map_app. set (ds := firstn k (dims t) ++ ins ++ others ins (skipn k (dims t))).
  pose proof (placed_perm t ins outs Hw Hr) as HP. fold k in HP. fold ds in HP. assert (Eds : length ds = length (dims t)) by (rewrite <- (bases_len ds), <- (bases_len (dims t)); apply Permutation_length, HP).
  unfold transpose_axes. rewrite map_length, Eds, Nat.eqb_refl. cbn [assert_ bind].
  pose proof (axes_perm (dims t) ds Hn HP) as Hax. pose proof (perm_check _ _ Hax) as Hc. apply andb_true_iff in Hc as [_ Hc]. rewrite Hc.
  assert (Hb : forallb (fun a => a <? length (dims t)) (map (dim_index (dims t)) ds) = true) by (apply forallb_forall; intros a Ha; apply Nat.ltb_lt; eapply perm_In; [exact Hax|exact Ha]).
  rewrite Hb. cbn [andb assert_ bind]. destruct (permute_values t ds Hw HP) as (r1 & Er1 & Hw1 & Hv1). rewrite Er1. cbn [bind traw].
  destruct (placed_reshape t ins outs Hw Hr _ Hw1 eq_refl Hv1) as (r & E & H). cbn [traw] in E. fold k in E, H. rewrite E. cbn [bind]. eexists. split; [reflexivity|exact H].
Qed.

(** [split_dims] *)
Lemma others_single (d : dim) l : ~ In (d_base d) (bases l) -> others [d] l = l.
Proof. intros H. apply filter_all. intros x Hx. destruct (mem x [d]) eqn:E; [|reflexivity]. apply mem_In in E. cbn in E. destruct E as [E|[]]. exfalso. apply H. rewrite E. apply In_base, Hx. Qed.
Lemma first_single d l : In (d_base d) (bases l) -> first_in [d] l = dim_index l d.
Proof. intros H. destruct (first_reached [d] l) as (d' & [<-|[]] & E); [congruence|intros c [<-|[]]; exact H|exact E]. Qed.
Lemma dim_split ds d : In (d_base d) (bases ds) -> exists x, d_base x = d_base d /\ ds = firstn (dim_index ds d) ds ++ x :: skipn (S (dim_index ds d)) ds.
Proof.
  induction ds as [|y ds IH]; intros H; [destruct H|]. cbn [dim_index]. destruct (deq d y) eqn:E; [apply deq_eq in E; exists y; split; [auto|reflexivity]|].
  destruct H as [H|H]; [unfold deq in E; rewrite H, Nat.eqb_refl in E; discriminate|]. destruct (IH H) as (x & Ex & El). exists x. split; [exact Ex|]. cbn [firstn skipn app]. f_equal. exact El.
Qed.
Lemma axis_around t d : well size t -> In (d_base d) (bases (dims t)) ->
  exists A x B, dims t = A ++ x :: B /\ d_base x = d_base d /\ dim_index (dims t) d = length A /\ ~ In (d_base d) (bases A) /\ ~ In (d_base d) (bases B) /\ NoDup (bases (A ++ B)).
Proof.
  intros (_ & _ & Hn) Hd. destruct (dim_split _ _ Hd) as (x & Ex & El). pose proof (index_lt _ _ Hd) as Hlt. exists (firstn (dim_index (dims t) d) (dims t)), x, (skipn (S (dim_index (dims t) d)) (dims t)).
  split; [exact El|]. split; [exact Ex|]. split; [rewrite firstn_length; lia|]. rewrite El, bases_app in Hn. cbn in Hn. fold (bases (skipn (S (dim_index (dims t) d)) (dims t))) in Hn.
  pose proof (NoDup_remove _ _ _ Hn) as [H1 H2]. rewrite <- Ex. rewrite bases_app. repeat split; [intros Hi; apply H2, in_or_app; left; exact Hi|intros Hi; apply H2, in_or_app; right; exact Hi|exact H1].
Qed.
Lemma instead_around A x B d outs : d_base x = d_base d -> ~ In (d_base d) (bases A) -> ~ In (d_base d) (bases B) -> instead [d] outs (A ++ x :: B) = A ++ outs ++ B.
Proof.
  intros Ex HA HB. induction A as [|y A IH]; cbn [app instead].
  - rewrite (proj2 (mem_In x [d])) by (left; auto). f_equal. apply (others_single d B HB).
  - destruct (mem y [d]) eqn:E; [apply mem_In in E; destruct E as [E|[]]; exfalso; apply HA; left; auto|]. f_equal. apply IH. intros H. apply HA. right. exact H.
Qed.
Lemma split_dims_ok t axis ds : well size t -> replaceable size t [axis] ds -> exists r, split_dims size t axis ds = Ok r /\ reshaped size t [axis] ds r.
Proof.
  intros Hw Hr. pose proof Hw as (_ & _ & Hn). pose proof Hr as (_ & Hi & _ & Hno & Hf & Hp). assert (Hd : In (d_base axis) (bases (dims t))) by (apply Hi; left; reflexivity).
  destruct (axis_around t axis Hw Hd) as (A & x & B & El & Ex & Ei & HA & HB & HAB).
  unfold split_dims. rewrite axis_of_index by assumption. cbn [bind]. rewrite Ei, El, firstn_app, Nat.sub_diag, firstn_all, firstn_O, app_nil_r.
  assert (Es : skipn (S (length A)) (A ++ x :: B) = B) by (rewrite skipn_app, skipn_all2 by lia; replace (S (length A) - length A) with 1 by lia; reflexivity). rewrite Es.
  pose proof (placed_nodup t [axis] ds Hw Hr) as Hnd. rewrite <- placed_dims, El, (instead_around A x B axis ds Ex HA HB) in Hnd by (eapply Hr || exact Hr).
  destruct (reshape_core t t A [x] ds B Hw Hw) as (r & E & Hwr & H); [exact El|reflexivity|auto|exact Hnd|rewrite <- Hp; unfold sizes; cbn; rewrite Ex; reflexivity|].
  rewrite E. cbn [bind]. eexists. split; [reflexivity|]. split; [exact Hwr|]. split; [cbn [dims]; rewrite El, (instead_around A x B axis ds Ex HA HB); reflexivity|].
  intros e e' He He' Hc Hpos. apply H; [exact He|exact He'|intros c H1 H2; apply Hc; [intros [Hx|[]]; apply H1; left; congruence|exact H2]|]. rewrite <- Hpos. cbn. rewrite Ex. reflexivity.
Qed.

(** and back *)
Lemma indexes_inside e ds : indexes (map e (bases ds)) (sizes size ds) -> inside size e ds.
Proof. unfold indexes, sizes, inside. generalize (bases ds). intros l. induction l as [|x l IH]; intros H; [constructor|]. cbn in H. inversion H; subst. constructor; auto. Qed.
Lemma instead_bases t ins outs : well size t -> replaceable size t ins outs -> Permutation (bases (instead ins outs (dims t))) (bases outs ++ bases (others ins (dims t))).
Proof. intros Hw Hr. rewrite (placed_dims t ins outs Hr), (placed_others t ins), <- bases_app. apply Permutation_map. rewrite !app_assoc. apply Permutation_app_tail, Permutation_app_comm. Qed.
Lemma others_bases t ins outs : well size t -> replaceable size t ins outs -> Permutation (bases ins ++ bases (others ins (dims t))) (bases (dims t)).
Proof. intros Hw Hr. etransitivity; [|apply (placed_perm t ins outs Hw Hr)]. rewrite (placed_others t ins), <- bases_app. apply Permutation_map. rewrite !app_assoc. apply Permutation_app_tail, Permutation_app_comm. Qed.
Lemma replaceable_back t ins outs r : well size t -> replaceable size t ins outs -> reshaped size t ins outs r -> outs <> [] -> replaceable size r outs ins.
Proof.
  intros Hw Hr (_ & Hd & _) Hne. pose proof (instead_bases t ins outs Hw Hr) as HP. rewrite <- Hd in HP. pose proof Hr as (H1 & H2 & H3 & H4 & H5 & H6).
  split; [exact H4|]. split; [intros c Hc; eapply Permutation_in; [apply Permutation_sym, HP|apply in_or_app; left; exact Hc]|]. split; [exact Hne|]. split; [exact H1|]. split; [|auto].
  intros c Hc Hr'. apply (Permutation_in _ HP), in_app_or in Hr' as [Hx|Hx]; [exact Hx|]. apply in_filter_bases in Hx as (d & <- & _ & Hm). apply mem_In in Hc. rewrite Hc in Hm. discriminate.
Qed.
Lemma reshaped_back t ins outs r r' : well size t -> replaceable size t ins outs -> outs <> [] -> reshaped size t ins outs r -> reshaped size r outs ins r' -> same_entries size r' t.
Proof.
  intros Hw Hr Hne H1 H2. pose proof (replaceable_back t ins outs r Hw Hr H1 Hne) as Hb. pose proof H1 as (Hwr & Hd & Hv). pose proof H2 as (Hwr' & Hd' & Hv').
  assert (HPr : Permutation (bases (dims r)) (bases outs ++ bases (others ins (dims t)))) by (rewrite Hd; apply instead_bases; assumption).
  assert (HPo : Permutation (bases (others outs (dims r))) (bases (others ins (dims t)))).
  { pose proof (others_bases r outs ins Hwr Hb) as HP. rewrite HPr in HP. apply Permutation_app_inv_l in HP. exact HP. }
  assert (HP' : Permutation (bases (dims r')) (bases (dims t))).
  { rewrite Hd', (instead_bases r outs ins Hwr Hb), HPo. apply (others_bases t ins outs Hw Hr). }
  split; [exact HP'|]. intros env Hin. pose proof (inside_perm env _ _ HP' Hin) as Hin_t.
  set (u := unflat (sizes size outs) (position size ins env 0)). set (e := over (bases outs) u env).
  destruct Hr as (Ni & Hi & _ & No & Hf & Hp).
  assert (Hins : inside size env ins) by (unfold inside in *; rewrite Forall_forall in *; intros c Hc; apply Hin_t, Hi, Hc).
  assert (Hlt : position size ins env 0 < prod (sizes size outs)) by (rewrite <- Hp, position_flat0; apply flat_lt, inside_indexes, Hins).
  pose proof (unflat_indexes _ _ Hlt) as Hu. fold u in Hu. assert (Hul : length u = length (bases outs)) by (unfold u; rewrite unflat_len, sizes_len, bases_len; reflexivity).
  assert (Eo : map e (bases outs) = u) by (apply over_in; assumption).
  assert (Hpos : position size outs e 0 = position size ins env 0) by (rewrite position_flat0, Eo; unfold u; apply flat_unflat, Hlt).
  assert (Hine : inside size e (dims r)).
  { apply (inside_perm e (outs ++ others ins (dims t))); [rewrite bases_app; apply Permutation_sym, HPr|]. apply inside_app. split.
    - apply indexes_inside. rewrite Eo. exact Hu.
    - unfold inside in *. rewrite Forall_forall in *. intros c Hc. unfold e, over. destruct (inb c (bases outs)) eqn:E.
      + exfalso. apply inb_In in E. apply in_filter_bases in Hc as (d & <- & Hdd & Hm). specialize (Hf _ E (In_base _ _ Hdd)). apply mem_In in Hf. rewrite Hf in Hm. discriminate.
      + apply Hin_t. apply in_filter_bases in Hc as (d & <- & Hdd & _). apply In_base, Hdd. }
  assert (Hout : forall c, ~ In c (bases outs) -> e c = env c) by (intros c Hc; unfold e, over; apply inb_false in Hc; rewrite Hc; reflexivity).
  rewrite (Hv' e env Hine Hin); [|intros c H _; apply Hout, H|exact Hpos].
  apply Hv; [exact Hin_t|exact Hine|intros c _ H; symmetry; apply Hout, H|symmetry; exact Hpos].
Qed.

(** * Parts *)
Lemma replace_mid l1 x l2 v : replace_at (length l1) (l1 ++ x :: l2) v = l1 ++ v :: l2.
Proof. unfold replace_at. rewrite firstn_app, Nat.sub_diag, firstn_all, firstn_O, app_nil_r, skipn_app, skipn_all2 by lia. replace (S (length l1) - length l1) with 1 by lia. reflexivity. Qed.
Lemma replace_dim_mid l1 x l2 v : replace_dim_at (length l1) (l1 ++ x :: l2) v = l1 ++ v :: l2.
Proof. unfold replace_dim_at. rewrite firstn_app, Nat.sub_diag, firstn_all, firstn_O, app_nil_r, skipn_app, skipn_all2 by lia. replace (S (length l1) - length l1) with 1 by lia. reflexivity. Qed.
Lemma nth_mid l1 (x : nat) l2 : nth (length l1) (l1 ++ x :: l2) 0 = x.
Proof. rewrite app_nth2, Nat.sub_diag by lia. reflexivity. Qed.
Lemma bases_mid A x B : bases (A ++ x :: B) = bases A ++ d_base x :: bases B.
Proof. apply bases_app. Qed.
Lemma sizes_mid A x B : sizes size (A ++ x :: B) = sizes size A ++ size (d_base x) :: sizes size B.
Proof. apply sizes_app. Qed.
Lemma with_out env d k l : ~ In d l -> map (with_index env d k) l = map env l.
Proof. intros H. apply map_ext_in. intros x Hx. unfold with_index. destruct (Nat.eqb_spec x d); [subst; contradiction|reflexivity]. Qed.
Lemma with_at env d k : with_index env d k d = k.
Proof. unfold with_index. rewrite Nat.eqb_refl. reflexivity. Qed.
Lemma value_mid t A x B d env k : dims t = A ++ x :: B -> d_base x = d_base d -> ~ In (d_base d) (bases A) -> ~ In (d_base d) (bases B) ->
  value t (with_index env (d_base d) k) = at_ (traw t) (map env (bases A) ++ k :: map env (bases B)).
Proof. intros El Ex HA HB. unfold value. rewrite El, bases_mid, map_app. cbn [map]. rewrite !with_out by assumption. rewrite Ex, with_at. reflexivity. Qed.
Lemma inside_mid env A x B : inside size env (A ++ x :: B) -> indexes (map env (bases A) ++ env (d_base x) :: map env (bases B)) (sizes size A ++ size (d_base x) :: sizes size B).
Proof. intros H. apply inside_indexes in H. rewrite sizes_mid, bases_mid, map_app in H. exact H. Qed.

Lemma narrow_part t A x B axis start d : well size t -> dims t = A ++ x :: B -> d_base x = d_base axis -> ~ In (d_base axis) (bases A) -> ~ In (d_base axis) (bases B) ->
  NoDup (bases (A ++ d :: B)) ->
  let part := {| dims := A ++ d :: B; traw := narrow (traw t) (length A) start (size (d_base d)) |} in well size part /\ a_part size t axis start part d.
Proof.
  intros (Hs & Hl & Hn) El Ex HA HB Hnd part. rewrite El in Hs. fold (sizes size (A ++ x :: B)) in Hs. rewrite sizes_mid in Hs.
  assert (Esh : replace_at (length A) (shape (traw t)) (size (d_base d)) = sizes size A ++ size (d_base d) :: sizes size B) by (rewrite Hs, <- (sizes_len A); apply replace_mid).
  split.
  - split; [|split; [|exact Hnd]]; cbn [part traw dims]; unfold narrow; rewrite Esh; [|apply tabulate_len]. cbn [shape tabulate]. fold (sizes size (A ++ d :: B)). rewrite sizes_mid. reflexivity.
  - intros env Hi. cbn [part dims] in Hi. rewrite (value_mid t A x B axis env _ El Ex HA HB). unfold value. cbn [part dims traw]. unfold narrow. rewrite Esh, bases_mid, map_app. cbn [map].
    rewrite at_tabulate by (apply inside_mid, Hi). f_equal.
    replace (length A) with (length (map env (bases A))) by (rewrite map_length; apply bases_len). rewrite nth_mid, replace_mid. reflexivity.
Qed.
Lemma split_raw_nth r axis : forall ns start j, nth_error (split_raw r axis start ns) j = option_map (fun n => narrow r axis (start + fold_right Nat.add 0 (firstn j ns)) n) (nth_error ns j).
Proof.
  induction ns as [|n ns IH]; intros start j; [destruct j; reflexivity|]. destruct j as [|j]; cbn; [rewrite Nat.add_0_r; reflexivity|]. rewrite IH. destruct (nth_error ns j); [|reflexivity]. cbn. do 2 f_equal. lia.
Qed.
Lemma split_raw_len r axis : forall ns start, length (split_raw r axis start ns) = length ns.
Proof. induction ns as [|n ns IH]; intros start; cbn; auto. Qed.
Lemma names_around t A x B d : dims t = A ++ x :: B -> d_base x = d_base d -> ~ In (d_base d) (bases A) -> ~ In (d_base d) (bases B) -> other_names t d = bases A ++ bases B.
Proof.
  intros El Ex HA HB. unfold other_names. rewrite El, bases_mid, filter_app. cbn [filter]. rewrite Ex, Nat.eqb_refl. cbn [negb].
  rewrite !filter_all; [reflexivity| |]; intros c Hc; apply negb_true_iff, Nat.eqb_neq; intros ->; contradiction.
Qed.
Lemma NoDup_mid A d B : NoDup (bases (A ++ B)) -> ~ In (d_base d) (bases A ++ bases B) -> NoDup (bases (A ++ d :: B)).
Proof. rewrite bases_mid, bases_app. intros Hn Hd. apply (Permutation_NoDup (l := d_base d :: bases A ++ bases B)); [apply Permutation_middle|]. constructor; assumption. Qed.

Lemma split_ok t axis outs : well size t -> In (d_base axis) (bases (dims t)) -> (forall d, In d outs -> ~ In (d_base d) (other_names t axis)) -> total_size size outs = size (d_base axis) ->
  exists parts, split size t axis outs = Ok parts /\ Forall2 (fun part d => well size part /\ dims part = instead [axis] [d] (dims t)) parts outs /\ joined size t axis (combine parts outs).
Proof.
  intros Hw Ha Hf Hsum. pose proof Hw as (Hs & _ & Hn). destruct (axis_around t axis Hw Ha) as (A & x & B & El & Ex & Ei & HA & HB & HAB).
  rewrite (names_around t A x B axis El Ex HA HB) in Hf. unfold split. rewrite axis_of_index by assumption. cbn [bind]. rewrite Ei. fold (shape_of size outs). rewrite shape_sizes.
  assert (Enth : nth (length A) (shape (traw t)) 0 = size (d_base axis)).
  { rewrite Hs, El. fold (sizes size (A ++ x :: B)). rewrite sizes_mid, <- (sizes_len A), nth_mid, Ex. reflexivity. }
  rewrite Enth. fold (total_size size outs). rewrite Hsum, Nat.eqb_refl. eexists. split; [reflexivity|].
  set (parts := map _ _). assert (Hlen : length parts = length outs) by (unfold parts; rewrite map_length, combine_length, split_raw_len, sizes_len; lia).
  assert (Hnth : forall j part d, nth_error parts j = Some part -> nth_error outs j = Some d -> part = {| dims := A ++ d :: B; traw := narrow (traw t) (length A) (total_size size (firstn j outs)) (size (d_base d)) |}).
  { intros j part d Hp Hd. unfold parts in Hp. rewrite nth_error_map in Hp. destruct (nth_error (combine outs (split_raw (traw t) (length A) 0 (sizes size outs))) j) as [[d' r]|] eqn:E; [|discriminate]. cbn in Hp. injection Hp as <-.
    apply nth_error_combine_inv in E as [E1 E2]. rewrite Hd in E1. injection E1 as <-. rewrite split_raw_nth in E2. unfold sizes at 2, bases in E2. rewrite !nth_error_map, Hd in E2. cbn in E2. injection E2 as <-.
    rewrite El, replace_dim_mid. do 2 f_equal. unfold total_size, sizes, bases. rewrite <- !firstn_map. reflexivity. }
  assert (Hgood : forall j part d, nth_error parts j = Some part -> nth_error outs j = Some d -> well size part /\ dims part = instead [axis] [d] (dims t) /\ a_part size t axis (total_size size (firstn j outs)) part d).
  { intros j part d Hp Hd. rewrite (Hnth _ _ _ Hp Hd). destruct (narrow_part t A x B axis (total_size size (firstn j outs)) d Hw El Ex HA HB) as [H1 H2]; [apply NoDup_mid; [exact HAB|apply Hf; eapply nth_error_In, Hd]|].
    split; [exact H1|]. split; [|exact H2]. cbn [dims]. rewrite El, (instead_around A x B axis [d] Ex HA HB). reflexivity. }
  split; [|split].
  - apply Forall2_of_nth; [exact Hlen|]. intros j part d Hp Hd. destruct (Hgood _ _ _ Hp Hd) as (H1 & H2 & _). auto.
  - rewrite map_snd_combine by exact Hlen. symmetry. exact Hsum.
  - intros j part d Hj. rewrite map_snd_combine by exact Hlen. apply nth_error_combine_inv in Hj as [H1 H2]. apply (Hgood j part d H1 H2).
Qed.

Lemma part_of_at ns : forall j k n i0, nth_error ns j = Some n -> k < n -> part_of (fold_right Nat.add 0 (firstn j ns) + k) ns i0 = (i0 + j, k).
Proof.
  induction ns as [|m ns IH]; intros j k n i0 Hj Hk; [destruct j; discriminate|]. destruct j as [|j]; cbn [nth_error firstn fold_right part_of] in *.
  - injection Hj as <-. rewrite Nat.add_0_l, (proj2 (Nat.ltb_lt k m) Hk), Nat.add_0_r. reflexivity.
  - destruct (Nat.ltb_spec (m + fold_right Nat.add 0 (firstn j ns) + k) m); [lia|]. replace (m + fold_right Nat.add 0 (firstn j ns) + k - m) with (fold_right Nat.add 0 (firstn j ns) + k) by lia. rewrite (IH j k n (S i0) Hj Hk). f_equal. lia.
Qed.
Lemma part_ex ns : forall q, q < fold_right Nat.add 0 ns -> exists j n k, nth_error ns j = Some n /\ k < n /\ q = fold_right Nat.add 0 (firstn j ns) + k.
Proof.
  induction ns as [|m ns IH]; intros q Hq; cbn in Hq; [lia|]. destruct (lt_dec q m) as [H|H].
  - exists 0, m, q. cbn. auto.
  - destruct (IH (q - m)) as (j & n & k & H1 & H2 & H3); [lia|]. exists (S j), n, k. cbn. repeat split; [exact H1|exact H2|lia].
Qed.
Lemma remove_around A x B d : d_base x = d_base d -> ~ In (d_base d) (bases A) -> remove_dim d (A ++ x :: B) = A ++ B.
Proof.
  intros Ex HA. induction A as [|y A IH]; cbn.
  - rewrite (proj2 (deq_eq x d) Ex). reflexivity.
  - destruct (deq y d) eqn:E; [apply deq_eq in E; exfalso; apply HA; left; exact E|]. f_equal. apply IH. intros H. apply HA. right. exact H.
Qed.

Lemma cat_ok A B out (rs : list (raw * dim)) : rs <> [] -> Forall (fun '(r, d) => shape r = sizes size (A ++ d :: B)) rs -> size (d_base out) = total_size size (map snd rs) ->
  exists r, cat_raw (map fst rs) (length A) = Ok r /\ shape r = sizes size (A ++ out :: B) /\ length (data r) = prod (shape r) /\
    forall j p d iA k iB, nth_error rs j = Some (p, d) -> indexes iA (sizes size A) -> k < size (d_base d) -> indexes iB (sizes size B) ->
      at_ r (iA ++ (total_size size (firstn j (map snd rs)) + k) :: iB) = at_ p (iA ++ k :: iB).
Proof.
  intros Hne Hsh Hsum. destruct rs as [|[r0 d0] rs']; [congruence|]. set (rs := (r0, d0) :: rs') in *. assert (Er : map fst rs = r0 :: map fst rs') by reflexivity.
  unfold cat_raw. rewrite Er, <- Er. rewrite Forall_forall in Hsh.
  assert (Hns : map (fun r => nth (length A) (shape r) 0) (map fst rs) = sizes size (map snd rs)).
  { unfold sizes, bases. rewrite !map_map. apply map_ext_in. intros [r d] Hi. cbn. rewrite (Hsh (r, d) Hi), sizes_mid, <- (sizes_len A), nth_mid. reflexivity. }
  rewrite Hns. assert (H0 : shape r0 = sizes size (A ++ d0 :: B)) by (apply (Hsh (r0, d0)); left; reflexivity).
  assert (Hchk : forallb (fun r => same_nats (replace_at (length A) (shape r) 0) (replace_at (length A) (shape r0) 0)) (map fst rs) = true).
  { apply forallb_forall. intros r Hr. apply in_map_iff in Hr as ([r' d] & <- & Hi). cbn. apply same_nats_eq. rewrite (Hsh (r', d) Hi), H0, !sizes_mid, <- (sizes_len A), !replace_mid. reflexivity. }
  rewrite Hchk. eexists. split; [reflexivity|].
  assert (Esh : replace_at (length A) (shape r0) (fold_right Nat.add 0 (sizes size (map snd rs))) = sizes size (A ++ out :: B)).
  { rewrite H0, !sizes_mid, <- (sizes_len A), replace_mid, Hsum. reflexivity. }
  rewrite Esh. split; [reflexivity|]. split; [apply tabulate_len|]. intros j p d iA k iB Hj HA Hk HB.
  assert (Hnj : nth_error (sizes size (map snd rs)) j = Some (size (d_base d))) by (unfold sizes, bases; rewrite !nth_error_map, Hj; reflexivity).
  assert (Epre : total_size size (firstn j (map snd rs)) = fold_right Nat.add 0 (firstn j (sizes size (map snd rs)))) by (unfold total_size, sizes, bases; rewrite <- !firstn_map; reflexivity).
  rewrite at_tabulate.
  - replace (length A) with (length iA) by (rewrite (Forall2_len _ _ _ HA); apply sizes_len). rewrite nth_mid, Epre, (part_of_at _ j k _ 0 Hnj Hk), replace_mid. cbn [Nat.add].
    rewrite (nth_error_nth (map fst rs) j r0 (x := p)) by (rewrite nth_error_map, Hj; reflexivity). reflexivity.
  - rewrite sizes_mid. apply Forall2_app; [exact HA|]. constructor; [|exact HB]. rewrite Hsum, Epre. unfold total_size. clear -Hnj Hk. revert j Hnj. induction (sizes size (map snd rs)) as [|m l IH]; intros [|j] H; cbn in *; try discriminate; [injection H as ->; lia|]. specialize (IH j H). lia.
Qed.

Lemma templ_perm A B t d t0 d0 : well size t -> In (d_base d) (bases (dims t)) -> Permutation (other_names t d) (other_names t0 d0) -> other_names t0 d0 = bases A ++ bases B -> Permutation (bases (A ++ d :: B)) (bases (dims t)).
Proof.
  intros Hw Hd HP E. destruct (axis_around t d Hw Hd) as (A' & x & B' & El & Ex & _ & HA & HB & _). rewrite (names_around t A' x B' d El Ex HA HB), E in HP.
  rewrite El, !bases_mid, Ex. rewrite <- !Permutation_middle. constructor. symmetry. exact HP.
Qed.
Lemma concat_ok t0 d0 sources out : hd_error sources = Some (t0, d0) -> joinable size t0 d0 sources -> ~ In (d_base out) (other_names t0 d0) -> size (d_base out) = total_size size (map snd sources) ->
  exists r, concat_tensors sources out = Ok r /\ well size r /\ dims r = instead [d0] [out] (dims t0) /\ joined size r out sources.
Proof.
  intros Hhd Hj Hout Hsum. destruct sources as [|[t0' d0'] rest] eqn:Es; [discriminate|]. cbn in Hhd. injection Hhd as -> ->. rewrite <- Es in *.
  assert (Hin0 : In (t0, d0) sources) by (rewrite Es; left; reflexivity). unfold joinable in Hj. rewrite Forall_forall in Hj. destruct (Hj _ Hin0) as (Hw0 & Hd0 & _).
  destruct (axis_around t0 d0 Hw0 Hd0) as (A & x & B & El & Ex & Ei & HA & HB & HAB). pose proof (names_around t0 A x B d0 El Ex HA HB) as En.
  assert (Ef : firstn (length A) (A ++ B) = A) by (rewrite firstn_app, Nat.sub_diag, firstn_all, firstn_O, app_nil_r; reflexivity).
  assert (Esk : skipn (length A) (A ++ B) = B) by (rewrite skipn_app, skipn_all, Nat.sub_diag; reflexivity).
  assert (Ht : forall t d, In (t, d) sources -> exists r, transpose_to t (A ++ d :: B) = Ok {| dims := A ++ d :: B; traw := r |} /\ same_set (A ++ d :: B) (dims t) = true /\ shape r = sizes size (A ++ d :: B) /\
    forall env, inside size env (dims t) -> value {| dims := A ++ d :: B; traw := r |} env = value t env).
  { intros t d Hi. destruct (Hj _ Hi) as (Hw & Hd & HP). pose proof (templ_perm A B t d t0 d0 Hw Hd HP En) as HP'. destruct (transpose_ok t (A ++ d :: B) Hw HP') as (r & E & (Hsr & _) & Hv). exists r. split; [exact E|]. split.
    - unfold same_set. apply andb_true_iff. split; apply forallb_forall; intros y Hy; apply mem_In; [apply (Permutation_in _ HP')|apply (Permutation_in _ (Permutation_sym HP'))]; apply In_base, Hy.
    - split; [exact Hsr|exact Hv]. }
  assert (Hrs : exists rs, mapM (fun '(t, d) => let* _ := assert_ (same_set (A ++ [d] ++ B) (dims t)) in let* t := transpose_to t (A ++ [d] ++ B) in Ok (traw t)) sources = Ok (map fst rs) /\
    map snd rs = map snd sources /\ Forall (fun '(r, d) => shape r = sizes size (A ++ d :: B)) rs /\
    Forall2 (fun '(t, d) '(r, d') => d = d' /\ forall env, inside size env (dims t) -> value {| dims := A ++ d :: B; traw := r |} env = value t env) sources rs).
  { clear -Ht. induction sources as [|[t d] l IH]; [exists []; cbn; auto|]. destruct IH as (rs & E & Hm & Hf & H2); [intros t' d' Hi; apply Ht; right; exact Hi|].
    destruct (Ht t d (or_introl eq_refl)) as (r & Er & Hss & Hsr & Hv). exists ((r, d) :: rs). cbn [mapM]. change (A ++ [d] ++ B) with (A ++ d :: B). rewrite Hss, Er. cbn [assert_ bind traw]. rewrite E. cbn [bind map fst snd].
    split; [reflexivity|]. split; [f_equal; exact Hm|]. split; [constructor; assumption|]. constructor; [auto|exact H2]. }
  destruct Hrs as (rs & Em & Hsnd & Hshape & H2).
  destruct (cat_ok A B out rs) as (r & Ec & Hsr & Hlr & Hat); [intros ->; rewrite Es in Hsnd; discriminate|exact Hshape|rewrite Hsnd; exact Hsum|].
  exists {| dims := A ++ out :: B; traw := r |}.
  assert (Hwr : well size {| dims := A ++ out :: B; traw := r |}) by (split; [exact Hsr|split; [exact Hlr|apply NoDup_mid; [exact HAB|rewrite <- En; exact Hout]]]).
  split; [|split; [exact Hwr|split; [cbn [dims]; rewrite El, (instead_around A x B d0 [out] Ex HA HB); reflexivity|split; [exact Hsum|]]]].
  - unfold concat_tensors. rewrite Es, <- Es. destruct Hw0 as (_ & _ & Hn0). rewrite axis_of_index by assumption. cbn [bind]. rewrite Ei, El, (remove_around A x B d0 Ex HA), Ef, Esk, Em. cbn [bind]. rewrite Ec. reflexivity.
  - intros j t d Hjt env Hi. assert (Hin : In (t, d) sources) by (eapply nth_error_In, Hjt). destruct (Hj _ Hin) as (Hw & Hd & HP).
    assert (Hrj : exists p, nth_error rs j = Some (p, d) /\ forall env, inside size env (dims t) -> value {| dims := A ++ d :: B; traw := p |} env = value t env).
    { destruct (nth_error rs j) as [[p d']|] eqn:E; [|apply nth_error_None in E; rewrite <- (Forall2_len _ _ _ H2) in E; assert (j < length sources) by (apply nth_error_Some; congruence); lia].
      pose proof (Forall2_nth _ _ _ _ _ _ H2 Hjt E) as [<- H]. exists p. auto. }
    destruct Hrj as (p & Hp & Hv). rewrite <- (Hv env Hi). rewrite <- Hsnd.
    assert (Hi' : inside size env (A ++ d :: B)) by (eapply inside_perm; [apply Permutation_sym, (templ_perm A B t d t0 d0 Hw Hd HP En)|exact Hi]).
    rewrite En in Hout. rewrite (value_mid {| dims := A ++ out :: B; traw := r |} A out B out env _ eq_refl eq_refl) by (intros H; apply Hout, in_or_app; auto). cbn [traw].
    pose proof Hi' as Hi2. apply inside_app in Hi2 as [HiA Hi2]. change (d :: B) with ([d] ++ B) in Hi2. apply inside_app in Hi2 as [Hid HiB].
    rewrite (Hat j p d (map env (bases A)) (env (d_base d)) (map env (bases B)) Hp); [|apply inside_indexes, HiA|inversion Hid; subst; assumption|apply inside_indexes, HiB].
    unfold value. cbn [dims traw]. rewrite bases_mid, map_app. reflexivity.
Qed.
(** each entry of the whole is in a part *)
Lemma joined_entry r axis parts env : well size r -> In (d_base axis) (bases (dims r)) -> joinable size r axis parts -> joined size r axis parts -> inside size env (dims r) ->
  exists j part d k, nth_error parts j = Some (part, d) /\ k < size (d_base d) /\ env (d_base axis) = total_size size (firstn j (map snd parts)) + k /\ value r env = value part (with_index env (d_base d) k).
Proof.
  intros Hw Ha Hj (Hsum & Hp) Hi. assert (Hlt : env (d_base axis) < total_size size (map snd parts)) by (rewrite <- Hsum; unfold inside in Hi; rewrite Forall_forall in Hi; apply Hi, Ha).
  destruct (part_ex _ _ Hlt) as (j & n & k & Hn & Hk & E). assert (Epre : total_size size (firstn j (map snd parts)) = fold_right Nat.add 0 (firstn j (sizes size (map snd parts)))) by (unfold total_size, sizes, bases; rewrite <- !firstn_map; reflexivity).
  rewrite <- Epre in E. unfold sizes, bases in Hn. rewrite !nth_error_map in Hn. destruct (nth_error parts j) as [[part d]|] eqn:Ej; [|discriminate]. cbn in Hn. injection Hn as <-.
  exists j, part, d, k. repeat split; auto. assert (Hin : In (part, d) parts) by (eapply nth_error_In, Ej). unfold joinable in Hj. rewrite Forall_forall in Hj. destruct (Hj _ Hin) as (Hwp & Hdp & HP).
  destruct (axis_around r axis Hw Ha) as (A & x & B & El & Ex & _ & HA & HB & HAB). pose proof (names_around r A x B axis El Ex HA HB) as En.
  pose proof (templ_perm A B part d r axis Hwp Hdp HP En) as HPd.
  assert (Hnd : NoDup (bases (A ++ d :: B))) by (destruct Hwp as (_ & _ & Hnp); eapply Permutation_NoDup; [apply Permutation_sym, HPd|exact Hnp]).
  assert (HdAB : ~ In (d_base d) (bases A ++ bases B)) by (rewrite bases_mid in Hnd; apply NoDup_remove in Hnd; apply Hnd).
  set (e := with_index env (d_base d) k). assert (He : inside size e (dims part)).
  { apply (inside_perm e (A ++ d :: B)); [exact HPd|]. unfold inside in *. rewrite Forall_forall in *. intros c Hc. unfold e, with_index. destruct (Nat.eqb_spec c (d_base d)) as [->|Hne]; [exact Hk|].
    apply Hi. rewrite El, bases_mid. rewrite bases_mid in Hc. apply in_app_or in Hc as [Hc|[Hc|Hc]]; [apply in_or_app; auto|congruence|apply in_or_app; right; right; exact Hc]. }
  rewrite (Hp j part d Ej e He). unfold e at 2. rewrite with_at, <- E. rewrite (value_mid r A x B axis e _ El Ex HA HB). unfold value. rewrite El, bases_mid, map_app. cbn [map]. rewrite Ex. unfold e. rewrite !with_out; [reflexivity| |]; intros H; apply HdAB, in_or_app; auto.
Qed.

(** * The largest entries *)
Lemma unflat_snoc ns n : forall p, p < prod (ns ++ [n]) -> unflat (ns ++ [n]) p = unflat ns (p / n) ++ [p mod n].
Proof.
  induction ns as [|m ns IH]; intros p Hp.
  - cbn [app] in *. rewrite unflat_cons. rewrite prod_cons, prod_nil, Nat.mul_1_r in Hp. rewrite prod_nil, Nat.div_1_r, Nat.mod_1_r. cbn. rewrite Nat.mod_small by exact Hp. reflexivity.
  - cbn [app] in *. rewrite !unflat_cons. rewrite prod_cons in Hp. assert (H0 : 0 < prod (ns ++ [n])) by nia. rewrite IH by (apply Nat.mod_upper_bound; lia). rewrite prod_app, prod_cons, prod_nil, Nat.mul_1_r in *.
    assert (prod ns <> 0 /\ n <> 0) as [Hp1 Hn] by nia. rewrite (Nat.mul_comm (prod ns) n). cbn [app]. f_equal; [apply eq_sym, Nat.div_div; lia|].
    rewrite Nat.mod_mul_r by lia. f_equal.
    + f_equal. rewrite Nat.mul_comm, Nat.div_add by lia. rewrite (Nat.div_small (p mod n)) by (apply Nat.mod_upper_bound; lia). reflexivity.
    + f_equal. rewrite Nat.mul_comm, Nat.mod_add by lia. apply Nat.mod_mod. lia.
Qed.
Lemma decode_ok ns : forall r, exists l, decode_loop r (rev (map Some ns)) = Ok l /\ length l = length ns /\
  forall a ra, nth_error l a = Some ra -> shape ra = shape r /\ length (data ra) = length (data r) /\
    forall q p, nth_error (data r) q = Some (Z.of_nat p) -> p < prod ns -> nth_error (data ra) q = Some (Z.of_nat (nth a (unflat ns p) 0)).
Proof.
  induction ns as [|n ns IH] using rev_ind; intros r.
  - exists []. split; [reflexivity|]. split; [reflexivity|]. intros [|a] ra H; discriminate.
  - rewrite map_app, rev_app_distr. cbn [map rev app decode_loop]. destruct (IH {| shape := shape r; data := map (fun x => (x / Z.of_nat n)%Z) (data r) |}) as (l & E & Hl & H). rewrite E. cbn [bind]. eexists. split; [reflexivity|].
    split; [rewrite !app_length, Hl; reflexivity|]. intros a ra Ha. destruct (lt_dec a (length l)) as [Hlt|Hge].
    + rewrite nth_error_app1 in Ha by exact Hlt. destruct (H a ra Ha) as (H1 & H2 & H3). cbn [shape data] in *. rewrite map_length in H2. split; [exact H1|]. split; [exact H2|]. intros q p Hq Hp. rewrite unflat_snoc by exact Hp.
      rewrite app_nth1 by (rewrite unflat_len; lia). apply H3; [rewrite nth_error_map, Hq; cbn; f_equal; rewrite Nat2Z.inj_div; reflexivity|].
      rewrite prod_app, prod_cons, prod_nil, Nat.mul_1_r in Hp. apply Nat.div_lt_upper_bound; nia.
    + assert (a = length l) by (assert (Hs : nth_error (l ++ [{| shape := shape r; data := map (fun x => (x mod Z.of_nat n)%Z) (data r) |}]) a <> None) by congruence; apply nth_error_Some in Hs; rewrite app_length in Hs; cbn in Hs; lia). subst a.
      rewrite nth_error_app2, Nat.sub_diag in Ha by lia. cbn in Ha. injection Ha as <-. cbn [shape data]. rewrite map_length. split; [reflexivity|]. split; [reflexivity|]. intros q p Hq Hp. rewrite unflat_snoc by exact Hp.
      rewrite app_nth2 by (rewrite unflat_len; lia). rewrite unflat_len, Hl, Nat.sub_diag. cbn. rewrite nth_error_map, Hq. cbn. rewrite Nat2Z.inj_mod. reflexivity.
Qed.
Lemma with_indices_in : forall ds l env, NoDup (bases ds) -> length l = length ds -> map (with_indices env ds l) (bases ds) = l.
Proof.
  induction ds as [|d ds IH]; intros [|x l] env Hn Hl; try discriminate; [reflexivity|]. cbn in Hn. apply NoDup_cons_iff in Hn as [Hd Hn]. cbn [with_indices bases map]. rewrite with_at. f_equal.
  fold (bases ds). rewrite with_out by exact Hd. apply IH; [exact Hn|now injection Hl].
Qed.
Lemma with_indices_out : forall ds l env c, ~ In c (bases ds) -> with_indices env ds l c = env c.
Proof.
  induction ds as [|d ds IH]; intros [|x l] env c Hc; try reflexivity. cbn [with_indices]. unfold with_index. destruct (Nat.eqb_spec c (d_base d)); [exfalso; apply Hc; left; auto|]. apply IH. intros H. apply Hc. right. exact H.
Qed.

Lemma at_Some r i : length (data r) = prod (shape r) -> indexes i (shape r) -> nth_error (data r) (flat (shape r) i) = Some (at_ r i).
Proof. intros Hl Hi. unfold at_. apply nth_error_nth'. rewrite Hl. apply flat_lt, Hi. Qed.

Lemma not_nil {A T} (l : list A) (x y : T) : l <> [] -> match l with [] => x | _ :: _ => y end = y.
Proof. destruct l; [congruence|reflexivity]. Qed.
Lemma top_k_ok topk dimension t axes k_dim : topk_contract topk -> well size t -> NoDup (bases axes) -> incl (bases axes) (bases (dims t)) -> axes <> [] ->
  (forall d, In d axes -> dimension d = Some (size (d_base d))) -> (In (d_base k_dim) (bases (dims t)) -> In (d_base k_dim) (bases axes)) -> size (d_base k_dim) <= prod (sizes size axes) ->
  exists values indices, top_k topk dimension t axes (size (d_base k_dim)) k_dim = Ok (values, indices) /\ largest size t axes k_dim values indices.
Proof.
  intros Htop Hw Hna Hia Hne Hdim Hkd Hk. pose proof Hw as (_ & _ & Hn). unfold top_k. set (k := size (d_base k_dim)) in *. set (rest := filter (fun d => negb (mem d axes)) (dims t)).
  assert (HP : Permutation (bases (rest ++ axes)) (bases (dims t))).
  { pose proof (others_bases t axes axes Hw) as H. rewrite <- H by (split; [exact Hna|split; [exact Hia|split; [exact Hne|split; [exact Hna|split; [auto|reflexivity]]]]]). rewrite bases_app. apply Permutation_app_comm. }
  destruct (transpose_ok t (rest ++ axes) Hw HP) as (r1 & E1 & (Hs1 & Hl1 & Hn1) & Hv1). cbn [dims traw] in Hs1, Hl1, Hn1. fold (sizes size (rest ++ axes)) in Hs1. rewrite sizes_app in Hs1. rewrite E1. cbn [bind traw].
  rewrite not_nil by exact Hne. rewrite Hs1, app_length, !sizes_len.
  replace (length rest + length axes - length axes) with (length rest) by lia.
  assert (Esk : skipn (length rest) (sizes size rest ++ sizes size axes) = sizes size axes) by (rewrite <- (sizes_len rest), skipn_app, skipn_all, Nat.sub_diag; reflexivity).
  assert (Efi : firstn (length rest) (sizes size rest ++ sizes size axes) = sizes size rest) by (rewrite <- (sizes_len rest), firstn_app, Nat.sub_diag, firstn_all, firstn_O, app_nil_r; reflexivity).
  rewrite Esk, Efi. set (n := prod (sizes size axes)) in *. set (r2 := {| shape := sizes size rest ++ [n]; data := data r1 |}). unfold topk_raw. rewrite (proj2 (Nat.leb_le k n) Hk).
  cbn [r2 shape]. rewrite removelast_last. fold r2. set (s := sizes size rest ++ [k]).
  set (picked := fun i => nth (last i 0) (topk (last_rows r2 n (removelast i)) k) 0). set (vals := tabulate s _). set (idx := tabulate s _). cbn [bind].
  assert (Edim : map dimension axes = map Some (sizes size axes)) by (unfold sizes, bases; rewrite !map_map; apply map_ext_in; exact Hdim). rewrite Edim.
  destruct (decode_ok (sizes size axes) idx) as (l & El & Hll & Hdec). rewrite El. cbn [bind]. eexists. eexists. split; [reflexivity|].
  assert (Hrk : NoDup (bases (rest ++ [k_dim]))).
  { rewrite bases_app. apply NoDup_app_intro2; [apply NoDup_bases_filter, Hn|constructor; [intros []|constructor]|]. intros c Hc [<-|[]]. apply in_filter_bases in Hc as (d & Ed & Hd & Hm).
    assert (Hin : In (d_base d) (bases axes)) by (rewrite Ed; apply Hkd; rewrite <- Ed; apply In_base, Hd). apply mem_In in Hin. rewrite Hin in Hm. discriminate. }
  assert (Hwell : forall r, shape r = s -> length (data r) = prod s -> well size {| dims := rest ++ [k_dim]; traw := r |}).
  { intros r Hsr Hlr. split; [|split; [|exact Hrk]]; cbn [traw dims]; [|rewrite Hsr; exact Hlr]. rewrite Hsr. unfold s. fold (sizes size (rest ++ [k_dim])). rewrite sizes_app. reflexivity. }
  split; [apply Hwell; [reflexivity|apply tabulate_len]|]. split; [reflexivity|]. split; [rewrite map_length, Hll; apply sizes_len|]. split.
  { apply Forall_forall. intros x Hx. apply in_map_iff in Hx as (ra & <- & Hra). apply In_nth_error in Hra as (a & Ha). destruct (Hdec a ra Ha) as (H1 & H2 & _). split; [|reflexivity]. apply Hwell; [exact H1|]. rewrite H2. apply tabulate_len. }
  intros env Hin. set (ib := map env (bases rest)). assert (Hib : indexes ib (sizes size rest)) by (apply inside_indexes, Hin).
  set (row := last_rows r2 n ib). assert (Hrow : length row = n) by (unfold row, last_rows; rewrite map_length, seq_length; reflexivity).
  destruct (Htop row k) as (T1 & T2 & T3 & T4 & T5); [rewrite Hrow; exact Hk|]. set (ps := topk row k) in *.
  assert (Hkrest : ~ In (d_base k_dim) (bases rest)) by (rewrite bases_app in Hrk; intros H; apply (NoDup_disj _ _ Hrk _ H); left; reflexivity).
  assert (Hix : forall j, j < k -> indexes (ib ++ [j]) s) by (intros j Hj; apply Forall2_app; [exact Hib|constructor; [exact Hj|constructor]]).
  assert (Hval : forall r j, value {| dims := rest ++ [k_dim]; traw := r |} (with_index env (d_base k_dim) j) = at_ r (ib ++ [j])).
  { intros r j. unfold value. cbn [dims traw]. rewrite bases_app, map_app. cbn [bases map]. rewrite with_out by exact Hkrest. rewrite with_at. reflexivity. }
  assert (Hpick : forall j, picked (ib ++ [j]) = nth j ps 0) by (intros j; unfold picked; rewrite last_last, removelast_last; reflexivity).
  assert (Hrank : forall j, j < k -> at_ vals (ib ++ [j]) = nth (nth j ps 0) row 0%Z).
  { intros j Hj. unfold vals. rewrite at_tabulate by (apply Hix, Hj). rewrite !removelast_last, last_last. fold row. fold ps.
    assert (Hlt : nth j ps 0 < n) by (rewrite <- Hrow; apply T3, nth_In; lia). unfold row, last_rows. rewrite (nth_indep _ 0%Z (at_ r2 (ib ++ [0]))) by (rewrite map_length, seq_length; exact Hlt). rewrite (map_nth (fun p => at_ r2 (ib ++ [p]))), seq_nth by exact Hlt. reflexivity. }
  (* an entry of a row *)
  assert (Hentry : forall l0, Forall2 lt l0 (sizes size axes) -> nth (flat (sizes size axes) l0) row 0%Z = value t (with_indices env axes l0)).
  { intros l0 Hl0. pose proof (flat_lt _ _ Hl0) as Hlt. fold n in Hlt. assert (Hlen : length l0 = length axes) by (rewrite (Forall2_len _ _ _ Hl0); apply sizes_len). unfold row, last_rows.
    rewrite (nth_indep _ 0%Z (at_ r2 (ib ++ [0]))) by (rewrite map_length, seq_length; exact Hlt). rewrite (map_nth (fun p => at_ r2 (ib ++ [p]))), seq_nth by exact Hlt. cbn [Nat.add].
    assert (Hinw : inside size (with_indices env axes l0) (rest ++ axes)).
    { apply inside_app. split.
      - unfold inside in *. rewrite Forall_forall in *. intros c Hc. rewrite with_indices_out; [apply Hin, Hc|]. intros Hc'. apply in_filter_bases in Hc as (d & <- & _ & Hm). apply mem_In in Hc'. rewrite Hc' in Hm. discriminate.
      - apply indexes_inside. rewrite with_indices_in by assumption. exact Hl0. }
    rewrite <- Hv1 by (eapply inside_perm; [exact HP|exact Hinw]). unfold value. cbn [dims traw]. rewrite bases_app, map_app, with_indices_in by assumption.
    assert (Er : map (with_indices env axes l0) (bases rest) = ib).
    { apply map_ext_in. intros c Hc. apply with_indices_out. intros Hc'. apply in_filter_bases in Hc as (d & <- & _ & Hm). apply mem_In in Hc'. rewrite Hc' in Hm. discriminate. }
    rewrite Er. rewrite <- (raw_eta r1 _ Hs1). unfold r2. pose proof (at_reshape (data r1) (sizes size rest) (sizes size axes) [n] [] ib l0 [flat (sizes size axes) l0] []) as H. rewrite !app_nil_r in H. apply H.
    - apply (Forall2_len _ _ _ Hib).
    - apply (Forall2_len _ _ _ Hl0).
    - reflexivity.
    - rewrite flat_cons, prod_nil. cbn. lia.
    - rewrite prod_cons, prod_nil. unfold n. lia. }
  assert (Hplace : forall j, j < k -> indices_at (map (fun r => {| dims := rest ++ [k_dim]; traw := r |}) l) k_dim env j = unflat (sizes size axes) (nth j ps 0)).
  { intros j Hj. assert (Hlt : nth j ps 0 < n) by (rewrite <- Hrow; apply T3, nth_In; lia). unfold indices_at. rewrite map_map. apply nth_error_ext. intros a. rewrite nth_error_map. destruct (nth_error l a) as [ra|] eqn:Ea.
    - cbn. f_equal. rewrite Hval. destruct (Hdec a ra Ea) as (H1 & H2 & H3). specialize (H3 (flat s (ib ++ [j])) (nth j ps 0)).
      assert (Hd : nth_error (data idx) (flat s (ib ++ [j])) = Some (Z.of_nat (nth j ps 0))).
      { change s with (shape idx). rewrite at_Some; [|apply tabulate_len|apply Hix, Hj]. f_equal. unfold idx. rewrite at_tabulate by (apply Hix, Hj). fold (picked (ib ++ [j])). rewrite Hpick. reflexivity. }
      specialize (H3 Hd Hlt). change (shape idx) with s in H1. unfold at_. rewrite H1, (nth_error_nth _ _ 0%Z H3), Nat2Z.id. symmetry. apply nth_error_nth'. rewrite unflat_len. rewrite <- Hll. apply nth_error_Some. congruence.
    - cbn. symmetry. apply nth_error_None. rewrite unflat_len. apply nth_error_None in Ea. lia. }
  assert (Hpl : forall j, j < k -> Forall2 lt (unflat (sizes size axes) (nth j ps 0)) (sizes size axes)) by (intros j Hj; apply unflat_indexes; fold n; rewrite <- Hrow; apply T3, nth_In; lia).
  assert (Hfl : forall j, j < k -> flat (sizes size axes) (unflat (sizes size axes) (nth j ps 0)) = nth j ps 0) by (intros j Hj; apply flat_unflat; fold n; rewrite <- Hrow; apply T3, nth_In; lia).
  repeat split.
  - rewrite Hplace by assumption. apply Hpl. assumption.
  - rewrite Hval, Hrank, Hplace by assumption. rewrite <- Hentry by (apply Hpl; assumption). rewrite Hfl by assumption. reflexivity.
  - intros i j Hij Hj. rewrite !Hval, !Hrank by lia. apply T5; assumption.
  - intros i j Hij Hj. rewrite !Hplace by lia. intros E. assert (E' : nth i ps 0 = nth j ps 0) by (rewrite <- (Hfl i), <- (Hfl j), E by lia; reflexivity).
    assert (i = j) by (apply (proj1 (NoDup_nth ps 0) T2); lia || exact E'). lia.
  - intros l0 Hl0 Hno j Hj. rewrite Hval, Hrank, <- Hentry by assumption. apply T4; [apply nth_In; lia|rewrite Hrow; apply flat_lt, Hl0|]. intros Hi. apply In_nth with (d := 0) in Hi as (i & Hi & E). rewrite T1 in Hi.
    apply (Hno i Hi). rewrite Hplace, E by exact Hi. apply unflat_flat, Hl0.
Qed.
End WithSize.

(** the contract of [torch.topk] can be met *)
Definition sort_topk (row : list Z) (k : nat) : list nat := firstn k (stable_sort_by (fun p => (- nth p row 0)%Z) (seq 0 (length row))).
Lemma sorted_nth {A} (R : A -> A -> Prop) l : StronglySorted R l -> forall i j x y, i < j -> nth_error l i = Some x -> nth_error l j = Some y -> R x y.
Proof.
  induction 1 as [|a l Hs IH Ha]; intros i j x y Hij Hi Hj; [destruct i; discriminate|]. destruct j as [|j]; [lia|]. cbn in Hj. destruct i as [|i]; cbn in Hi.
  - injection Hi as <-. rewrite Forall_forall in Ha. apply Ha. eapply nth_error_In, Hj.
  - eapply (IH i j); [lia|exact Hi|exact Hj].
Qed.
Lemma nth_error_firstn_lt {A} (l : list A) n i : i < n -> nth_error (firstn n l) i = nth_error l i.
Proof. intros H. rewrite nth_error_firstn', (proj2 (Nat.ltb_lt i n) H). reflexivity. Qed.
Lemma sort_topk_contract : topk_contract sort_topk.
Proof.
  intros row k Hk. unfold sort_topk. set (l := stable_sort_by _ _). pose proof (stable_sort_perm (fun p => (- nth p row 0)%Z) (seq 0 (length row))) as HP. pose proof (stable_sort_sorted (fun p => (- nth p row 0)%Z) (seq 0 (length row))) as HS. fold l in HP, HS.
  assert (Hl : length l = length row) by (rewrite (Permutation_length HP), seq_length; reflexivity).
  assert (Hn : NoDup l) by (eapply Permutation_NoDup; [apply Permutation_sym, HP|apply seq_NoDup]).
  split; [rewrite firstn_length; lia|]. split; [rewrite <- (firstn_skipn k l) in Hn; apply NoDup_app_l in Hn; exact Hn|]. split; [|split].
  - intros p Hp. apply In_firstn in Hp. apply (Permutation_in _ HP), in_seq in Hp. lia.
  - intros p q Hp Hq Hnq. assert (Hql : In q l) by (apply (Permutation_in _ (Permutation_sym HP)), in_seq; lia). apply In_nth_error in Hp as (i & Hi). assert (i < k) by (assert (i < length (firstn k l)) by (apply nth_error_Some; congruence); rewrite firstn_length in *; lia).
    rewrite nth_error_firstn_lt in Hi by lia. apply In_nth_error in Hql as (j & Hj). assert (Hkj : k <= j).
    { destruct (le_lt_dec k j) as [Hx|Hx]; [exact Hx|]. exfalso. apply Hnq. apply nth_error_In with (n := j). rewrite nth_error_firstn_lt by lia. exact Hj. }
    pose proof (sorted_nth _ _ HS i j p q ltac:(lia) Hi Hj) as H1. cbv beta in H1. lia.
  - intros i j Hij Hj. destruct (Nat.eq_dec i j) as [->|Hne]; [lia|]. assert (Hx : forall m, m < k -> nth_error l m = Some (nth m (firstn k l) 0)).
    { intros m Hm. rewrite <- (nth_error_firstn_lt l k m Hm). apply nth_error_nth'. rewrite firstn_length. lia. }
    pose proof (sorted_nth _ _ HS i j _ _ ltac:(lia) (Hx i ltac:(lia)) (Hx j Hj)) as H1. cbv beta in H1. lia.
Qed.
