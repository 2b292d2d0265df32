From Coq Require Import Sorted.
From Verif Require Import Base ListLemmas PySort PySortProofs TensorModel TensorSpec TensorProofs MatmulModel MatmulSpec.
Local Open Scope nat_scope.

(** * Sums *)
Lemma sum_to_ext n f g : (forall k, k < n -> f k = g k) -> sum_to n f = sum_to n g.
Proof. induction n as [|n IH]; intros H; [reflexivity|]. cbn. rewrite IH by (intros k Hk; apply H; lia). rewrite H by lia. reflexivity. Qed.
Lemma total_sum n f : total n f = sum_to n f.
Proof.
  induction n as [|n IH]; [reflexivity|]. unfold total in *. rewrite seq_S, map_app, fold_right_app. cbn [map fold_right Nat.add sum_to]. rewrite <- IH. generalize (map f (seq 0 n)). intros l.
  induction l as [|x l IHl]; cbn; lia.
Qed.
Lemma sum_to_plus n m f : sum_to (n + m) f = (sum_to n f + sum_to m (fun q => f (n + q)%nat))%Z.
Proof. induction m as [|m IH]; [rewrite Nat.add_0_r; cbn; lia|]. rewrite Nat.add_succ_r. cbn [sum_to]. rewrite IH. lia. Qed.
Lemma sum_to_mul n m f : sum_to (n * m) f = sum_to n (fun k => sum_to m (fun q => f (k * m + q))).
Proof. induction n as [|n IH]; [reflexivity|]. cbn [sum_to]. replace (S n * m) with (n * m + m) by lia. rewrite sum_to_plus, IH. reflexivity. Qed.
Lemma sum_to_add n f g : sum_to n (fun k => f k + g k)%Z = (sum_to n f + sum_to n g)%Z.
Proof. induction n as [|n IH]; [reflexivity|]. cbn. rewrite IH. lia. Qed.
Lemma sum_to_swap n m f : sum_to n (fun k => sum_to m (fun j => f k j)) = sum_to m (fun j => sum_to n (fun k => f k j)).
Proof.
  induction n as [|n IH]; cbn [sum_to].
  - induction m as [|m IHm]; [reflexivity|]. cbn. rewrite <- IHm. reflexivity.
  - rewrite IH, sum_to_add. reflexivity.
Qed.
Definition respects (f : (nat -> nat) -> Z) : Prop := forall e e', (forall x, e x = e' x) -> f e = f e'.
Lemma sum_over_respects size ds f : respects f -> respects (sum_over size ds f).
Proof.
  intros Hf. induction ds as [|d ds IH]; [exact Hf|]. intros e e' He. cbn. apply sum_to_ext. intros k _. apply IH. intros x. unfold with_index. destruct (x =? d); auto.
Qed.
Lemma sum_over_perm size f l l' : respects f -> Permutation l l' -> NoDup l -> forall env, sum_over size l f env = sum_over size l' f env.
Proof.
  intros Hf HP. induction HP as [|x l l' HP IH|x y l|l l' l'' HP1 IH1 HP2 IH2]; intros Hn env.
  - reflexivity.
  - cbn. apply sum_to_ext. intros k _. apply IH. now inversion Hn.
  - cbn. rewrite sum_to_swap. apply sum_to_ext. intros k _. apply sum_to_ext. intros j _. apply sum_over_respects; [exact Hf|]. intros z. unfold with_index.
    destruct (Nat.eqb_spec z x), (Nat.eqb_spec z y); try reflexivity. subst. exfalso. inversion Hn; subst. apply H1. left. reflexivity.
  - rewrite IH1 by exact Hn. apply IH2. eapply Permutation_NoDup; eassumption.
Qed.

(** * Indices by axis *)
Definition over (axes vals : list nat) (ix : nat -> nat) : nat -> nat := fun x => if inb x axes then nth (pos x axes) vals 0 else ix x.
Lemma pos_nth_In x l : In x l -> nth (pos x l) l 0 = x.
Proof. induction l as [|y l IH]; intros H; [destruct H|]. cbn. destruct (Nat.eqb_spec x y); [auto|]. apply IH. destruct H; [congruence|assumption]. Qed.
Lemma pos_lt x l : In x l -> pos x l < length l.
Proof. induction l as [|y l IH]; intros H; [destruct H|]. cbn. destruct (Nat.eqb_spec x y); [lia|]. destruct H; [congruence|]. specialize (IH H). lia. Qed.
Lemma over_out axes vals ix l : (forall x, In x l -> ~ In x axes) -> map (over axes vals ix) l = map ix l.
Proof. intros H. apply map_ext_in. intros x Hx. unfold over. apply H, inb_false in Hx. rewrite Hx. reflexivity. Qed.
Lemma over_in axes : forall vals ix, NoDup axes -> length vals = length axes -> map (over axes vals ix) axes = vals.
Proof.
  induction axes as [|a axes IH]; intros [|v vals] ix Hn Hl; try discriminate; [reflexivity|]. apply NoDup_cons_iff in Hn as [Ha Hn]. cbn [map]. f_equal.
  - unfold over. cbn. rewrite Nat.eqb_refl. reflexivity.
  - rewrite <- (IH vals ix Hn) at 2 by (now injection Hl). apply map_ext_in. intros x Hx. unfold over. cbn. fold (inb x axes). destruct (Nat.eqb_spec x a); [subst; contradiction|]. reflexivity.
Qed.
Definition in_range (r : raw) (ix : nat -> nat) : Prop := forall a, a < length (shape r) -> ix a < nth a (shape r) 0.
Definition in_range_but (r : raw) (axes : list nat) (ix : nat -> nat) : Prop := forall a, a < length (shape r) -> ~ In a axes -> ix a < nth a (shape r) 0.
Lemma permute_at r P : Permutation P (seq 0 (length (shape r))) ->
  exists r1, permute r P = Ok r1 /\ shape r1 = axes_shape (shape r) P /\ length (data r1) = prod (shape r1) /\
    forall ix, in_range r ix -> at_ r1 (map ix P) = at_ r (map ix (seq 0 (length (shape r)))).
Proof.
  intros HP. unfold permute. rewrite perm_check by exact HP. eexists. split; [reflexivity|]. split; [reflexivity|]. split; [apply tabulate_len|]. intros ix Hix.
  rewrite at_tabulate.
  - f_equal. apply map_ext_in. intros a Ha. assert (HaP : In a P) by (eapply Permutation_in; [apply Permutation_sym, HP|exact Ha]).
    rewrite (nth_indep _ 0 (ix 0)) by (rewrite map_length; apply pos_lt, HaP). rewrite (map_nth ix). rewrite pos_nth_In by exact HaP. reflexivity.
  - unfold indexes. assert (HF : Forall (fun a => a < length (shape r)) P) by (apply Forall_forall; intros a Ha; apply (Permutation_in _ HP), in_seq in Ha; lia).
    clear HP. induction HF as [|a P Ha HF IH]; cbn; constructor; [apply Hix, Ha|exact IH].
Qed.
Lemma indexes_map r ix axes l : in_range_but r axes ix -> (forall a, In a l -> a < length (shape r)) -> (forall a, In a l -> ~ In a axes) -> indexes (map ix l) (axes_shape (shape r) l).
Proof. intros H Hl Hn. unfold indexes, axes_shape. induction l as [|a l IH]; cbn; constructor; [apply H; [apply Hl|apply Hn]; left; reflexivity|]. apply IH; intros x Hx; [apply Hl|apply Hn]; right; exact Hx. Qed.

(** merging axes *)
Lemma at_merge3 r s1 s2 s3 i1 i2 i3 : shape r = s1 ++ s2 ++ s3 -> indexes i1 s1 -> indexes i2 s2 -> indexes i3 s3 ->
  at_ {| shape := [prod s1; prod s2; prod s3]; data := data r |} [flat s1 i1; flat s2 i2; flat s3 i3] = at_ r (i1 ++ i2 ++ i3).
Proof.
  intros Hs H1 H2 H3. unfold at_. cbn [shape data]. f_equal. rewrite Hs, !flat_cons, !prod_cons, prod_nil. rewrite flat_app by (eapply Forall2_len; exact H1). rewrite flat_app by (eapply Forall2_len; exact H2). rewrite prod_app. cbn [flat]. lia.
Qed.
Lemma at_merge2 r s1 s2 s3 i1 i2 i3 : shape r = s1 ++ s2 ++ s3 -> indexes i1 s1 -> indexes i2 s2 -> indexes i3 s3 -> prod s1 = 1 ->
  at_ {| shape := [prod s2; prod s3]; data := data r |} [flat s2 i2; flat s3 i3] = at_ r (i1 ++ i2 ++ i3).
Proof.
  intros Hs H1 H2 H3 Hp. rewrite <- (at_merge3 r s1 s2 s3 i1 i2 i3 Hs H1 H2 H3). unfold at_. cbn [shape data]. f_equal. pose proof (flat_lt _ _ H1). rewrite Hp in *. rewrite !flat_cons, !prod_cons, prod_nil. cbn [flat]. replace (flat s1 i1) with 0 by lia. lia.
Qed.
Lemma same_nats_eq a b : same_nats a b = true <-> a = b.
Proof.
  unfold same_nats. split.
  - intros H. apply andb_true_iff in H as [Hl H]. apply Nat.eqb_eq in Hl. revert b Hl H. induction a as [|x a IH]; intros [|y b] Hl H; try discriminate; [reflexivity|]. cbn in H. apply andb_true_iff in H as [H1 H2]. apply Nat.eqb_eq in H1. f_equal; [exact H1|apply IH; [now injection Hl|exact H2]].
  - intros ->. rewrite Nat.eqb_refl. cbn. induction b as [|x b IH]; [reflexivity|]. cbn. rewrite Nat.eqb_refl. exact IH.
Qed.

(** * The three ways to multiply *)
Definition multiply (a b : raw) (ac au ar bc bu br : list nat) : res raw :=
  let sa := shape a in let sb := shape b in
  if (length bc =? 0) && (length br =? 1) && (length bu =? 1) then
    let* ra := permute a (au ++ ar) in
    let* rb := permute b (bu ++ br) in
    linear ra rb
  else
    let* ra := permute a (ac ++ au ++ ar) in
    let* rb := permute b (bc ++ br ++ bu) in
    let* r :=
      if prod (axes_shape sa ac) =? 1 then
        let* ra := reshape ra [prod (axes_shape sa au); prod (axes_shape sa ar)] in
        let* rb := reshape rb [prod (axes_shape sa ar); prod (axes_shape sb bu)] in
        mm ra rb
      else
        let* ra := reshape ra [prod (axes_shape sa ac); prod (axes_shape sa au); prod (axes_shape sa ar)] in
        let* rb := reshape rb [prod (axes_shape sa ac); prod (axes_shape sa ar); prod (axes_shape sb bu)] in
        bmm ra rb in
    reshape r (axes_shape sa ac ++ axes_shape sa au ++ axes_shape sb bu).

Lemma axes_app s l1 l2 : axes_shape s (l1 ++ l2) = axes_shape s l1 ++ axes_shape s l2.
Proof. apply map_app. Qed.
Lemma over_range r axes u ix : in_range_but r axes ix -> indexes u (axes_shape (shape r) axes) -> in_range r (over axes u ix).
Proof.
  intros H Hu a Ha. unfold over. destruct (inb a axes) eqn:E; [|apply inb_false in E; exact (H a Ha E)]. apply inb_In in E. unfold indexes in Hu.
  assert (Hp : nth_error (axes_shape (shape r) axes) (pos a axes) = Some (nth a (shape r) 0)).
  { unfold axes_shape. rewrite nth_error_map. pose proof (pos_nth_In a axes E) as Hp. pose proof (pos_lt a axes E) as HL. rewrite (nth_error_nth' axes 0 HL), Hp. reflexivity. }
  destruct (nth_error u (pos a axes)) as [v|] eqn:Ev.
  - rewrite (nth_error_nth _ _ 0 Ev). exact (Forall2_nth lt _ _ _ _ _ Hu Ev Hp).
  - exfalso. apply nth_error_None in Ev. rewrite (Forall2_len _ _ _ Hu) in Ev. assert (pos a axes < length (axes_shape (shape r) axes)) by (apply nth_error_Some; congruence). lia.
Qed.
Lemma perm_In (P : list nat) n : Permutation P (seq 0 n) -> forall x, In x P -> x < n.
Proof. intros H x Hx. apply (Permutation_in _ H), in_seq in Hx. lia. Qed.
Lemma axes_len s l : length (axes_shape s l) = length l.
Proof. apply map_length. Qed.
Lemma unflat_len s : forall p, length (unflat s p) = length s.
Proof. induction s as [|n s IH]; intros p; [reflexivity|]. rewrite unflat_cons. cbn. rewrite IH. reflexivity. Qed.

Lemma reshape_ok r s : prod s = prod (shape r) -> reshape r s = Ok {| shape := s; data := data r |}.
Proof. intros H. unfold reshape. rewrite (proj2 (Nat.eqb_eq _ _) H). reflexivity. Qed.
Lemma mm_eq n k m da db : mm {| shape := [n; k]; data := da |} {| shape := [k; m]; data := db |} =
  Ok (tabulate [n; m] (fun i => total k (fun r => Z.mul (at_ {| shape := [n; k]; data := da |} [nth 0 i 0; r]) (at_ {| shape := [k; m]; data := db |} [r; nth 1 i 0])))).
Proof. unfold mm. cbn [shape]. rewrite Nat.eqb_refl. reflexivity. Qed.
Lemma bmm_eq c n k m da db : bmm {| shape := [c; n; k]; data := da |} {| shape := [c; k; m]; data := db |} =
  Ok (tabulate [c; n; m] (fun i => total k (fun r => Z.mul (at_ {| shape := [c; n; k]; data := da |} [nth 0 i 0; nth 1 i 0; r]) (at_ {| shape := [c; k; m]; data := db |} [nth 0 i 0; r; nth 2 i 0])))).
Proof. unfold bmm. cbn [shape]. rewrite !Nat.eqb_refl. reflexivity. Qed.
Lemma multiply_ok a b ac au ar bc bu br :
  Permutation (ac ++ au ++ ar) (seq 0 (length (shape a))) -> Permutation (bc ++ br ++ bu) (seq 0 (length (shape b))) ->
  axes_shape (shape a) ac = axes_shape (shape b) bc -> axes_shape (shape a) ar = axes_shape (shape b) br ->
  exists r, multiply a b ac au ar bc bu br = Ok r /\ shape r = axes_shape (shape a) ac ++ axes_shape (shape a) au ++ axes_shape (shape b) bu /\
    length (data r) = prod (shape r) /\
    forall ixa ixb, in_range_but a ar ixa -> in_range_but b br ixb -> map ixa ac = map ixb bc ->
      at_ r (map ixa ac ++ map ixa au ++ map ixb bu) =
      sum_to (prod (axes_shape (shape a) ar)) (fun p =>
        at_ a (map (over ar (unflat (axes_shape (shape a) ar) p) ixa) (seq 0 (length (shape a)))) *
        at_ b (map (over br (unflat (axes_shape (shape a) ar) p) ixb) (seq 0 (length (shape b)))))%Z.
Proof.
  intros HPa HPb Hc Hr. pose proof (perm_In _ _ HPa) as Ina. pose proof (perm_In _ _ HPb) as Inb.
  assert (Hna : NoDup (ac ++ au ++ ar)) by (eapply Permutation_NoDup; [apply Permutation_sym, HPa|apply seq_NoDup]).
  assert (Hnb : NoDup (bc ++ br ++ bu)) by (eapply Permutation_NoDup; [apply Permutation_sym, HPb|apply seq_NoDup]).
  assert (Dac : forall x, In x ac -> ~ In x ar) by (intros x H1 H2; apply (NoDup_disj _ _ Hna x H1), in_or_app; right; exact H2).
  assert (Dau : forall x, In x au -> ~ In x ar) by (intros x H1 H2; apply NoDup_app_r in Hna; exact (NoDup_disj _ _ Hna x H1 H2)).
  assert (Dbc : forall x, In x bc -> ~ In x br) by (intros x H1 H2; apply (NoDup_disj _ _ Hnb x H1), in_or_app; left; exact H2).
  assert (Dbu : forall x, In x bu -> ~ In x br) by (intros x H1 H2; apply NoDup_app_r in Hnb; exact (NoDup_disj _ _ Hnb x H2 H1)).
  assert (Nar : NoDup ar) by (apply NoDup_app_r in Hna; apply NoDup_app_r in Hna; exact Hna).
  assert (Nbr : NoDup br) by (apply NoDup_app_r in Hnb; apply NoDup_app_l in Hnb; exact Hnb).
  assert (Lr : length br = length ar) by (rewrite <- (axes_len (shape b)), <- Hr, axes_len; reflexivity).
  set (sr := axes_shape (shape a) ar) in *. set (sc := axes_shape (shape a) ac) in *. set (sa := axes_shape (shape a) au). set (sb := axes_shape (shape b) bu).
  assert (Gr : forall p, p < prod sr -> indexes (unflat sr p) sr) by apply unflat_indexes.
  assert (Ia : forall ixa, in_range_but a ar ixa -> indexes (map ixa ac) sc /\ indexes (map ixa au) sa) by (intros ix H; split; apply (indexes_map a ix ar); auto; intros x Hx; apply Ina; rewrite !in_app_iff; auto).
  assert (Ib : forall ixb, in_range_but b br ixb -> indexes (map ixb bc) sc /\ indexes (map ixb bu) sb) by (intros ix H; split; [rewrite Hc|]; apply (indexes_map b ix br); auto; intros x Hx; apply Inb; rewrite !in_app_iff; auto).
  unfold multiply. fold sr sc sa sb. destruct ((length bc =? 0) && (length br =? 1) && (length bu =? 1)) eqn:E.
  - apply andb_true_iff in E as [E E3]. apply andb_true_iff in E as [E1 E2]. apply Nat.eqb_eq in E1, E2, E3. apply length_zero_iff_nil in E1. subst bc.
    assert (ac = []) by (apply length_zero_iff_nil; rewrite <- (axes_len (shape a)); fold sc; rewrite Hc; reflexivity). subst ac. cbn [app map] in *.
    destruct bu as [|u [|]]; try discriminate. destruct br as [|y [|]]; try discriminate. destruct ar as [|x [|]]; try discriminate.
    assert (HPb' : Permutation ([u] ++ [y]) (seq 0 (length (shape b)))) by (eapply Permutation_trans; [apply Permutation_app_comm|exact HPb]).
    destruct (permute_at a (au ++ [x]) HPa) as (ra & Ea & Sa & La & Va). destruct (permute_at b ([u] ++ [y]) HPb') as (rb & Eb & Sb & Lb & Vb). rewrite Ea, Eb. cbn [bind].
    rewrite axes_app in Sa, Sb. cbn [axes_shape map app] in Sb. unfold linear. rewrite Sb, Sa. change (axes_shape (shape a) [x]) with [nth x (shape a) 0].
    assert (Hk : nth y (shape b) 0 = nth x (shape a) 0) by (unfold sr in Hr; cbn in Hr; injection Hr; auto).
    rewrite app_length, removelast_last, last_last, Hk, Nat.eqb_refl. cbn [length andb]. assert (E0 : 0 <? length (axes_shape (shape a) au) + 1 = true) by (apply Nat.ltb_lt; lia). rewrite E0. cbn [andb].
    eexists. split; [reflexivity|]. split; [reflexivity|]. split; [apply tabulate_len|]. intros ixa ixb Ra Rb _. destruct (Ia ixa Ra) as [_ IAu]. destruct (Ib ixb Rb) as [_ IBu]. fold sa sb in IAu, IBu |- *.
    change (sa ++ [nth u (shape b) 0]) with (sa ++ sb). rewrite at_tabulate by (apply Forall2_app; assumption). cbn [map]. rewrite removelast_last, last_last, total_sum.
    unfold sr. cbn [axes_shape map]. rewrite prod_cons, prod_nil, Nat.mul_1_r. apply sum_to_ext. intros k Hk'. rewrite unflat_cons, prod_nil, Nat.div_1_r, Nat.mod_1_r. cbn [unflat].
    assert (IK : indexes [k] [nth x (shape a) 0]) by (constructor; [exact Hk'|constructor]).
    f_equal.
    + rewrite <- Va by (apply over_range; [exact Ra|exact IK]). rewrite map_app, over_out by exact Dau. rewrite over_in by (auto; reflexivity). reflexivity.
    + rewrite <- Vb by (apply over_range; [exact Rb|cbn; rewrite Hk; exact IK]). rewrite map_app, over_out by exact Dbu. rewrite over_in by (auto; reflexivity). reflexivity.
  - clear E. destruct (permute_at a _ HPa) as (ra & Ea & Sa & La & Va). destruct (permute_at b _ HPb) as (rb & Eb & Sb & Lb & Vb). rewrite Ea, Eb. cbn [bind]. rewrite !axes_app in Sa, Sb. fold sc sa sr in Sa. rewrite <- Hc, <- Hr in Sb. fold sb in Sb.
    assert (AA : forall ixa p, in_range_but a ar ixa -> p < prod sr -> at_ a (map (over ar (unflat sr p) ixa) (seq 0 (length (shape a)))) = at_ ra (map ixa ac ++ map ixa au ++ unflat sr p)).
    { intros ixa p Ra Hp. rewrite <- Va by (apply over_range; [exact Ra|apply Gr, Hp]). rewrite !map_app, !over_out by assumption. rewrite over_in; [reflexivity|exact Nar|rewrite unflat_len; apply axes_len]. }
    assert (BB : forall ixb p, in_range_but b br ixb -> p < prod sr -> at_ b (map (over br (unflat sr p) ixb) (seq 0 (length (shape b)))) = at_ rb (map ixb bc ++ unflat sr p ++ map ixb bu)).
    { intros ixb p Rb Hp. rewrite <- Vb by (apply over_range; [exact Rb|rewrite <- Hr; apply Gr, Hp]). rewrite !map_app, (over_out _ _ _ bc), (over_out _ _ _ bu) by assumption. rewrite over_in; [reflexivity|exact Nbr|rewrite unflat_len; unfold sr; rewrite axes_len; auto]. }
    destruct (Nat.eqb_spec (prod sc) 1) as [E1|E1].
    + rewrite (reshape_ok ra) by (rewrite Sa, !prod_app, !prod_cons, prod_nil, E1; lia). cbn [bind]. rewrite (reshape_ok rb) by (rewrite Sb, !prod_app, !prod_cons, prod_nil, E1; lia). cbn [bind].
      rewrite mm_eq. cbn [bind]. rewrite reshape_ok by (cbn [shape tabulate]; rewrite !prod_app, !prod_cons, prod_nil, E1; lia). eexists. split; [reflexivity|]. cbn [shape data]. split; [reflexivity|].
      split; [rewrite tabulate_len, !prod_app, !prod_cons, prod_nil; lia|]. intros ixa ixb Ra Rb Hab. destruct (Ia ixa Ra) as [IAc IAu]. destruct (Ib ixb Rb) as [IBc IBu].
      rewrite <- (at_merge2 {| shape := sc ++ sa ++ sb; data := _ |} sc sa sb _ _ _ eq_refl IAc IAu IBu E1). cbn [data].
      match goal with |- at_ {| shape := _; data := data ?t |} _ = _ => change (at_ {| shape := [prod sa; prod sb]; data := data t |}) with (at_ t) end.
      rewrite at_tabulate by (repeat constructor; apply flat_lt; assumption). cbn [nth]. rewrite total_sum. apply sum_to_ext. intros p Hp. rewrite AA, BB by assumption.
      rewrite <- (at_merge2 ra sc sa sr _ _ _ Sa IAc IAu (Gr p Hp) E1), <- (at_merge2 rb sc sr sb _ _ _ Sb IBc (Gr p Hp) IBu E1), flat_unflat by exact Hp. reflexivity.
    + rewrite (reshape_ok ra) by (rewrite Sa, !prod_app, !prod_cons, prod_nil; lia). cbn [bind]. rewrite (reshape_ok rb) by (rewrite Sb, !prod_app, !prod_cons, prod_nil; lia). cbn [bind].
      rewrite bmm_eq. cbn [bind]. rewrite reshape_ok by (cbn [shape tabulate]; rewrite !prod_app, !prod_cons, prod_nil; lia). eexists. split; [reflexivity|]. cbn [shape data]. split; [reflexivity|].
      split; [rewrite tabulate_len, !prod_app, !prod_cons, prod_nil; lia|]. intros ixa ixb Ra Rb Hab. destruct (Ia ixa Ra) as [IAc IAu]. destruct (Ib ixb Rb) as [IBc IBu].
      rewrite <- (at_merge3 {| shape := sc ++ sa ++ sb; data := _ |} sc sa sb _ _ _ eq_refl IAc IAu IBu). cbn [data].
      match goal with |- at_ {| shape := _; data := data ?t |} _ = _ => change (at_ {| shape := [prod sc; prod sa; prod sb]; data := data t |}) with (at_ t) end.
      rewrite at_tabulate by (repeat constructor; apply flat_lt; assumption). cbn [nth]. rewrite total_sum. apply sum_to_ext. intros p Hp. rewrite AA, BB by assumption.
      rewrite <- (at_merge3 ra sc sa sr _ _ _ Sa IAc IAu (Gr p Hp)), <- (at_merge3 rb sc sr sb _ _ _ Sb IBc (Gr p Hp) IBu), flat_unflat by exact Hp. rewrite Hab. reflexivity.
Qed.

(** * By names *)
Lemma over_respects R F u : respects F -> respects (fun e => F (over R u e)).
Proof. intros HF e e' He. apply HF. intros x. unfold over. destruct (inb x R); auto. Qed.
Lemma sum_unflat size F : respects F -> forall R env, NoDup R -> sum_to (prod (map size R)) (fun p => F (over R (unflat (map size R) p) env)) = sum_over size R F env.
Proof.
  intros HF. induction R as [|d R IH]; intros env Hn; cbn [map sum_over].
  - rewrite prod_nil. cbn [sum_to]. rewrite Z.add_0_l. apply HF. reflexivity.
  - apply NoDup_cons_iff in Hn as [Hd Hn]. rewrite prod_cons, sum_to_mul. apply sum_to_ext. intros k Hk. rewrite <- IH by exact Hn. apply sum_to_ext. intros q Hq. apply HF. intros x.
    rewrite unflat_cons. rewrite Nat.div_add_l by lia. rewrite Nat.div_small by lia. rewrite Nat.add_0_r, Nat.add_comm, Nat.mod_add, Nat.mod_small by lia.
    unfold over, with_index. cbn. fold (inb x R). destruct (Nat.eqb_spec x d) as [->|E]; cbn [orb].
    + apply inb_false in Hd. rewrite Hd. reflexivity.
    + reflexivity.
Qed.
Lemma axis_absent d : forall ds i st, ~ In (d_base d) (bases ds) -> axis_loop d i ds st = Ok st.
Proof.
  induction ds as [|t ds IH]; intros i st H; [reflexivity|]. cbn [axis_loop]. destruct (deq t d) eqn:E; [apply deq_eq in E; exfalso; apply H; left; exact E|]. apply IH. intros Hi. apply H. right. exact Hi.
Qed.
Lemma axis_found d : forall ds i, NoDup (bases ds) -> In (d_base d) (bases ds) -> exists p, axis_loop d i ds None = Ok (Some (i + dim_index ds d, p)).
Proof.
  induction ds as [|t ds IH]; intros i Hn Hd; [destruct Hd|]. cbn in Hn. apply NoDup_cons_iff in Hn as [Ht Hn]. cbn [axis_loop dim_index]. destruct (deq t d) eqn:E.
  - apply deq_eq in E. rewrite axis_absent by (rewrite <- E; exact Ht). assert (deq d t = true) by (apply deq_eq; congruence). rewrite H, Nat.add_0_r. eauto.
  - assert (deq d t = false) by (unfold deq in *; rewrite Nat.eqb_sym; exact E). rewrite H. destruct Hd as [Hd|Hd]; [unfold deq in E; rewrite Hd, Nat.eqb_refl in E; discriminate|].
    destruct (IH (S i) Hn Hd) as (p & Ep). exists p. rewrite Ep. do 3 f_equal. lia.
Qed.
Lemma axis_of_index ds d : NoDup (bases ds) -> In (d_base d) (bases ds) -> axis_of ds d = Ok (dim_index ds d).
Proof. intros Hn Hd. unfold axis_of. destruct (axis_found d ds 0 Hn Hd) as (p & E). rewrite E. reflexivity. Qed.
Lemma map_pos_self l : NoDup l -> map (fun c => pos c l) l = seq 0 (length l).
Proof.
  intros Hn. apply nth_error_ext. intros i. rewrite nth_error_map. destruct (lt_dec i (length l)) as [Hi|Hi].
  - rewrite nth_error_seq by exact Hi. destruct (nth_error l i) as [c|] eqn:E; [|apply nth_error_None in E; lia]. cbn. f_equal.
    assert (Hc : In c l) by (eapply nth_error_In, E). pose proof (pos_nth_In c l Hc) as H1. pose proof (pos_lt c l Hc) as H2.
    apply (NoDup_nth_error l); [exact Hn|exact H2|]. rewrite E, (nth_error_nth' l 0 H2), H1. reflexivity.
  - rewrite (proj2 (nth_error_None l i)) by lia. symmetry. apply nth_error_None. rewrite seq_length. lia.
Qed.
Lemma dim_index_self ds : NoDup (bases ds) -> map (dim_index ds) ds = seq 0 (length ds).
Proof.
  intros Hn. rewrite (map_ext _ (fun d => pos (d_base d) (bases ds))) by apply dim_index_pos. rewrite <- (map_map d_base (fun c => pos c (bases ds))). fold (bases ds). rewrite map_pos_self by exact Hn. unfold bases. rewrite map_length. reflexivity.
Qed.
Lemma filter_of_map {A B} (g : A -> B) f l : filter f (map g l) = map g (filter (fun x => f (g x)) l).
Proof. induction l as [|x l IH]; [reflexivity|]. cbn. rewrite IH. destruct (f (g x)); reflexivity. Qed.
Lemma combine_map_self {A B} (g : A -> B) l : combine (map g l) l = map (fun x => (g x, x)) l.
Proof. induction l as [|x l IH]; [reflexivity|]. cbn. rewrite IH. reflexivity. Qed.
Lemma pos_of_map (g : nat -> nat) c l : (forall x, In x l -> g x = g c -> x = c) -> pos (g c) (map g l) = pos c l /\ inb (g c) (map g l) = inb c l.
Proof.
  induction l as [|y l IH]; intros H; [auto|]. destruct IH as [I1 I2]; [intros x Hx; apply H; right; exact Hx|]. cbn. fold (inb (g c) (map g l)) (inb c l). rewrite I1, I2.
  destruct (Nat.eqb_spec c y) as [->|E]; [rewrite Nat.eqb_refl; auto|]. destruct (Nat.eqb_spec (g c) (g y)) as [E'|E']; [exfalso; apply E; symmetry; apply H; [left; reflexivity|auto]|]. auto.
Qed.
Lemma pos_inj l x y : In x l -> In y l -> pos x l = pos y l -> x = y.
Proof. intros Hx Hy E. rewrite <- (pos_nth_In x l Hx), <- (pos_nth_In y l Hy), E. reflexivity. Qed.
Lemma In_base d L : In d L -> In (d_base d) (bases L).
Proof. apply in_map. Qed.
Lemma get_index ds d dflt : NoDup (bases ds) -> In d ds -> nth (dim_index ds d) ds dflt = d.
Proof.
  intros Hn Hd. induction ds as [|t ds IH]; [destruct Hd|]. cbn in Hn. apply NoDup_cons_iff in Hn as [Ht Hn]. cbn. destruct (deq d t) eqn:E.
  - destruct Hd as [Hd|Hd]; [exact Hd|]. apply deq_eq in E. exfalso. apply Ht. rewrite <- E. apply In_base, Hd.
  - destruct Hd as [->|Hd]; [unfold deq in E; rewrite Nat.eqb_refl in E; discriminate|]. apply IH; assumption.
Qed.
Lemma index_lt ds d : In (d_base d) (bases ds) -> dim_index ds d < length ds.
Proof. intros H. rewrite dim_index_pos, <- (bases_len ds). apply pos_lt, H. Qed.
Lemma filter_axes ds f : NoDup (bases ds) -> filter f (seq 0 (length ds)) = map (dim_index ds) (filter (fun d => f (dim_index ds d)) ds).
Proof. intros Hn. rewrite <- (dim_index_self ds Hn). apply filter_of_map. Qed.
Lemma enumerated_index ds : NoDup (bases ds) -> enumerated ds = map (fun d => (dim_index ds d, d)) ds.
Proof. intros Hn. unfold enumerated. rewrite <- (dim_index_self ds Hn). apply combine_map_self. Qed.
Lemma axes_by_pos ds L : map (dim_index ds) L = map (fun c => pos c (bases ds)) (bases L).
Proof. unfold bases at 2. rewrite map_map. apply map_ext. intros d. apply dim_index_pos. Qed.
Lemma inb_axes ds d L : In (d_base d) (bases ds) -> incl (bases L) (bases ds) -> inb (dim_index ds d) (map (dim_index ds) L) = mem d L.
Proof.
  intros Hd HL. rewrite axes_by_pos, dim_index_pos. destruct (pos_of_map (fun c => pos c (bases ds)) (d_base d) (bases L)) as [_ ->]; [intros x Hx E; apply (pos_inj (bases ds)); auto|].
  apply eq_true_iff_eq. rewrite inb_In, mem_In. reflexivity.
Qed.
Lemma mem_perm d L L' : Permutation L L' -> mem d L = mem d L'.
Proof. intros H. apply eq_true_iff_eq. rewrite !mem_In. unfold bases. split; apply Permutation_in, Permutation_map; [exact H|apply Permutation_sym, H]. Qed.
Lemma axes_perm ds L : NoDup (bases ds) -> Permutation (bases L) (bases ds) -> Permutation (map (dim_index ds) L) (seq 0 (length ds)).
Proof. intros Hn HP. rewrite axes_by_pos, <- (bases_len ds), <- (map_pos_self (bases ds) Hn). apply Permutation_map, HP. Qed.
Lemma axes_size size ds L : incl (bases L) (bases ds) -> axes_shape (map size (bases ds)) (map (dim_index ds) L) = map size (bases L).
Proof.
  intros HL. unfold axes_shape. rewrite axes_by_pos, map_map. apply map_ext_in. intros c Hc. apply HL in Hc. rewrite (nth_indep _ 0 (size 0)) by (rewrite map_length; apply pos_lt, Hc). rewrite map_nth, pos_nth_In by exact Hc. reflexivity.
Qed.
Definition by_axis (ds : list dim) (env : nat -> nat) (i : nat) : nat := env (nth i (bases ds) 0).
Lemma map_by_axis ds env L : incl (bases L) (bases ds) -> map (by_axis ds env) (map (dim_index ds) L) = map env (bases L).
Proof. intros HL. rewrite axes_by_pos, map_map. apply map_ext_in. intros c Hc. unfold by_axis. rewrite pos_nth_In by (apply HL, Hc). reflexivity. Qed.
Lemma value_over t R u env : NoDup (bases (dims t)) -> incl (bases R) (bases (dims t)) ->
  at_ (traw t) (map (over (map (dim_index (dims t)) R) u (by_axis (dims t) env)) (seq 0 (length (dims t)))) = value t (over (bases R) u env).
Proof.
  intros Hn HR. unfold value. f_equal. rewrite <- (bases_len (dims t)), <- (map_pos_self _ Hn), map_map, axes_by_pos. apply map_ext_in. intros c Hc. unfold over, by_axis.
  destruct (pos_of_map (fun c => pos c (bases (dims t))) c (bases R)) as [-> ->]; [intros x Hx E; apply (pos_inj (bases (dims t))); auto|]. rewrite pos_nth_In by exact Hc. reflexivity.
Qed.
Lemma value_respects t : respects (value t).
Proof. intros e e' H. unfold value. f_equal. apply map_ext. exact H. Qed.

Lemma NoDup_bases_filter P ds : NoDup (bases ds) -> NoDup (bases (filter P ds)).
Proof.
  induction ds as [|d ds IH]; intros H; [exact H|]. cbn in H. apply NoDup_cons_iff in H as [Hd H]. cbn. destruct (P d); [|apply IH, H]. cbn. constructor; [|apply IH, H].
  intros Hi. apply Hd. unfold bases in Hi. apply in_map_iff in Hi as (x & E & Hx). apply filter_In in Hx as [Hx _]. rewrite <- E. apply In_base, Hx.
Qed.
(** a condition that only looks at the name *)
Definition by_name (P : dim -> bool) : Prop := forall d d', d_base d = d_base d' -> P d = P d'.
Lemma mem_by_name L : by_name (fun d => mem d L).
Proof. intros d d' E. apply eq_true_iff_eq. rewrite !mem_In, E. reflexivity. Qed.
Lemma mem_filter d P ds : by_name P -> mem d (filter P ds) = mem d ds && P d.
Proof.
  intros HP. apply eq_true_iff_eq. rewrite andb_true_iff, !mem_In. unfold bases. rewrite !in_map_iff. split.
  - intros (x & E & Hx). apply filter_In in Hx as [Hx Px]. split; [exists x; auto|]. rewrite <- Px. apply HP. auto.
  - intros ((x & E & Hx) & Pd). exists x. split; [exact E|]. apply filter_In. split; [exact Hx|]. rewrite <- Pd. apply HP. exact E.
Qed.
Lemma mem_in d ds : In d ds -> mem d ds = true.
Proof. intros H. apply mem_In, In_base, H. Qed.
Lemma in_filter_bases c P ds : In c (bases (filter P ds)) -> exists d, d_base d = c /\ In d ds /\ P d = true.
Proof. intros H. unfold bases in H. apply in_map_iff in H as (d & E & H). apply filter_In in H as [H1 H2]. eauto. Qed.

Lemma map_fixed {A} (f : A -> A) L : (forall d, In d L -> f d = d) -> map f L = L.
Proof. intros H. rewrite <- (map_id L) at 2. apply map_ext_in. exact H. Qed.
Lemma filter_none {A} (L : list A) : filter (fun _ => false) L = [].
Proof. induction L; auto. Qed.
Lemma matmul_ok size version dynamic a b reduce use_mask : well size a -> well size b -> NoDup (bases reduce) ->
  incl (bases reduce) (bases (dims a)) -> incl (bases reduce) (bases (dims b)) -> use_mask && existsb dynamic reduce = false ->
  exists r, matmul version dynamic a b reduce use_mask = Ok r /\ product size a b reduce r.
Proof.
  intros (Sa & La & Na) (Sb & Lb & Nb) Nr Ra Rb Hm. unfold matmul. rewrite Hm.
  assert (Fa : forallb (fun d => mem d (dims a)) reduce = true) by (apply forallb_forall; intros d Hd; apply mem_In, Ra, In_base, Hd).
  assert (Fb : forallb (fun d => mem d (dims b)) reduce = true) by (apply forallb_forall; intros d Hd; apply mem_In, Rb, In_base, Hd). rewrite Fa, Fb. cbn [assert_ bind].
  set (R := stable_sort_by _ reduce). assert (HPR : Permutation R reduce) by apply stable_sort_perm. assert (HPRb : Permutation (bases R) (bases reduce)) by (apply Permutation_map, HPR). clearbody R.
  assert (Ra' : incl (bases R) (bases (dims a))) by (intros c Hc; apply Ra; eapply Permutation_in; eassumption).
  assert (Rb' : incl (bases R) (bases (dims b))) by (intros c Hc; apply Rb; eapply Permutation_in; eassumption).
  assert (NR : NoDup (bases R)) by (eapply Permutation_NoDup; [apply Permutation_sym, HPRb|exact Nr]).
  rewrite (mapM_ok_map _ (dim_index (dims a)) R) by (intros d Hd; apply axis_of_index; [exact Na|apply Ra', In_base, Hd]).
  rewrite (mapM_ok_map _ (dim_index (dims b)) R) by (intros d Hd; apply axis_of_index; [exact Nb|apply Rb', In_base, Hd]). cbn [bind].
  set (C := filter (fun d => mem d (dims b) && negb (mem d reduce)) (dims a)).
  assert (EC : map snd (filter (fun '(i, d) => mem d (dims b) && negb (inb i (map (dim_index (dims a)) R))) (enumerated (dims a))) = C).
  { rewrite (enumerated_index (dims a) Na), filter_of_map, map_map. cbn [snd]. rewrite map_id. unfold C. apply filter_ext_in. intros d Hd. rewrite inb_axes by (auto; apply In_base, Hd). rewrite (mem_perm d R reduce HPR). reflexivity. }
  rewrite EC. clear EC.
  assert (Ca : incl (bases C) (bases (dims a))) by (intros c Hc; apply in_filter_bases in Hc as (d & <- & Hd & _); apply In_base, Hd).
  assert (Cb : incl (bases C) (bases (dims b))) by (intros c Hc; apply in_filter_bases in Hc as (d & <- & Hd & HP); apply andb_true_iff in HP as [HP _]; apply mem_In, HP).
  assert (NC : by_name (fun d => mem d (dims b) && negb (mem d reduce))) by (intros d d' E; rewrite (mem_by_name (dims b) d d' E), (mem_by_name reduce d d' E); reflexivity).
  assert (Hred : forall d, mem d reduce = true -> mem d (dims a) = true /\ mem d (dims b) = true) by (intros d; rewrite !mem_In; intros H; split; [apply Ra, H|apply Rb, H]).
  rewrite (filter_axes (dims a) _ Na), (filter_axes (dims b) _ Nb).
  set (U := filter (fun d => negb (mem d (dims b))) (dims a)). set (V := filter (fun d => negb (mem d (dims a))) (dims b)).
  assert (EU : filter (fun d => negb (inb (dim_index (dims a) d) (map (dim_index (dims a)) R)) && negb (inb (dim_index (dims a) d) (map (dim_index (dims a)) C))) (dims a) = U).
  { unfold U. apply filter_ext_in. intros d Hd. pose proof (In_base d _ Hd) as Hb. rewrite !inb_axes by auto. rewrite (mem_perm d R reduce HPR). unfold C. rewrite mem_filter by exact NC. rewrite (mem_in d (dims a) Hd).
    pose proof (Hred d). destruct (mem d reduce), (mem d (dims b)); cbn; intuition congruence. }
  assert (EV : filter (fun d => negb (inb (dim_index (dims b) d) (map (dim_index (dims b)) R)) && negb (inb (dim_index (dims b) d) (map (dim_index (dims b)) C))) (dims b) = V).
  { unfold V. apply filter_ext_in. intros d Hd. pose proof (In_base d _ Hd) as Hb. rewrite !inb_axes by auto. rewrite (mem_perm d R reduce HPR). unfold C. rewrite mem_filter by exact NC. rewrite (mem_in d (dims b) Hd).
    pose proof (Hred d). destruct (mem d reduce), (mem d (dims a)); cbn; intuition congruence. }
  rewrite EU, EV. clear EU EV.
  assert (Ua : incl (bases U) (bases (dims a))) by (intros c Hc; apply in_filter_bases in Hc as (d & <- & Hd & _); apply In_base, Hd).
  assert (Vb : incl (bases V) (bases (dims b))) by (intros c Hc; apply in_filter_bases in Hc as (d & <- & Hd & _); apply In_base, Hd).
  assert (DCR : forall c, In c (bases C) -> ~ In c (bases R)).
  { intros c Hc Hr. apply in_filter_bases in Hc as (d & <- & Hd & HP). apply andb_true_iff in HP as [_ HP]. apply (Permutation_in _ HPRb), mem_In in Hr. rewrite Hr in HP. discriminate. }
  assert (DUR : forall c, In c (bases U) -> ~ In c (bases R)).
  { intros c Hc Hr. apply in_filter_bases in Hc as (d & <- & Hd & HP). apply Rb', mem_In in Hr. rewrite Hr in HP. discriminate. }
  assert (DVR : forall c, In c (bases V) -> ~ In c (bases R)).
  { intros c Hc Hr. apply in_filter_bases in Hc as (d & <- & Hd & HP). apply Ra', mem_In in Hr. rewrite Hr in HP. discriminate. }
  assert (DCU : forall c, In c (bases C) -> ~ In c (bases U)).
  { intros c Hc Hu. apply Cb in Hc. apply in_filter_bases in Hu as (d & <- & Hd & HP). apply mem_In in Hc. rewrite Hc in HP. discriminate. }
  assert (DAV : forall c, In c (bases (dims a)) -> ~ In c (bases V)).
  { intros c Hc Hv. apply in_filter_bases in Hv as (d & <- & Hd & HP). apply mem_In in Hc. rewrite Hc in HP. discriminate. }
  assert (Nd : forall l1 l2 : list nat, NoDup l1 -> NoDup l2 -> (forall c, In c l1 -> ~ In c l2) -> NoDup (l1 ++ l2)).
  { induction l1 as [|x l1 IH]; intros l2 H1 H2 H; [exact H2|]. apply NoDup_cons_iff in H1 as [Hx H1]. cbn. constructor; [rewrite in_app_iff; intros [Hi|Hi]; [contradiction|apply (H x); [left; reflexivity|exact Hi]]|]. apply IH; auto. intros c Hc. apply H. right. exact Hc. }
  assert (NDC : NoDup (bases C)) by apply NoDup_bases_filter, Na. assert (NDU : NoDup (bases U)) by apply NoDup_bases_filter, Na. assert (NDV : NoDup (bases V)) by apply NoDup_bases_filter, Nb.
  assert (HPa : Permutation (bases (C ++ U ++ R)) (bases (dims a))).
  { rewrite !bases_app. apply NoDup_Permutation; [apply Nd; [exact NDC|apply Nd; assumption|intros c Hc; rewrite in_app_iff; intros [H|H]; [exact (DCU c Hc H)|exact (DCR c Hc H)]]|exact Na|]. intros c. rewrite !in_app_iff. split; [intros [H|[H|H]]; auto|].
    intros H. unfold bases in H. apply in_map_iff in H as (d & <- & Hd). destruct (mem d reduce) eqn:E1; [right; right; apply mem_In in E1; eapply Permutation_in; [apply Permutation_sym, HPRb|exact E1]|].
    destruct (mem d (dims b)) eqn:E2; [left|right; left]; apply In_base, filter_In; (split; [exact Hd|]); rewrite ?E1, E2; reflexivity. }
  assert (HPb : Permutation (bases (C ++ R ++ V)) (bases (dims b))).
  { rewrite !bases_app. apply NoDup_Permutation; [apply Nd; [exact NDC|apply Nd; try assumption; intros c Hc Hv; exact (DVR c Hv Hc)|intros c Hc; rewrite in_app_iff; intros [H|H]; [exact (DCR c Hc H)|exact (DAV c (Ca c Hc) H)]]|exact Nb|]. intros c. rewrite !in_app_iff. split; [intros [H|[H|H]]; auto|].
    intros H. unfold bases in H. apply in_map_iff in H as (d & <- & Hd). destruct (mem d reduce) eqn:E1; [right; left; apply mem_In in E1; eapply Permutation_in; [apply Permutation_sym, HPRb|exact E1]|].
    destruct (mem d (dims a)) eqn:E2; [left|right; right; apply In_base, filter_In; split; [exact Hd|rewrite E2; reflexivity]].
    apply mem_In. unfold C. rewrite mem_filter by exact NC. rewrite E2, E1, (mem_in d _ Hd). reflexivity. }
  pose proof (axes_perm _ _ Na HPa) as PA. pose proof (axes_perm _ _ Nb HPb) as PB. rewrite !map_app in PA, PB. assert (Ta : length (shape (traw a)) = length (dims a)) by (rewrite Sa, map_length, bases_len; reflexivity). assert (Tb : length (shape (traw b)) = length (dims b)) by (rewrite Sb, map_length, bases_len; reflexivity). rewrite <- Ta in PA. rewrite <- Tb in PB.
  assert (Ec : axes_shape (shape (traw a)) (map (dim_index (dims a)) C) = axes_shape (shape (traw b)) (map (dim_index (dims b)) C)) by (rewrite Sa, Sb, !axes_size by assumption; reflexivity).
  assert (Er : axes_shape (shape (traw a)) (map (dim_index (dims a)) R) = axes_shape (shape (traw b)) (map (dim_index (dims b)) R)) by (rewrite Sa, Sb, !axes_size by assumption; reflexivity).
  destruct (multiply_ok (traw a) (traw b) _ _ _ _ _ _ PA PB Ec Er) as (r & E & Sr & Lr & Vr). unfold multiply in E. cbv zeta in E. rewrite (proj2 (same_nats_eq _ _) Ec), (proj2 (same_nats_eq _ _) Er). cbn [assert_ bind]. rewrite E. cbn [bind].
  eexists. split; [reflexivity|]. set (dd := {| d_base := 0; d_copy := 0; d_prio := 0 |}).
  assert (GU : map (fun i => nth i (dims a) dd) (map (dim_index (dims a)) U) = U) by (rewrite map_map; apply map_fixed; intros d Hd; apply get_index; [exact Na|]; apply filter_In in Hd; tauto).
  assert (GV : map (fun i => nth i (dims b) dd) (map (dim_index (dims b)) V) = V) by (rewrite map_map; apply map_fixed; intros d Hd; apply get_index; [exact Nb|]; apply filter_In in Hd; tauto).
  rewrite GU, GV. rewrite Sa, Sb, !axes_size in Sr by assumption. split; [|split; [reflexivity|]].
  - split; cbn [dims traw]; [rewrite Sr, !bases_app, !map_app; reflexivity|]. split; [exact Lr|]. rewrite !bases_app. apply Nd; [exact NDC|apply Nd; [exact NDU|exact NDV|intros c Hc; apply DAV, Ua, Hc]|intros c Hc; rewrite in_app_iff; intros [H|H]; [exact (DCU c Hc H)|exact (DAV c (Ca c Hc) H)]].
  - intros env Henv. cbn [dims] in Henv. unfold value at 1. cbn [dims traw]. unfold inside in Henv. rewrite !bases_app, !Forall_app in Henv. destruct Henv as (HC & HU & HV). rewrite Forall_forall in HC, HU, HV.
    specialize (Vr (by_axis (dims a) env) (by_axis (dims b) env)). rewrite (map_by_axis (dims a) env C Ca), (map_by_axis (dims a) env U Ua), (map_by_axis (dims b) env V Vb), (map_by_axis (dims b) env C Cb) in Vr. rewrite !bases_app, !map_app. rewrite Vr; [|clear Vr|clear Vr|reflexivity].
    + rewrite Sa at 1. rewrite axes_size by assumption. rewrite <- (sum_over_perm size _ _ _ (fun e e' He => f_equal2 Z.mul (value_respects a e e' He) (value_respects b e e' He)) HPRb NR env).
      rewrite <- (sum_unflat size _ (fun e e' He => f_equal2 Z.mul (value_respects a e e' He) (value_respects b e e' He)) (bases R) env NR). apply sum_to_ext. intros p _. rewrite Ta, Tb. rewrite Sa, axes_size by assumption. rewrite !value_over by assumption. reflexivity.
    + intros i Hi Hn. rewrite Ta in Hi. unfold by_axis. rewrite Sa. rewrite (nth_indep (map size (bases (dims a))) 0 (size 0)) by (rewrite map_length, bases_len; exact Hi). rewrite map_nth. set (c := nth i (bases (dims a)) 0).
      assert (Hc : In c (bases (dims a))) by (apply nth_In; rewrite bases_len; exact Hi). apply (Permutation_in _ (Permutation_sym HPa)) in Hc. rewrite !bases_app, !in_app_iff in Hc. destruct Hc as [Hc|[Hc|Hc]]; [apply HC, Hc|apply HU, Hc|]. exfalso. apply Hn.
      unfold bases in Hc. apply in_map_iff in Hc as (d & Ed & Hd). apply in_map_iff. exists d. split; [|exact Hd]. rewrite dim_index_pos, Ed. unfold c. apply (NoDup_nth_error (bases (dims a))); [exact Na|apply pos_lt, nth_In; rewrite bases_len; exact Hi|].
      assert (Hc : In c (bases (dims a))) by (apply nth_In; rewrite bases_len; exact Hi). fold c. rewrite (nth_error_nth' _ 0 (pos_lt _ _ Hc)), pos_nth_In by exact Hc. symmetry. apply nth_error_nth'. rewrite bases_len. exact Hi.
    + intros i Hi Hn. rewrite Tb in Hi. unfold by_axis. rewrite Sb. rewrite (nth_indep (map size (bases (dims b))) 0 (size 0)) by (rewrite map_length, bases_len; exact Hi). rewrite map_nth. set (c := nth i (bases (dims b)) 0).
      assert (Hc : In c (bases (dims b))) by (apply nth_In; rewrite bases_len; exact Hi). apply (Permutation_in _ (Permutation_sym HPb)) in Hc. rewrite !bases_app, !in_app_iff in Hc. destruct Hc as [Hc|[Hc|Hc]]; [apply HC, Hc| |apply HV, Hc]. exfalso. apply Hn.
      unfold bases in Hc. apply in_map_iff in Hc as (d & Ed & Hd). apply in_map_iff. exists d. split; [|exact Hd]. rewrite dim_index_pos, Ed. unfold c. apply (NoDup_nth_error (bases (dims b))); [exact Nb|apply pos_lt, nth_In; rewrite bases_len; exact Hi|].
      assert (Hc : In c (bases (dims b))) by (apply nth_In; rewrite bases_len; exact Hi). fold c. rewrite (nth_error_nth' _ 0 (pos_lt _ _ Hc)), pos_nth_In by exact Hc. symmetry. apply nth_error_nth'. rewrite bases_len. exact Hi.
Qed.

(** * A square matrix *)
Lemma axis_of_square d1 d2 d : d_base d1 = d_base d -> d_base d2 = d_base d -> d_prio d1 <> d_prio d2 -> axis_of [d1; d2] d = Ok (if (d_prio d1 <? d_prio d2)%Z then 1 else 0).
Proof.
  intros E1 E2 Hp. unfold axis_of. cbn [axis_loop]. rewrite (proj2 (deq_eq d1 d) E1), (proj2 (deq_eq d2 d) E2). destruct (Z.ltb_spec (d_prio d1) (d_prio d2)); cbn [bind]; [reflexivity|].
  destruct (Z.ltb_spec (d_prio d2) (d_prio d1)); [reflexivity|lia].
Qed.
Lemma matmul_square size version dynamic a b d1 d2 d use_mask : well size a -> dims b = [d1; d2] -> d_base d1 = d_base d -> d_base d2 = d_base d -> d_prio d1 <> d_prio d2 ->
  shape (traw b) = [size (d_base d); size (d_base d)] -> In (d_base d) (bases (dims a)) -> use_mask && dynamic d = false ->
  exists r, matmul version dynamic a b [d] use_mask = Ok r /\ well size r /\
    dims r = filter (fun x => negb (deq x d)) (dims a) ++ [if (d_prio d1 <? d_prio d2)%Z then d1 else d2] /\
    forall env, inside size env (dims r) -> value r env =
      sum_to (size (d_base d)) (fun k => value a (with_index env (d_base d) k) * at_ (traw b) (if (d_prio d1 <? d_prio d2)%Z then [env (d_base d); k] else [k; env (d_base d)]))%Z.
Proof.
  intros (Sa & La & Na) Db E1 E2 Hp Sb Ha Hm. unfold matmul. cbn [existsb]. rewrite orb_false_r, Hm. cbn [forallb]. rewrite (proj2 (mem_In d (dims a)) Ha). cbn [andb assert_ bind].
  assert (Hdb : mem d (dims b) = true) by (apply mem_In; rewrite Db; left; exact E1). rewrite Hdb. cbn [andb assert_ bind stable_sort_by fold_right insert_by mapM]. rewrite (axis_of_index (dims a) d Na Ha). cbn [bind]. rewrite Db, (axis_of_square d1 d2 d E1 E2 Hp). cbn [bind].
  set (up := (d_prio d1 <? d_prio d2)%Z). set (x := dim_index (dims a) d).
  assert (Hinb : forall e, In e (dims a) -> inb (dim_index (dims a) e) [x] = deq e d).
  { intros e He. change [x] with (map (dim_index (dims a)) [d]). rewrite inb_axes; [cbn; apply orb_false_r|apply In_base, He|]. intros c [<-|[]]. exact Ha. }
  assert (EC : map snd (filter (fun '(i, e) => mem e [d1; d2] && negb (inb i [x])) (enumerated (dims a))) = []).
  { rewrite (enumerated_index (dims a) Na), filter_of_map. rewrite (filter_ext_in _ (fun _ => false)); [rewrite filter_none; reflexivity|].
    intros e He. rewrite Hinb by exact He. cbn. unfold deq. rewrite E1, E2. destruct (d_base e =? d_base d); reflexivity. }
  rewrite EC. cbn [map length]. rewrite (filter_axes (dims a) _ Na).
  set (U := filter (fun e => negb (deq e d)) (dims a)).
  assert (EU : filter (fun e => negb (inb (dim_index (dims a) e) [x]) && negb (inb (dim_index (dims a) e) [])) (dims a) = U).
  { apply filter_ext_in. intros e He. rewrite Hinb by exact He. cbn. apply andb_true_r. }
  rewrite EU. clear EU EC.
  set (y := if up then 1 else 0). set (u := if up then 0 else 1). assert (EB : filter (fun i => negb (inb i [y]) && negb (inb i [])) (seq 0 2) = [u]) by (unfold y, u; destruct up; reflexivity). rewrite EB. clear EB.
  assert (Ua : incl (bases U) (bases (dims a))) by (intros c Hc; apply in_filter_bases in Hc as (e & <- & He & _); apply In_base, He).
  assert (UD : ~ In (d_base d) (bases U)) by (intros Hc; apply in_filter_bases in Hc as (e & E & He & HP); apply negb_true_iff in HP; unfold deq in HP; rewrite E, Nat.eqb_refl in HP; discriminate).
  assert (NU : NoDup (bases U)) by apply NoDup_bases_filter, Na.
  assert (HPa : Permutation (bases (U ++ [d])) (bases (dims a))).
  { rewrite bases_app. apply NoDup_Permutation; [apply (Permutation_NoDup (l := d_base d :: bases U)); [apply Permutation_cons_append|constructor; assumption]|exact Na|]. intros c. rewrite in_app_iff. split; [intros [H|[<-|[]]]; auto|]. intros H. unfold bases in H. apply in_map_iff in H as (e & <- & He).
    destruct (deq e d) eqn:E; [right; left; apply deq_eq in E; auto|left]. apply In_base, filter_In. rewrite E. auto. }
  assert (Ta : length (shape (traw a)) = length (dims a)) by (rewrite Sa, map_length, bases_len; reflexivity).
  pose proof (axes_perm _ _ Na HPa) as PA. rewrite map_app, <- Ta in PA. cbn [map] in PA. fold x in PA.
  assert (PB : Permutation ([] ++ [y] ++ [u]) (seq 0 (length (shape (traw b))))) by (rewrite Sb; unfold y, u; destruct up; cbn; [apply perm_swap|apply Permutation_refl]).
  assert (Er : axes_shape (shape (traw a)) [x] = axes_shape (shape (traw b)) [y]).
  { change [x] with (map (dim_index (dims a)) [d]). rewrite Sa, axes_size by (intros c [<-|[]]; exact Ha). rewrite Sb. unfold y. destruct up; reflexivity. }
  destruct (multiply_ok (traw a) (traw b) [] (map (dim_index (dims a)) U) [x] [] [u] [y] PA PB eq_refl Er) as (r & E & Sr & Lr & Vr).
  unfold multiply in E. cbv zeta in E. rewrite (proj2 (same_nats_eq (axes_shape (shape (traw a)) []) (axes_shape (shape (traw b)) [])) eq_refl), (proj2 (same_nats_eq _ _) Er). cbn [assert_ bind length app Nat.eqb andb] in E |- *. rewrite E. cbn [bind].
  eexists. split; [reflexivity|]. set (dd := {| d_base := 0; d_copy := 0; d_prio := 0 |}). cbn [app map].
  rewrite map_map, map_fixed by (intros e He; apply get_index; [exact Na|]; apply filter_In in He; tauto).
  assert (Eout : nth u [d1; d2] dd = if up then d1 else d2) by (unfold u; destruct up; reflexivity). rewrite Eout.
  assert (Bout : d_base (if up then d1 else d2) = d_base d) by (destruct up; assumption).
  assert (ND : NoDup (bases (U ++ [if up then d1 else d2]))) by (rewrite bases_app; cbn; rewrite Bout; apply (Permutation_NoDup (l := d_base d :: bases U)); [apply Permutation_cons_append|constructor; assumption]).
  assert (Ssb : axes_shape (shape (traw b)) [u] = [size (d_base d)]) by (rewrite Sb; unfold u; destruct up; reflexivity).
  cbn [axes_shape map app] in Sr. fold (axes_shape (shape (traw a)) (map (dim_index (dims a)) U)) in Sr. rewrite Sa, axes_size in Sr by exact Ua. rewrite Sb in Sr.
  split; [|split; [reflexivity|]].
  - split; cbn [dims traw]; [|split; [exact Lr|exact ND]]. rewrite Sr, bases_app, map_app. cbn. rewrite Bout. f_equal. unfold u. destruct up; reflexivity.
  - intros env Henv. cbn [dims] in Henv. unfold inside in Henv. rewrite bases_app, Forall_app in Henv. destruct Henv as [HU HD]. cbn in HD. rewrite Bout in HD. inversion HD as [|? ? HD' _]; subst. rewrite Forall_forall in HU.
    unfold value at 1. cbn [dims traw]. specialize (Vr (by_axis (dims a) env) (fun _ => env (d_base d))). cbn [map app] in Vr. rewrite (map_by_axis (dims a) env U Ua) in Vr. rewrite bases_app, map_app. cbn [bases map]. rewrite Bout, Vr; [| | |reflexivity].
    + assert (Ex : axes_shape (shape (traw a)) [x] = [size (d_base d)]) by (rewrite Er, Sb; unfold y; destruct up; reflexivity).
      rewrite Ex, prod_cons, prod_nil, Nat.mul_1_r. apply sum_to_ext. intros k Hk. rewrite unflat_cons, prod_nil, Nat.div_1_r. cbn [unflat]. change [x] with (map (dim_index (dims a)) [d]).
      rewrite Ta, value_over by (try exact Na; intros c [<-|[]]; exact Ha). f_equal.
      * apply value_respects. intros c. unfold over, with_index. cbn. rewrite orb_false_r. destruct (c =? d_base d); reflexivity.
      * f_equal. rewrite Sb. unfold over, y. destruct up; reflexivity.
    + intros i Hi Hn. rewrite Ta in Hi. unfold by_axis. rewrite Sa. rewrite (nth_indep (map size (bases (dims a))) 0 (size 0)) by (rewrite map_length, bases_len; exact Hi). rewrite map_nth. set (c := nth i (bases (dims a)) 0).
      assert (Hc : In c (bases (dims a))) by (apply nth_In; rewrite bases_len; exact Hi). pose proof Hc as Hc'. apply (Permutation_in _ (Permutation_sym HPa)) in Hc. rewrite bases_app, in_app_iff in Hc. destruct Hc as [Hc|[Ed|[]]]; [apply HU, Hc|]. exfalso. apply Hn. left.
      unfold x. rewrite dim_index_pos, Ed. apply (NoDup_nth_error (bases (dims a))); [exact Na|apply pos_lt, Hc'|]. rewrite (nth_error_nth' _ 0 (pos_lt _ _ Hc')), pos_nth_In by exact Hc'. symmetry. apply nth_error_nth'. rewrite bases_len. exact Hi.
    + intros i Hi _. rewrite Sb in Hi |- *. cbn in Hi. destruct i as [|[|i]]; cbn; [exact HD'|exact HD'|lia].
Qed.
Lemma sum_over_ext size ds f g : (forall e, f e = g e) -> forall env, sum_over size ds f env = sum_over size ds g env.
Proof. intros H. induction ds as [|d ds IH]; intros env; cbn; [apply H|]. apply sum_to_ext. intros k _. apply IH. Qed.
Lemma product_names size a b reduce r c : product size a b reduce r -> incl (bases reduce) (bases (dims a)) -> incl (bases reduce) (bases (dims b)) ->
  In c (bases (dims r)) <-> (In c (bases (dims a)) \/ In c (bases (dims b))) /\ ~ In c (bases reduce).
Proof.
  intros (_ & Hd & _) Ra Rb. rewrite Hd. unfold product_dims. rewrite !bases_app, !in_app_iff. split.
  - intros [H|[H|H]]; apply in_filter_bases in H as (d & <- & Hi & HP).
    + apply andb_true_iff in HP as [H1 H2]. split; [left; apply In_base, Hi|]. rewrite <- mem_In. intros E. rewrite E in H2. discriminate.
    + split; [left; apply In_base, Hi|]. intros H. apply Rb, mem_In in H. rewrite H in HP. discriminate.
    + split; [right; apply In_base, Hi|]. intros H. apply Ra, mem_In in H. rewrite H in HP. discriminate.
  - intros [H Hn]. assert (G : In c (bases (dims a)) -> In c (bases (filter (fun d => mem d (dims b) && negb (mem d reduce)) (dims a))) \/ In c (bases (filter (fun d => negb (mem d (dims b))) (dims a)))).
    { intros Ha. unfold bases in Ha. apply in_map_iff in Ha as (d & <- & Hd'). destruct (mem d (dims b)) eqn:E; [left|right]; apply In_base, filter_In; (split; [exact Hd'|]); rewrite E; [|reflexivity]. cbn. apply negb_true_iff, not_true_is_false. rewrite mem_In. exact Hn. }
    destruct H as [Ha|Hb]; [destruct (G Ha); auto|]. unfold bases in Hb. apply in_map_iff in Hb as (d & Ed & Hd'). destruct (mem d (dims a)) eqn:E; [apply mem_In in E; rewrite Ed in E; destruct (G E); auto|]. right. right. rewrite <- Ed. apply In_base, filter_In. rewrite E. auto.
Qed.
