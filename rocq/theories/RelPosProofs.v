From Verif Require Import Base ListLemmas TensorModel TensorSpec TensorProofs MatmulModel MatmulSpec MatmulProofs ReshapeModel ReshapeSpec ReshapeProofs RelPosModel RelPosSpec.
Local Open Scope nat_scope.

Section Shift.
Variable size : nat -> nat.

Lemma axis_size t A x B axis : well size t -> dims t = A ++ x :: B -> d_base x = d_base axis -> nth (length A) (shape (traw t)) 0 = size (d_base axis).
Proof. intros (Hs & _) El Ex. rewrite Hs, El. fold (sizes size (A ++ x :: B)). rewrite (sizes_mid size), <- (sizes_len size A), (nth_mid size), Ex. reflexivity. Qed.

Lemma slice_core t axis start out : well size t -> In (d_base axis) (bases (dims t)) -> ~ In (d_base out) (other_names t axis) -> start + size (d_base out) <= size (d_base axis) ->
  exists r, (let* i := axis_of (dims t) axis in let* r := narrow_checked (traw t) i start (size (d_base out)) in Ok {| dims := replace_dim_at i (dims t) out; traw := r |}) = Ok r /\
    well size r /\ dims r = instead [axis] [out] (dims t) /\ a_part size t axis start r out.
Proof.
  intros Hw Ha Ho Hle. pose proof Hw as (_ & _ & Hn). destruct (axis_around size t axis Hw Ha) as (A & x & B & El & Ex & Ei & HA & HB & HAB).
  rewrite axis_of_index by assumption. cbn [bind]. rewrite Ei. unfold narrow_checked. rewrite (axis_size t A x B axis Hw El Ex). rewrite (proj2 (Nat.leb_le _ _) Hle). cbn [bind].
  rewrite (names_around t A x B axis El Ex HA HB) in Ho. eexists. split; [reflexivity|]. rewrite El, replace_dim_mid.
  destruct (narrow_part size t A x B axis start out Hw El Ex HA HB) as [H1 H2]; [apply NoDup_mid; assumption|]. split; [exact H1|]. split; [|exact H2]. cbn [dims]. rewrite (instead_around A x B axis [out] Ex HA HB). reflexivity.
Qed.
Lemma slice_start_ok t axis start out : well size t -> In (d_base axis) (bases (dims t)) -> ~ In (d_base out) (other_names t axis) -> start + size (d_base out) = size (d_base axis) ->
  exists r, slice_start size t axis start out = Ok r /\ well size r /\ dims r = instead [axis] [out] (dims t) /\ a_part size t axis start r out.
Proof.
  intros Hw Ha Ho Hle. destruct (slice_core t axis start out Hw Ha Ho) as (r & E & H); [lia|]. exists r. split; [|exact H]. unfold slice_start.
  rewrite (proj2 (Nat.leb_le start (size (d_base axis)))) by lia. replace (size (d_base axis) - start) with (size (d_base out)) by lia. exact E.
Qed.
Lemma slice_size_ok t axis out : well size t -> In (d_base axis) (bases (dims t)) -> ~ In (d_base out) (other_names t axis) -> size (d_base out) <= size (d_base axis) ->
  exists r, slice_size size t axis out = Ok r /\ well size r /\ dims r = instead [axis] [out] (dims t) /\ a_part size t axis 0 r out.
Proof. intros Hw Ha Ho Hle. destruct (slice_core t axis 0 out Hw Ha Ho) as (r & E & H); [lia|]. exists r. split; [exact E|exact H]. Qed.

Lemma pad_one_ok t axis out : well size t -> In (d_base axis) (bases (dims t)) -> ~ In (d_base out) (other_names t axis) -> size (d_base out) = S (size (d_base axis)) ->
  exists r, pad_one t axis out = Ok r /\ well size r /\ dims r = instead [axis] [out] (dims t) /\
    forall env, inside size env (dims r) -> value r env = match env (d_base out) with 0 => 0%Z | S k => value t (with_index env (d_base axis) k) end.
Proof.
  intros Hw Ha Ho Hle. pose proof Hw as (Hs & _ & Hn). destruct (axis_around size t axis Hw Ha) as (A & x & B & El & Ex & Ei & HA & HB & HAB).
  unfold pad_one. rewrite axis_of_index by assumption. cbn [bind]. rewrite Ei.
  rewrite (names_around t A x B axis El Ex HA HB) in Ho. eexists. split; [reflexivity|]. rewrite El, replace_dim_mid.
  assert (Esh : replace_at (length A) (shape (traw t)) (S (nth (length A) (shape (traw t)) 0)) = sizes size A ++ size (d_base out) :: sizes size B).
  { rewrite (axis_size t A x B axis Hw El Ex), <- Hle, Hs, El. fold (sizes size (A ++ x :: B)). rewrite (sizes_mid size), <- (sizes_len size A). apply (replace_mid size). }
  pose proof (NoDup_mid A out B HAB Ho) as Hnd. split; [|split].
  - split; [|split; [|exact Hnd]]; cbn [traw dims]; unfold pad_one_raw; rewrite Esh; [|apply tabulate_len]. cbn [shape tabulate]. fold (sizes size (A ++ out :: B)). rewrite (sizes_mid size). reflexivity.
  - cbn [dims]. rewrite (instead_around A x B axis [out] Ex HA HB). reflexivity.
  - intros env Hi. cbn [dims] in Hi. unfold value at 1. cbn [dims traw]. unfold pad_one_raw. rewrite Esh, bases_mid, map_app. cbn [map]. rewrite at_tabulate by (apply (inside_mid size), Hi).
    replace (length A) with (length (map env (bases A))) by (rewrite map_length; apply bases_len). rewrite (nth_mid size). destruct (env (d_base out)) as [|k]; [reflexivity|].
    rewrite (replace_mid size). symmetry. apply (value_mid t A x B axis env k El Ex HA HB).
Qed.
Lemma perm_filter {A} (f : A -> bool) l l' : Permutation l l' -> Permutation (filter f l) (filter f l').
Proof.
  intros H. induction H; cbn [filter].
  - constructor.
  - destruct (f x); [constructor|]; assumption.
  - destruct (f x), (f y); try apply Permutation_refl. apply perm_swap.
  - etransitivity; eassumption.
Qed.
Lemma other_perm t d N : Permutation (bases (dims t)) (d_base d :: N) -> ~ In (d_base d) N -> Permutation (other_names t d) N.
Proof.
  intros HP Hd. unfold other_names. rewrite (perm_filter _ _ _ HP). cbn [filter]. rewrite Nat.eqb_refl. cbn [negb]. rewrite filter_all; [apply Permutation_refl|].
  intros c Hc. apply negb_true_iff, Nat.eqb_neq. intros ->. contradiction.
Qed.
Lemma names_single t axis out : well size t -> In (d_base axis) (bases (dims t)) -> Permutation (bases (instead [axis] [out] (dims t))) (d_base out :: other_names t axis).
Proof.
  intros Hw Ha. destruct (axis_around size t axis Hw Ha) as (A & x & B & El & Ex & Ei & HA & HB & HAB). rewrite (names_around t A x B axis El Ex HA HB), El, (instead_around A x B axis [out] Ex HA HB), !bases_app. cbn.
  apply Permutation_sym, Permutation_middle.
Qed.
Lemma names_self t axis : well size t -> In (d_base axis) (bases (dims t)) -> Permutation (bases (dims t)) (d_base axis :: other_names t axis).
Proof.
  intros Hw Ha. destruct (axis_around size t axis Hw Ha) as (A & x & B & El & Ex & Ei & HA & HB & HAB). rewrite (names_around t A x B axis El Ex HA HB), El, bases_mid, Ex. apply Permutation_sym, Permutation_middle.
Qed.
Lemma swap_ok t a b : well size t -> In (d_base a) (bases (dims t)) -> In (d_base b) (bases (dims t)) -> d_base a <> d_base b ->
  exists r, reshape_dims size t [a; b] [b; a] = Ok r /\ well size r /\ Permutation (bases (dims r)) (bases (dims t)) /\
    forall e e', inside size e (dims t) -> inside size e' (dims r) -> (forall c, c <> d_base a -> c <> d_base b -> e c = e' c) ->
      e (d_base a) * size (d_base b) + e (d_base b) = e' (d_base b) * size (d_base a) + e' (d_base a) -> value r e' = value t e.
Proof.
  intros Hw Ha Hb Hab. assert (Hr : replaceable size t [a; b] [b; a]).
  { split; [repeat constructor; cbn; intuition|]. split; [intros c [<-|[<-|[]]]; assumption|]. split; [discriminate|]. split; [repeat constructor; cbn; intuition|]. split; [cbn; tauto|].
    unfold sizes, bases. cbn [map]. rewrite !prod_cons, prod_nil. lia. }
  destruct (reshape_dims_ok size t [a; b] [b; a] Hw Hr) as (r & E & Hwr & Hd & Hv). exists r. split; [exact E|]. split; [exact Hwr|]. split.
  - rewrite Hd, (instead_bases size t _ _ Hw Hr). etransitivity; [|apply (others_bases size t _ _ Hw Hr)]. apply Permutation_app_tail. cbn. apply perm_swap.
  - intros e e' He He' Hc Hp. apply Hv; [exact He|exact He'| |cbn [position]; lia]. intros c H1 _. apply Hc; intros ->; apply H1; cbn; auto.
Qed.

Lemma inside_perm_names env t N : Permutation (bases (dims t)) N -> inside size env (dims t) <-> Forall (fun d => env d < size d) N.
Proof. intros HP. unfold inside. split; intros H; [eapply Permutation_Forall; [exact HP|exact H]|eapply Permutation_Forall; [apply Permutation_sym, HP|exact H]]. Qed.

Lemma shift_arith Q K t s : t < Q -> s < K -> let P := Q + K - 1 in let m := t * P + s in
  m / Q < P /\ m mod Q < Q /\ t * S P + (Q - t + s) = (1 + m / Q) * Q + m mod Q /\ m / Q * Q + m mod Q = t * P + s.
Proof.
  intros Ht Hs P m. assert (HQ : Q <> 0) by lia. pose proof (Nat.div_mod m Q HQ) as Hdm. pose proof (Nat.mod_upper_bound m Q HQ) as Hm.
  assert (HP : P = Q + K - 1) by reflexivity. assert (Hlt : m < Q * P) by (unfold m; nia). split; [apply Nat.div_lt_upper_bound; assumption|]. split; [exact Hm|]. unfold m in *. clear m. split; nia.
Qed.

Lemma value_agrees t e e' : (forall c, In c (bases (dims t)) -> e c = e' c) -> value t e = value t e'.
Proof. intros H. unfold value. f_equal. apply map_ext_in, H. Qed.

Theorem shift_ok x axis pos hist padded cut : well size x -> In (d_base axis) (bases (dims x)) -> In (d_base pos) (bases (dims x)) -> d_base axis <> d_base pos -> d_base pos <> d_base hist ->
  ~ In (d_base hist) (other_names x pos) -> ~ In (d_base padded) (other_names x pos) -> ~ In (d_base cut) (other_names x pos) ->
  0 < size (d_base axis) -> size (d_base pos) = size (d_base axis) + size (d_base hist) - 1 -> size (d_base padded) = S (size (d_base pos)) -> size (d_base cut) = size (d_base pos) ->
  exists r, rel_shift size x axis pos hist padded cut = Ok r /\ by_distance size x axis pos hist r.
Proof.
  intros Hw Ha Hp Hap Hph Hh Hpad Hcut HQ HP Hsp Hsc. set (N := other_names x pos) in *. assert (HaN : In (d_base axis) N).
  { unfold N, other_names. apply filter_In. split; [exact Ha|]. apply negb_true_iff, Nat.eqb_neq. exact Hap. }
  unfold rel_shift. destruct (deq pos hist) eqn:Ed; [apply deq_eq in Ed; contradiction|]. clear Ed.
  destruct (pad_one_ok x pos padded Hw Hp Hpad Hsp) as (y & Ey & Hwy & Hdy & Hvy). rewrite Ey. cbn [bind].
  assert (Ny : Permutation (bases (dims y)) (d_base padded :: N)) by (rewrite Hdy; apply names_single; assumption).
  assert (Hapd : d_base axis <> d_base padded) by (intros E; apply Hpad; rewrite <- E; exact HaN).
  destruct (swap_ok y axis padded Hwy) as (r2 & E2 & Hw2 & N2 & Hv2); [eapply Permutation_in; [apply Permutation_sym, Ny|right; exact HaN]|eapply Permutation_in; [apply Permutation_sym, Ny|left; reflexivity]|exact Hapd|].
  rewrite E2. cbn [bind]. rewrite Ny in N2. pose proof (other_perm r2 padded N N2 Hpad) as O2.
  destruct (slice_start_ok r2 padded 1 cut Hw2) as (r3 & E3 & Hw3 & Hd3 & Hv3); [eapply Permutation_in; [apply Permutation_sym, N2|left; reflexivity]|intros Hi; apply Hcut; eapply Permutation_in; [exact O2|exact Hi]|lia|].
  rewrite E3. cbn [bind]. assert (N3 : Permutation (bases (dims r3)) (d_base cut :: N)).
  { rewrite Hd3, names_single; [constructor; exact O2|exact Hw2|eapply Permutation_in; [apply Permutation_sym, N2|left; reflexivity]]. }
  assert (Hac : d_base axis <> d_base cut) by (intros E; apply Hcut; rewrite <- E; exact HaN).
  destruct (swap_ok r3 cut axis Hw3) as (r4 & E4 & Hw4 & N4 & Hv4); [eapply Permutation_in; [apply Permutation_sym, N3|left; reflexivity]|eapply Permutation_in; [apply Permutation_sym, N3|right; exact HaN]|auto|].
  rewrite E4. cbn [bind]. rewrite N3 in N4. pose proof (other_perm r4 cut N N4 Hcut) as O4.
  destruct (slice_size_ok r4 cut hist Hw4) as (r5 & E5 & Hw5 & Hd5 & Hv5); [eapply Permutation_in; [apply Permutation_sym, N4|left; reflexivity]|intros Hi; apply Hh; eapply Permutation_in; [exact O4|exact Hi]|lia|].
  assert (N5 : Permutation (bases (dims r5)) (d_base hist :: N)).
  { rewrite Hd5, names_single; [constructor; exact O4|exact Hw4|eapply Permutation_in; [apply Permutation_sym, N4|left; reflexivity]]. }
  exists r5. split; [exact E5|]. split; [exact Hw5|]. split; [exact N5|]. intros env Hi. pose proof Hi as Hin. apply (inside_perm_names env r5 _ N5) in Hin. inversion Hin as [|? ? Hs HN]; subst.
  rewrite Forall_forall in HN. pose proof (HN _ HaN) as Ht. set (Q := size (d_base axis)) in *. set (K := size (d_base hist)) in *. set (t := env (d_base axis)) in *. set (s := env (d_base hist)) in *.
  destruct (shift_arith Q K t s Ht Hs) as (A1 & A2 & A3 & A4). rewrite <- HP in A1, A2, A3, A4. set (P := size (d_base pos)) in *. set (m := t * P + s) in *.
  assert (inN : forall e k d, ~ In d N -> k < size d -> (forall c, In c N -> e c < size c) -> Forall (fun d => e d < size d) N -> Forall (fun c => with_index e d k c < size c) (d :: N)).
  { intros e k d Hd Hk He _. constructor; [rewrite with_at; exact Hk|]. apply Forall_forall. intros c Hc. unfold with_index. destruct (Nat.eqb_spec c d); [subst; contradiction|]. apply He, Hc. }
  rewrite (Hv5 env Hi). cbn [Nat.add]. fold s.
  set (e4 := with_index env (d_base cut) s). set (e3 := with_index (with_index env (d_base axis) (m mod Q)) (d_base cut) (m / Q)).
  assert (H3N : forall c, In c N -> with_index env (d_base axis) (m mod Q) c < size c).
  { intros c Hc. unfold with_index. destruct (Nat.eqb_spec c (d_base axis)); [subst; exact A2|apply HN, Hc]. }
  assert (I3 : inside size e3 (dims r3)).
  { apply (inside_perm_names _ r3 _ N3). apply inN; [exact Hcut|rewrite Hsc; exact A1|exact H3N|apply Forall_forall, H3N]. }
  assert (I4 : inside size e4 (dims r4)).
  { apply (inside_perm_names _ r4 _ N4). apply inN; [exact Hcut|lia|exact HN|apply Forall_forall, HN]. }
  rewrite (Hv4 e3 e4 I3 I4).
  2:{ intros c H1 H2. unfold e3, e4, with_index. rewrite (proj2 (Nat.eqb_neq _ _) H1), (proj2 (Nat.eqb_neq _ _) H2). reflexivity. }
  2:{ unfold e3, e4. rewrite !with_at. unfold with_index. rewrite (proj2 (Nat.eqb_neq _ _) Hac), Nat.eqb_refl. rewrite Hsc. fold P Q t. rewrite A4. reflexivity. }
  rewrite (Hv3 e3 I3). unfold e3 at 2. rewrite with_at.
  set (e2 := with_index e3 (d_base padded) (1 + m / Q)). set (e1 := with_index env (d_base padded) (Q - t + s)).
  assert (I1 : inside size e1 (dims y)).
  { apply (inside_perm_names _ y _ Ny). apply inN; [exact Hpad|lia|exact HN|apply Forall_forall, HN]. }
  assert (I2 : inside size e2 (dims r2)).
  { apply (inside_perm_names _ r2 _ N2). constructor; [unfold e2; rewrite with_at; lia|]. apply Forall_forall. intros c Hc. unfold e2, with_index at 1. destruct (Nat.eqb_spec c (d_base padded)); [subst; contradiction|].
    unfold e3, with_index at 1. destruct (Nat.eqb_spec c (d_base cut)); [subst; contradiction|]. apply H3N, Hc. }
  assert (E2' : value r2 e2 = value y e1 \/ True) by (right; exact I).
  clear E2'. rewrite (value_agrees r2 e2 (fun c => if c =? d_base padded then 1 + m / Q else if c =? d_base axis then m mod Q else env c)).
  2:{ intros c Hc. unfold e2, e3, with_index. destruct (Nat.eqb_spec c (d_base padded)); [reflexivity|]. apply (Permutation_in _ N2) in Hc. destruct Hc as [Hc|Hc]; [congruence|].
      destruct (Nat.eqb_spec c (d_base cut)); [subst; contradiction|]. reflexivity. }
  set (e2' := fun c => _). assert (I2' : inside size e2' (dims r2)).
  { apply (inside_perm_names _ r2 _ N2). constructor; [unfold e2'; rewrite Nat.eqb_refl; lia|]. apply Forall_forall. intros c Hc. unfold e2'. destruct (Nat.eqb_spec c (d_base padded)); [subst; contradiction|].
    destruct (Nat.eqb_spec c (d_base axis)); [subst; exact A2|apply HN, Hc]. }
  rewrite (Hv2 e1 e2' I1 I2').
  2:{ intros c H1 H2. unfold e1, e2', with_index. rewrite (proj2 (Nat.eqb_neq _ _) H1), (proj2 (Nat.eqb_neq _ _) H2). reflexivity. }
  2:{ unfold e1, e2'. rewrite with_at, !Nat.eqb_refl. unfold with_index. rewrite (proj2 (Nat.eqb_neq _ _) Hapd), Hsp. fold P Q t. rewrite A3. reflexivity. }
  rewrite (Hvy e1 I1). unfold e1. rewrite with_at. replace (Q - t + s) with (S (Q - 1 + s - t)) by lia. apply value_agrees. intros c Hc. unfold with_index.
  destruct (Nat.eqb_spec c (d_base pos)); [reflexivity|]. destruct (Nat.eqb_spec c (d_base padded)); [|reflexivity]. subst. exfalso. apply Hpad. unfold N, other_names. apply filter_In. split; [exact Hc|]. apply negb_true_iff, Nat.eqb_neq. assumption.
Qed.
End Shift.

Lemma indices_len q kv o : length (make_indices q kv o) = q - 1 + kv.
Proof. unfold make_indices. destruct o; rewrite ?map_length, app_length, !map_length, !seq_length; reflexivity. Qed.
Lemma indices_nth q kv i : 0 < q -> i < q + kv - 1 -> nth i (make_indices q kv None) 0%Z = (Z.of_nat i - (Z.of_nat q - 1))%Z.
Proof.
  intros Hq Hi. unfold make_indices. destruct (Nat.lt_ge_cases i (q - 1)) as [H|H].
  - rewrite app_nth1 by (rewrite map_length, seq_length; exact H). rewrite (nth_indep (map _ (seq 0 (q - 1))) 0%Z ((fun j => (Z.of_nat j - Z.of_nat (q - 1))%Z) 0)) by (rewrite map_length, seq_length; exact H).
    rewrite (map_nth (fun j => (Z.of_nat j - Z.of_nat (q - 1))%Z)). rewrite seq_nth by exact H. lia.
  - rewrite app_nth2; rewrite map_length, seq_length; [|exact H]. rewrite (nth_indep (map Z.of_nat (seq 0 kv)) 0%Z (Z.of_nat 0)) by (rewrite map_length, seq_length; lia). rewrite (map_nth Z.of_nat), seq_nth by lia. lia.
Qed.
Lemma indices_offset_nth q kv o i : 0 < q -> i < q + kv - 1 -> nth i (make_indices q kv (Some o)) 0%Z = (Z.of_nat i - (Z.of_nat q - 1) - o)%Z.
Proof.
  intros Hq Hi. change (make_indices q kv (Some o)) with (map (fun i => (i - o)%Z) (make_indices q kv None)).
  rewrite (nth_indep (map (fun i => (i - o)%Z) (make_indices q kv None)) 0%Z ((fun i => (i - o)%Z) 0%Z)) by (rewrite map_length, indices_len; lia). rewrite (map_nth (fun i => (i - o)%Z)), indices_nth by assumption. reflexivity.
Qed.
Lemma step_nth n i : i < n -> nth i (make_indices_step n n) 0%Z = (Z.of_nat i - (Z.of_nat n - 1))%Z.
Proof.
  intros Hi. unfold make_indices_step. rewrite (nth_indep (map _ (seq 0 n)) 0%Z ((fun j => (Z.of_nat j - (Z.of_nat n - 1))%Z) 0)) by (rewrite map_length, seq_length; exact Hi).
  rewrite (map_nth (fun j => (Z.of_nat j - (Z.of_nat n - 1))%Z)), seq_nth by exact Hi. reflexivity.
Qed.

Lemma distance_score size x axis pos hist r l score shift : well size x -> In (d_base axis) (bases (dims x)) -> In (d_base pos) (bases (dims x)) -> d_base axis <> d_base pos -> 0 < size (d_base axis) ->
  size (d_base pos) = size (d_base axis) + size (d_base hist) - 1 ->
  by_distance size x axis pos hist r -> scores_of size x pos l score -> independent pos score ->
  (forall i, i < size (d_base pos) -> nth i l 0%Z = (Z.of_nat i - (Z.of_nat (size (d_base axis)) - 1) - shift)%Z) ->
  forall env, inside size env (dims r) -> value r env = score env (Z.of_nat (env (d_base hist)) - Z.of_nat (env (d_base axis)) - shift)%Z.
Proof.
  intros Hw Ha Hp Hap HQ HP (_ & HN & Hv) Hs Hin Hl env Hi. rewrite (Hv env Hi). apply (inside_perm_names size env r _ HN) in Hi. inversion Hi as [|? ? Hh Hr]; subst. rewrite Forall_forall in Hr.
  assert (Ht : env (d_base axis) < size (d_base axis)) by (apply Hr; unfold other_names; apply filter_In; split; [exact Ha|apply negb_true_iff, Nat.eqb_neq; exact Hap]).
  rewrite Hs.
  - rewrite with_at. rewrite Hl by lia.
    transitivity (score env (Z.of_nat (size (d_base axis) - 1 + env (d_base hist) - env (d_base axis)) - (Z.of_nat (size (d_base axis)) - 1) - shift)%Z); [|f_equal; lia].
    apply Hin. intros c Hc. unfold with_index. rewrite (proj2 (Nat.eqb_neq _ _) Hc). reflexivity.
  - unfold inside. apply Forall_forall. intros c Hc. unfold with_index. destruct (Nat.eqb_spec c (d_base pos)) as [->|Hn]; [lia|]. apply Hr. unfold other_names. apply filter_In. split; [exact Hc|]. apply negb_true_iff, Nat.eqb_neq. exact Hn.
Qed.

Lemma learned_row_ok clipping causal i : learned_row clipping causal i = Z.of_nat (row_for clipping causal i).
Proof.
  unfold learned_row, clip, row_for. destruct (Z.ltb_spec i (- Z.of_nat clipping)); [destruct causal; lia|]. destruct (Z.ltb_spec 0 i); [destruct causal; [lia|destruct (Z.ltb_spec (Z.of_nat clipping) i); lia]|destruct causal; lia].
Qed.
Lemma row_for_lt clipping causal i : row_for clipping causal i < num_rows clipping causal.
Proof.
  unfold row_for, num_rows. destruct (Z.ltb_spec i (- Z.of_nat clipping)); [destruct causal; lia|]. destruct (Z.ltb_spec 0 i); [destruct causal; [lia|destruct (Z.ltb_spec (Z.of_nat clipping) i); lia]|destruct causal; lia].
Qed.
Lemma lookup_ok {A} (table : list A) (d : A) clipping causal i : length table = num_rows clipping causal -> lookup table (learned_row clipping causal i) = Ok (nth (row_for clipping causal i) table d).
Proof.
  intros Hl. rewrite learned_row_ok. unfold lookup. destruct (Z.ltb_spec (Z.of_nat (row_for clipping causal i)) 0); [lia|]. rewrite Nat2Z.id. pose proof (row_for_lt clipping causal i) as Hlt. rewrite <- Hl in Hlt.
  rewrite (nth_error_nth' table d Hlt). reflexivity.
Qed.
Lemma mapM_total {A B} (f : A -> res B) (g : A -> B) l : (forall x, f x = Ok (g x)) -> mapM f l = Ok (map g l).
Proof. intros H. induction l as [|x l IH]; cbn; [reflexivity|]. rewrite H, IH. reflexivity. Qed.
Lemma learned_ok {A} (table : list A) (d : A) clipping causal l : length table = num_rows clipping causal -> learned_encoding table clipping causal l = Ok (map (fun i => nth (row_for clipping causal i) table d) l).
Proof. intros Hl. apply mapM_total. intros i. apply lookup_ok, Hl. Qed.
Lemma full_ok {A} (table : list A) (d : A) clipping causal q kv o : length table = num_rows clipping causal ->
  full_matrix table clipping causal q kv (Some o) = Ok (map (fun t => map (fun s => nth (row_for clipping causal (Z.of_nat s - Z.of_nat t - o)) table d) (seq 0 kv)) (seq 0 q)).
Proof.
  intros Hl. unfold full_matrix. apply mapM_total. intros t. apply mapM_total. intros s. rewrite (lookup_ok table d) by exact Hl. do 3 f_equal. lia.
Qed.
Lemma full_step_ok {A} (table : list A) (d : A) clipping causal n : length table = num_rows clipping causal ->
  full_matrix_step table clipping causal n = Ok (map (fun s => nth (row_for clipping causal (Z.of_nat s - (Z.of_nat n - 1))) table d) (seq 0 n)).
Proof. intros Hl. unfold full_matrix_step. apply mapM_total. intros s. rewrite (lookup_ok table d) by exact Hl. reflexivity. Qed.
