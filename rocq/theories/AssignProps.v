(** C94: assignment to a part of a parameter. *)
From Verif Require Import Base ListLemmas TensorModel TensorSpec TensorProofs MatmulModel MatmulProofs AssignModel AssignSpec AssignProofs.
Local Open Scope nat_scope.

(** With keys for the first axes, given in any order, exactly the selected entries change: each gets the entry of the value for it. *)
Theorem C94_several : forall size op param val axes keys key_dims, well size param -> well size val ->
  length axes = length keys -> length key_dims = length keys -> keys <> [] ->
  parts_ok size (names_of axes keys key_dims) param val -> first_axes (names_of axes keys key_dims) param ->
  exists r, assign_key op param (Dims (map Some axes)) (Several keys) (Dims key_dims) val = Ok r /\ assigned size op (names_of axes keys key_dims) param val r.
Proof. exact several_ok. Qed.
Print Assumptions C94_several.

(** The same with one key for the first axis. *)
Theorem C94_first_axis : forall size op param val axis k kd, well size param -> well size val ->
  parts_ok size [(d_base axis, k, option_map d_base kd)] param val -> first_axes [(d_base axis, k, option_map d_base kd)] param ->
  exists r, assign_key op param (ADim axis) (Single k) (match kd with Some d => ADim d | None => NoDim end) val = Ok r /\
    assigned size op [(d_base axis, k, option_map d_base kd)] param val r.
Proof.
  intros size op param val axis k kd Hw Hv Hp Hf. pose proof Hw as (_ & _ & Hnd). pose proof Hp as (_ & Hpp & _). destruct (Hpp _ _ _ (or_introl eq_refl)) as (Ha & _ & Hkd).
  pose proof (resolve_parts size _ param val Hw Hp Hf) as Hr. unfold first_axes in Hf. cbn in Hf.
  destruct (dims param) as [|x ds] eqn:Ed; [destruct Ha|]. cbn in Hf. apply Permutation_length_1 in Hf. unfold assign_key, raw_key. rewrite Ed, axis_of_index by assumption. cbn [bind dim_index].
  unfold deq. rewrite Hf, Nat.eqb_refl. cbn [repeat app firstn skipn]. unfold first_keys in Hr. cbn [length firstn bases map] in Hr. unfold found in Hr. cbn [find fst snd] in Hr. rewrite Hf, Nat.eqb_refl in Hr. rewrite <- Ed.
  assert (Hrest : flat_map (axis_dims [(d_base axis, k, option_map d_base kd)]) (bases ds) = bases ds).
  { cbn in Hnd. apply NoDup_cons_iff in Hnd as [Hx _]. unfold axis_dims, found. cbn [find fst snd]. rewrite <- Hf in Hx. fold (bases ds) in Hx. clear - Hx. induction (bases ds) as [|c l IH]; [reflexivity|]. cbn [flat_map]. destruct (Nat.eqb_spec (d_base axis) c) as [E|]; [exfalso; apply Hx; left; symmetry; exact E|]. cbn [app]. rewrite IH; [reflexivity|]. intros H. apply Hx. right. exact H. }
  assert (Hhead : axis_dims [(d_base axis, k, option_map d_base kd)] (d_base x) = match k, kd with KInt _, _ => [] | _, Some d => [d_base d] | _, None => [] end).
  { unfold axis_dims, found. cbn [find fst snd]. rewrite Hf, Nat.eqb_refl. destruct k; [reflexivity| |]; destruct kd; reflexivity. }
  assert (G : exists out, (if is_reduce k then Ok ds else match match kd with Some d => ADim d | None => NoDim end with ADim d => Ok (d :: ds) | _ => Err TypeError end) = Ok out /\ bases out = value_dims [(d_base axis, k, option_map d_base kd)] (bases (dims param))).
  { rewrite value_dims_eq, Ed. change (bases (x :: ds)) with (d_base x :: bases ds). cbn [flat_map]. rewrite Hhead, Hrest. destruct k; cbn [is_reduce] in *; [eexists; split; reflexivity| |]; destruct (Hkd eq_refl) as (d & E & _); (destruct kd as [d'|]; [|discriminate]); eexists; split; reflexivity. }
  destruct G as (out & E & Eb). rewrite E. cbn [bind]. rewrite <- Hf in *. apply core; try assumption. rewrite Ed. change (bases (x :: ds)) with (d_base x :: bases ds). rewrite <- Hf. exact Hr.
Qed.
Print Assumptions C94_first_axis.

(** Without a key the whole parameter is assigned. *)
Theorem C94_no_key : forall size op param val k, well size param -> well size val -> dims param <> [] -> incl (bases (dims val)) (bases (dims param)) -> k = NoKey \/ k = Several [] ->
  exists r, assign_key op param NoDim k NoDim val = Ok r /\ well size r /\ dims r = dims param /\
    forall env, inside size env (dims param) -> value r env = op (value param env) (value val env).
Proof.
  intros size op param val k Hw Hv Hne Hi Hk. destruct (dims param) as [|x ds] eqn:Ed; [congruence|]. set (parts := [(d_base x, KSlice None None None, Some (d_base x))] : list part).
  assert (Hc : forall n, chosen n (KSlice None None None) = seq 0 n).
  { intros n. cbn [chosen]. apply filter_all. intros i Hn. apply in_seq in Hn. rewrite Z.mod_1_r. destruct (Z.leb_spec 0 (Z.of_nat i)); [|lia]. destruct (Z.ltb_spec (Z.of_nat i) (Z.of_nat n)); [reflexivity|lia]. }
  assert (Hd : value_dims parts (bases (dims param)) = bases (dims param)).
  { rewrite value_dims_eq. unfold axis_dims, found, parts. cbn [find fst snd]. induction (bases (dims param)) as [|c l IH]; [reflexivity|]. cbn [flat_map]. destruct (Nat.eqb_spec (d_base x) c) as [E|]; cbn [app]; rewrite IH; [rewrite E|]; reflexivity. }
  assert (Hp : parts_ok size parts param val).
  { split; [cbn; constructor; [intros []|constructor]|]. rewrite Hd. split; [|split; [apply Hw|rewrite Ed; exact Hi]]. intros a k' kd [E|[]]. injection E as <- <- <-. split; [rewrite Ed; left; reflexivity|]. split; [exact I|]. intros _. eexists. split; [reflexivity|]. rewrite Hc, seq_length. reflexivity. }
  assert (Hf : first_axes parts param) by (unfold first_axes; rewrite Ed; reflexivity).
  pose proof (resolve_parts size parts param val Hw Hp Hf) as Hr. unfold first_keys in Hr. rewrite Ed in Hr. unfold parts in Hr. cbn [length firstn bases map] in Hr. unfold found in Hr. cbn [find fst snd] in Hr. rewrite Nat.eqb_refl in Hr. cbn [fst snd] in Hr.
  destruct (core size op param val [Item (KSlice None None None)] (dims param) parts Hw Hv Hp (eq_sym Hd)) as (r & E & Hwr & Hdr & Hval); [rewrite Ed; exact Hr|].
  exists r. split; [|split; [exact Hwr|split; [rewrite Hdr; exact Ed|]]].
  - rewrite <- E. unfold assign_key. destruct Hk as [-> | ->]; cbn [raw_key bind]; reflexivity.
  - intros env He. apply Hval; [rewrite Ed; exact He|]. split.
    + intros a k' kd [E'|[]]. injection E' as <- <- <-. rewrite Hc. rewrite nth_error_seq; [reflexivity|]. unfold inside in He. inversion He; assumption.
    + reflexivity.
Qed.
Print Assumptions C94_no_key.

(** Documented: var[key] = value if the axis is the first one, "or otherwise accordingly". But for another axis the key is used for the
    first one: [strided_slice_raw_key] has None, which is a new axis, where it should have slice(None). *)
Definition dA := {| d_base := 1; d_copy := 0; d_prio := 0 |}.
Definition dB := {| d_base := 2; d_copy := 0; d_prio := 0 |}.
Definition dC := {| d_base := 3; d_copy := 0; d_prio := 0 |}.
Definition two_by_two := {| dims := [dA; dB]; traw := {| shape := [2; 2]; data := [1; 2; 3; 4]%Z |} |}.
Definition over_A := {| dims := [dA]; traw := {| shape := [2]; data := [8; 9]%Z |} |}.
Theorem C94_other_axis_refuted : exists size param val axis k, well size param /\ well size val /\ parts_ok size [(d_base axis, k, None)] param val /\
  exists r, assign_key (fun _ new => new) param (ADim axis) (Single k) NoDim val = Ok r /\ ~ assigned size (fun _ new => new) [(d_base axis, k, None)] param val r.
Proof.
  exists (fun _ => 2), two_by_two, over_A, dB, (KInt 0). split; [|split; [|split]].
  - split; [reflexivity|]. split; [reflexivity|]. cbn. repeat constructor; cbn; intuition discriminate.
  - split; [reflexivity|]. split; [reflexivity|]. cbn. repeat constructor; cbn; intuition discriminate.
  - split; [cbn; repeat constructor; intros []|]. split; [|split].
    + intros a k kd [E|[]]. injection E as <- <- <-. split; [cbn; auto|]. split; [cbn; lia|discriminate].
    + cbn. repeat constructor; cbn; intuition discriminate.
    + intros c [<-|[]]. left. reflexivity.
  - eexists. split; [reflexivity|]. intros (_ & _ & H). specialize (H (fun c => if c =? 1 then 1 else 0)). destruct H as [H _]; [repeat constructor|]. specialize (H (fun c => if c =? 1 then 1 else 0)).
    assert (E : (3 = 9)%Z); [|discriminate]. apply H. split; [|reflexivity]. intros a k kd [E|[]]. injection E as <- <- <-. reflexivity.
Qed.
Print Assumptions C94_other_axis_refuted.
(** If the sizes differ, it fails instead. *)
Example C94_other_axis_fails :
  assign_key (fun _ new => new) {| dims := [dA; dB]; traw := {| shape := [2; 3]; data := [1; 2; 3; 4; 5; 6]%Z |} |} (ADim dB) (Single (KInt 0)) NoDim over_A = Err OtherException.
Proof. reflexivity. Qed.
(** The same with a sequence of keys which leaves out the first axis. *)
Example C94_other_axis_several : assign_key (fun _ new => new) two_by_two (Dims [Some dB]) (Several [KInt 0]) (Dims [None]) over_A = assign_key (fun _ new => new) two_by_two (ADim dB) (Single (KInt 0)) NoDim over_A /\
  assign_key (fun _ new => new) two_by_two (ADim dB) (Single (KInt 0)) NoDim over_A = Ok {| dims := [dA; dB]; traw := {| shape := [2; 2]; data := [8; 9; 3; 4]%Z |} |}.
Proof. split; reflexivity. Qed.

(** Rows 1 and 3 of five, by a slice with a step, and the last column: keys in the other order than the axes. *)
Definition five := {| dims := [dA; dB]; traw := {| shape := [5; 2]; data := [0; 1; 2; 3; 4; 5; 6; 7; 8; 9]%Z |} |}.
Definition over_C := {| dims := [dC]; traw := {| shape := [2]; data := [30; 40]%Z |} |}.
Definition demo_size (c : nat) : nat := match c with 1 => 5 | _ => 2 end.
Example C94_example : assign_key (fun _ new => new) five (Dims [Some dB; Some dA]) (Several [KInt (-1); KSlice (Some 1) (Some (-1)) (Some 2)]%Z) (Dims [None; Some dC]) over_C =
  Ok {| dims := [dA; dB]; traw := {| shape := [5; 2]; data := [0; 1; 2; 30; 4; 5; 6; 40; 8; 9]%Z |} |}.
Proof. reflexivity. Qed.
Example C94_example_hypotheses : parts_ok demo_size (names_of [dB; dA] [KInt (-1); KSlice (Some 1) (Some (-1)) (Some 2)]%Z [None; Some dC]) five over_C /\
  first_axes (names_of [dB; dA] [KInt (-1); KSlice (Some 1) (Some (-1)) (Some 2)]%Z [None; Some dC]) five /\ well demo_size five /\ well demo_size over_C.
Proof.
  split; [|split; [apply perm_swap|split]].
  - split; [cbn; repeat constructor; cbn; intuition discriminate|]. split; [|split].
    + intros a k kd [E|[E|[]]]; injection E as <- <- <-; (split; [cbn; auto|]); (split; [cbn; lia|]); [discriminate|]. intros _. eexists. split; reflexivity.
    + cbn. repeat constructor; cbn; intuition discriminate.
    + intros c [<-|[]]. left. reflexivity.
  - split; [reflexivity|]. split; [reflexivity|]. cbn. repeat constructor; cbn; intuition discriminate.
  - split; [reflexivity|]. split; [reflexivity|]. cbn. repeat constructor; cbn; intuition discriminate.
Qed.
(** Adding to two rows given by a vector. *)
Example C94_example_add : assign_key Z.add five (ADim dA) (Single (KIndices [4; -4]%Z)) (ADim dC) over_C =
  Ok {| dims := [dA; dB]; traw := {| shape := [5; 2]; data := [0; 1; 42; 43; 4; 5; 6; 7; 38; 39]%Z |} |}.
Proof. reflexivity. Qed.

(** Errors: the number of axes and keys, the range of an index, the shape of the value. *)
Theorem C94_length_error : forall op param axes keys key_dims val, keys <> [] -> length axes <> length keys ->
  assign_key op param (Dims axes) (Several keys) key_dims val = Err ValueError.
Proof.
  intros op param axes keys key_dims val Hk Hl. unfold assign_key, raw_key. destruct keys as [|k keys]; [congruence|]. apply Nat.eqb_neq in Hl. rewrite Hl. reflexivity.
Qed.
Print Assumptions C94_length_error.
Example C94_example_range : assign_key Z.add five (ADim dA) (Single (KInt 5)) NoDim {| dims := [dB]; traw := {| shape := [2]; data := [1; 2]%Z |} |} = Err IndexError /\
  assign_key Z.add five (ADim dA) (Single (KInt (-6))) NoDim {| dims := [dB]; traw := {| shape := [2]; data := [1; 2]%Z |} |} = Err IndexError /\
  assign_key Z.add five (ADim dA) (Single (KInt 4)) NoDim {| dims := [dB]; traw := {| shape := [0]; data := [] |} |} = Err OtherException.
Proof. repeat split. Qed.
(** A key outside of the axis never assigns anything: it is an error. *)
Theorem C94_range_error : forall size op param val axis k key_dim, well size param -> hd_error (bases (dims param)) = Some (d_base axis) ->
  match k with
  | KInt i => ~ (- Z.of_nat (size (d_base axis)) <= i < Z.of_nat (size (d_base axis)))%Z
  | KSlice _ _ step => exists s, step = Some s /\ (s <= 0)%Z
  | KIndices l => Exists (fun i => ~ (- Z.of_nat (size (d_base axis)) <= i < Z.of_nat (size (d_base axis)))%Z) l
  end ->
  is_ok (assign_key op param (ADim axis) (Single k) key_dim val) = false.
Proof.
  intros size op param val axis k key_dim (Hs & _ & Hnd) Hh Hk. unfold assign_key, raw_key. destruct (dims param) as [|x ds] eqn:Ed; [discriminate|]. cbn in Hh. injection Hh as Hx.
  rewrite axis_of_index by (exact Hnd || (cbn; left; exact Hx)). cbn [bind dim_index]. unfold deq. rewrite Hx, Nat.eqb_refl. cbn [repeat app].
  match goal with |- context [bind (bind ?a _) _] => destruct a as [out|e] end; [|reflexivity]. cbn [bind]. destruct (compatible_raw val out) as [v|e]; [|reflexivity]. cbn [bind].
  unfold set_items. rewrite Hs, ?Ed. cbn [resolve]. unfold bases. cbn [map]. rewrite ?Hx.
  assert (Hw : forall i, ~ (- Z.of_nat (size (d_base axis)) <= i < Z.of_nat (size (d_base axis)))%Z -> wrap (size (d_base axis)) i = Err IndexError).
  { intros i Hi. unfold wrap. destruct (Z.ltb_spec i 0); [destruct (Z.leb_spec 0 (i + Z.of_nat (size (d_base axis)))); [lia|reflexivity]|]. destruct (Z.ltb_spec i (Z.of_nat (size (d_base axis)))); [lia|reflexivity]. }
  assert (E : is_ok (select_key (size (d_base axis)) k) = false).
  { destruct k as [i|start stop step|l]; cbn [select_key].
    - rewrite Hw by exact Hk. reflexivity.
    - destruct Hk as (s & -> & Hs0). destruct (Z.leb_spec s 0); [reflexivity|lia].
    - assert (E : is_ok (mapM (wrap (size (d_base axis))) l) = false); [|destruct (mapM _ l); [discriminate|reflexivity]]. induction Hk as [i l Hi|i l Hi IH]; cbn [mapM]; [rewrite Hw by exact Hi; reflexivity|]. destruct (wrap (size (d_base axis)) i); [|reflexivity]. cbn [bind]. destruct (mapM _ l); [discriminate|reflexivity]. }
  destruct (select_key (size (d_base axis)) k); [discriminate|reflexivity].
Qed.
Print Assumptions C94_range_error.
