(** C87: merging, splitting and reshaping dims. C88: joining and splitting tensors along a dim. C89: the largest entries over several dims. *)
From Verif Require Import Base ListLemmas TensorModel TensorSpec TensorProofs MatmulModel MatmulSpec MatmulProofs ReshapeModel ReshapeSpec ReshapeProofs.
Local Open Scope nat_scope.

(** * C87 *)
Theorem C87_merge : forall size t ds out, well size t -> replaceable size t ds [out] -> 2 <= length ds ->
  exists r, merge_dims size t ds out = Ok r /\ reshaped size t ds [out] r.
Proof. exact merge_ok. Qed.
Print Assumptions C87_merge.

Theorem C87_split : forall size t axis ds, well size t -> replaceable size t [axis] ds ->
  exists r, split_dims size t axis ds = Ok r /\ reshaped size t [axis] ds r.
Proof. exact split_dims_ok. Qed.
Print Assumptions C87_split.

Theorem C87_reshape : forall size t ins outs, well size t -> replaceable size t ins outs ->
  exists r, reshape_dims size t ins outs = Ok r /\ reshaped size t ins outs r.
Proof. exact reshape_dims_ok. Qed.
Print Assumptions C87_reshape.

(** Merging and then splitting gives the same entries, and the other way round. *)
Theorem C87_merge_split : forall size t ds out, well size t -> replaceable size t ds [out] -> 2 <= length ds ->
  exists r r', merge_dims size t ds out = Ok r /\ split_dims size r out ds = Ok r' /\ same_entries size r' t.
Proof.
  intros size t ds out Hw Hr Hl. destruct (merge_ok size t ds out Hw Hr Hl) as (r & E & H). assert (Hne : [out] <> []) by discriminate.
  destruct (split_dims_ok size r out ds (proj1 H) (replaceable_back size t ds [out] r Hw Hr H Hne)) as (r' & E' & H'). exists r, r'. split; [exact E|]. split; [exact E'|]. eapply reshaped_back; eassumption.
Qed.
Print Assumptions C87_merge_split.

Theorem C87_split_merge : forall size t axis ds, well size t -> replaceable size t [axis] ds -> 2 <= length ds ->
  exists r r', split_dims size t axis ds = Ok r /\ merge_dims size r ds axis = Ok r' /\ same_entries size r' t.
Proof.
  intros size t axis ds Hw Hr Hl. destruct (split_dims_ok size t axis ds Hw Hr) as (r & E & H). assert (Hne : ds <> []) by (intros ->; cbn in Hl; lia).
  destruct (merge_ok size r ds axis (proj1 H) (replaceable_back size t [axis] ds r Hw Hr H Hne) Hl) as (r' & E' & H'). exists r, r'. split; [exact E|]. split; [exact E'|]. eapply reshaped_back; eassumption.
Qed.
Print Assumptions C87_split_merge.

Theorem C87_reshape_back : forall size t ins outs, well size t -> replaceable size t ins outs -> outs <> [] ->
  exists r r', reshape_dims size t ins outs = Ok r /\ reshape_dims size r outs ins = Ok r' /\ same_entries size r' t.
Proof.
  intros size t ins outs Hw Hr Hne. destruct (reshape_dims_ok size t ins outs Hw Hr) as (r & E & H).
  destruct (reshape_dims_ok size r outs ins (proj1 H) (replaceable_back size t ins outs r Hw Hr H Hne)) as (r' & E' & H'). exists r, r'. split; [exact E|]. split; [exact E'|]. eapply reshaped_back; eassumption.
Qed.
Print Assumptions C87_reshape_back.

(** * C88 *)
Theorem C88_concat : forall size t0 d0 sources out, hd_error sources = Some (t0, d0) -> joinable size t0 d0 sources -> ~ In (d_base out) (other_names t0 d0) ->
  size (d_base out) = total_size size (map snd sources) ->
  exists r, concat_tensors sources out = Ok r /\ well size r /\ dims r = instead [d0] [out] (dims t0) /\ joined size r out sources.
Proof. exact concat_ok. Qed.
Print Assumptions C88_concat.

Theorem C88_split : forall size t axis outs, well size t -> In (d_base axis) (bases (dims t)) -> (forall d, In d outs -> ~ In (d_base d) (other_names t axis)) ->
  total_size size outs = size (d_base axis) ->
  exists parts, split size t axis outs = Ok parts /\ Forall2 (fun part d => well size part /\ dims part = instead [axis] [d] (dims t)) parts outs /\ joined size t axis (combine parts outs).
Proof. exact split_ok. Qed.
Print Assumptions C88_split.

(** Each entry of the result of [concat] is from one of the sources. *)
Theorem C88_entry : forall size r axis parts env, well size r -> In (d_base axis) (bases (dims r)) -> joinable size r axis parts -> joined size r axis parts -> inside size env (dims r) ->
  exists j part d k, nth_error parts j = Some (part, d) /\ k < size (d_base d) /\ env (d_base axis) = total_size size (firstn j (map snd parts)) + k /\ value r env = value part (with_index env (d_base d) k).
Proof. exact joined_entry. Qed.
Print Assumptions C88_entry.

(** Joining the parts gives the tensor. *)
Theorem C88_split_concat : forall size t axis outs, well size t -> In axis (dims t) -> outs <> [] -> (forall d, In d outs -> ~ In (d_base d) (other_names t axis)) ->
  total_size size outs = size (d_base axis) ->
  exists parts r, split size t axis outs = Ok parts /\ concat_tensors (combine parts outs) axis = Ok r /\ same_entries size r t.
Proof.
  intros size t axis outs Hw Ha Hne Hf Hsum. assert (Hab : In (d_base axis) (bases (dims t))) by (apply In_base, Ha). destruct (split_ok size t axis outs Hw Hab Hf Hsum) as (parts & E & H2 & Hj). exists parts.
  destruct (axis_around size t axis Hw Hab) as (A & x & B & El & Ex & _ & HA & HB & HAB). pose proof (names_around t A x B axis El Ex HA HB) as En.
  assert (Hp : forall part d, In (part, d) (combine parts outs) -> well size part /\ dims part = A ++ d :: B /\ ~ In (d_base d) (bases A ++ bases B)).
  { intros part d Hi. apply In_nth_error in Hi as (j & Hi). apply nth_error_combine_inv in Hi as [H1 H3]. pose proof (Forall2_nth _ _ _ _ _ _ H2 H1 H3) as [Hwp Hd]. split; [exact Hwp|]. split; [rewrite Hd, El, (instead_around A x B axis [d] Ex HA HB); reflexivity|]. rewrite <- En. apply Hf. eapply nth_error_In, H3. }
  assert (Hon : forall part d, In (part, d) (combine parts outs) -> other_names part d = bases A ++ bases B).
  { intros part d Hi. destruct (Hp part d Hi) as (_ & Hd & Hno). apply (names_around part A d B d Hd eq_refl); intros H; apply Hno, in_or_app; auto. }
  assert (Hjo : forall t1 d1, other_names t1 d1 = bases A ++ bases B -> joinable size t1 d1 (combine parts outs)).
  { intros t1 d1 E1. apply Forall_forall. intros [part d] Hi. destruct (Hp part d Hi) as (Hwp & Hd & _). split; [exact Hwp|]. split; [rewrite Hd, bases_mid; apply in_or_app; right; left; reflexivity|]. rewrite E1, (Hon part d Hi). reflexivity. }
  assert (Hlen : length parts = length outs) by (eapply Forall2_len, H2).
  destruct (combine parts outs) as [|[p0 d0] rest] eqn:Ec; [destruct outs; [congruence|]; destruct parts; discriminate|].
  destruct (concat_ok size p0 d0 ((p0, d0) :: rest) axis) as (r & Er & Hwr & Hdr & Hjr); [reflexivity|apply Hjo, Hon; left; reflexivity|rewrite (Hon p0 d0) by (left; reflexivity); intros H; apply in_app_or in H as [H|H]; auto|apply Hj|].
  exists r. split; [exact E|]. split; [exact Er|]. destruct (Hp p0 d0) as (Hw0 & Hd0 & Hno0); [left; reflexivity|].
  assert (Edr : dims r = A ++ axis :: B) by (rewrite Hdr, Hd0, (instead_around A d0 B d0 [axis] eq_refl); [reflexivity|intros H; apply Hno0, in_or_app; auto|intros H; apply Hno0, in_or_app; auto]).
  assert (Eb : bases (dims r) = bases (dims t)) by (rewrite Edr, El, !bases_mid, Ex; reflexivity). split; [rewrite Eb; reflexivity|]. intros env Hin.
  assert (Hint : inside size env (dims t)) by (unfold inside; rewrite <- Eb; exact Hin).
  destruct (joined_entry size r axis ((p0, d0) :: rest) env Hwr) as (j & part & d & k & H1 & H3 & H4 & ->); [rewrite Eb; exact Hab|apply Hjo, (names_around r A axis B axis Edr eq_refl HA HB)|exact Hjr|exact Hin|].
  destruct (joined_entry size t axis ((p0, d0) :: rest) env Hw Hab) as (j' & part' & d' & k' & H1' & H3' & H4' & ->); [apply Hjo, En|exact Hj|exact Hint|].
  assert (Ejk : j = j' /\ k = k').
  { assert (Hpo : forall j part d k, nth_error ((p0, d0) :: rest) j = Some (part, d) -> k < size (d_base d) -> env (d_base axis) = total_size size (firstn j (map snd ((p0, d0) :: rest))) + k ->
      part_of (env (d_base axis)) (sizes size (map snd ((p0, d0) :: rest))) 0 = (j, k)).
    { intros j0 part0 d1 k0 G1 G2 G3. rewrite G3. unfold total_size. replace (sizes size (firstn j0 (map snd ((p0, d0) :: rest)))) with (firstn j0 (sizes size (map snd ((p0, d0) :: rest)))) by (unfold sizes, bases; rewrite !firstn_map; reflexivity).
      apply (part_of_at size _ j0 k0 (size (d_base d1)) 0); [|exact G2]. unfold sizes, bases. rewrite !nth_error_map, G1. reflexivity. }
    pose proof (Hpo _ _ _ _ H1 H3 H4) as P1. pose proof (Hpo _ _ _ _ H1' H3' H4') as P2. rewrite P1 in P2. injection P2 as <- <-. auto. }
  destruct Ejk as [<- <-]. rewrite H1 in H1'. injection H1' as <- <-. reflexivity.
Qed.
Print Assumptions C88_split_concat.

(** Splitting what was joined gives the sources. *)
Theorem C88_concat_split : forall size t0 d0 sources out, hd_error sources = Some (t0, d0) -> joinable size t0 d0 sources -> ~ In (d_base out) (other_names t0 d0) ->
  size (d_base out) = total_size size (map snd sources) ->
  exists r parts, concat_tensors sources out = Ok r /\ split size r out (map snd sources) = Ok parts /\ Forall2 (same_entries size) parts (map fst sources).
Proof.
  intros size t0 d0 sources out Hhd Hj Hout Hsum. destruct (concat_ok size t0 d0 sources out Hhd Hj Hout Hsum) as (r & E & Hw & Hd & Hjr). exists r.
  assert (Hin0 : In (t0, d0) sources) by (destruct sources; [discriminate|]; cbn in Hhd; injection Hhd as ->; left; reflexivity). unfold joinable in Hj. rewrite Forall_forall in Hj. destruct (Hj _ Hin0) as (Hw0 & Hd0 & _).
  destruct (axis_around size t0 d0 Hw0 Hd0) as (A & x & B & El & Ex & _ & HA & HB & HAB). pose proof (names_around t0 A x B d0 El Ex HA HB) as En. rewrite En in Hout.
  assert (Edr : dims r = A ++ out :: B) by (rewrite Hd, El, (instead_around A x B d0 [out] Ex HA HB); reflexivity).
  assert (HoA : ~ In (d_base out) (bases A)) by (intros H; apply Hout, in_or_app; auto). assert (HoB : ~ In (d_base out) (bases B)) by (intros H; apply Hout, in_or_app; auto).
  pose proof (names_around r A out B out Edr eq_refl HoA HoB) as Enr.
  assert (Hperm : forall t d, In (t, d) sources -> Permutation (bases (A ++ d :: B)) (bases (dims t)) /\ NoDup (bases (A ++ d :: B))).
  { intros t d Hi. destruct (Hj _ Hi) as (Hwt & Hdt & HP). pose proof (templ_perm size A B t d t0 d0 Hwt Hdt HP En) as HP'. split; [exact HP'|]. destruct Hwt as (_ & _ & Hnt). eapply Permutation_NoDup; [apply Permutation_sym, HP'|exact Hnt]. }
  destruct (split_ok size r out (map snd sources) Hw) as (parts & E2 & H2 & Hj2); [rewrite Edr, bases_mid; apply in_or_app; right; left; reflexivity| |symmetry; exact Hsum|].
  { intros d Hi. apply in_map_iff in Hi as ([t d'] & <- & Hi). cbn. rewrite Enr. destruct (Hperm t d' Hi) as [_ Hn]. rewrite bases_mid in Hn. apply NoDup_remove in Hn. apply Hn. }
  exists parts. split; [exact E|]. split; [exact E2|]. pose proof (Forall2_len _ _ _ H2) as Hlen. rewrite map_length in Hlen. apply Forall2_of_nth; [rewrite map_length; exact Hlen|]. intros j part t Hp Ht.
  rewrite nth_error_map in Ht. destruct (nth_error sources j) as [[t' d]|] eqn:Ej; [|discriminate]. cbn in Ht. injection Ht as ->. assert (Hi : In (t, d) sources) by (eapply nth_error_In, Ej).
  assert (Hsj : nth_error (map snd sources) j = Some d) by (rewrite nth_error_map, Ej; reflexivity). pose proof (Forall2_nth _ _ _ _ _ _ H2 Hp Hsj) as [_ Hdp].
  assert (Edp : dims part = A ++ d :: B) by (rewrite Hdp, Edr, (instead_around A out B out [d] eq_refl HoA HoB); reflexivity). destruct (Hperm t d Hi) as [HP Hn].
  split; [rewrite Edp; exact HP|]. intros env Hin. destruct Hj2 as (_ & Hj2). destruct Hjr as (_ & Hjr).
  assert (Hc : nth_error (combine parts (map snd sources)) j = Some (part, d)).
  { clear -Hp Hsj. revert j Hp Hsj. generalize (map snd sources). induction parts as [|a l IH]; intros [|b m] [|j] H1 H3; cbn in *; try discriminate; [congruence|]. apply IH; assumption. }
  specialize (Hj2 j part d Hc env Hin). rewrite map_snd_combine in Hj2 by (rewrite map_length; exact Hlen). rewrite Hj2. symmetry. apply (Hjr j t d Ej). eapply inside_perm; [|exact Hin]. rewrite Edp. exact HP.
Qed.
Print Assumptions C88_concat_split.

(** * C89 *)
Theorem C89_top_k : forall size topk dimension t axes k_dim, topk_contract topk -> well size t -> NoDup (bases axes) -> incl (bases axes) (bases (dims t)) -> axes <> [] ->
  (forall d, In d axes -> dimension d = Some (size (d_base d))) -> (In (d_base k_dim) (bases (dims t)) -> In (d_base k_dim) (bases axes)) ->
  size (d_base k_dim) <= prod (sizes size axes) ->
  exists values indices, top_k topk dimension t axes (size (d_base k_dim)) k_dim = Ok (values, indices) /\ largest size t axes k_dim values indices.
Proof. exact top_k_ok. Qed.
Print Assumptions C89_top_k.

(** * Examples, and what does not hold *)
Definition rB : dim := {| d_base := 0; d_copy := 0; d_prio := 0 |}.
Definition rT : dim := {| d_base := 1; d_copy := 0; d_prio := 0 |}.
Definition rF : dim := {| d_base := 2; d_copy := 0; d_prio := 0 |}.
Definition rM : dim := {| d_base := 3; d_copy := 0; d_prio := 0 |}.
Definition rK : dim := {| d_base := 4; d_copy := 0; d_prio := 0 |}.
Definition r_size (d : nat) : nat := match d with 0 => 2 | 1 => 3 | 2 => 2 | 3 => 6 | _ => 2 end.
Definition r_btf : tensor := {| dims := [rB; rT; rF]; traw := {| shape := [2; 3; 2]; data := [1; 2; 3; 4; 5; 6; 7; 8; 9; 10; 11; 12]%Z |} |}.
Example C87_ex_well : well r_size r_btf.
Proof. repeat split; repeat constructor; cbn; lia. Qed.
Ltac replace_ok := split; [repeat constructor; cbn; lia|]; split; [intros c; cbn; intuition lia|]; split; [discriminate|]; split; [repeat constructor; cbn; lia|]; split; [intros c; cbn; intuition lia|reflexivity].
Example C87_ex_ok : replaceable r_size r_btf [rT; rF] [rM] /\ replaceable r_size r_btf [rF; rT] [rM] /\ replaceable r_size r_btf [rT; rB] [rM].
Proof. split; [replace_ok|]. split; replace_ok. Qed.
Example C87_ex_merge : merge_dims r_size r_btf [rT; rF] rM = Ok {| dims := [rB; rM]; traw := {| shape := [2; 6]; data := [1; 2; 3; 4; 5; 6; 7; 8; 9; 10; 11; 12]%Z |} |}.
Proof. reflexivity. Qed.
Example C87_ex_merge_order : merge_dims r_size r_btf [rF; rT] rM = Ok {| dims := [rB; rM]; traw := {| shape := [2; 6]; data := [1; 3; 5; 2; 4; 6; 7; 9; 11; 8; 10; 12]%Z |} |}.
Proof. reflexivity. Qed.
Example C87_ex_reshape : reshape_dims r_size r_btf [rT; rB] [rM] = Ok {| dims := [rM; rF]; traw := {| shape := [6; 2]; data := [1; 2; 7; 8; 3; 4; 9; 10; 5; 6; 11; 12]%Z |} |}.
Proof. reflexivity. Qed.
Example C87_ex_split : split_dims r_size {| dims := [rM]; traw := {| shape := [6]; data := [1; 2; 3; 4; 5; 6]%Z |} |} rM [rB; rT] = Ok {| dims := [rB; rT]; traw := {| shape := [2; 3]; data := [1; 2; 3; 4; 5; 6]%Z |} |}.
Proof. reflexivity. Qed.
(** sizes for the examples below: the joined dim is [rM] *)
Definition j_size (d : nat) : nat := match d with 0 => 2 | 1 => 1 | 2 => 2 | 3 => 3 | _ => 2 end.
Definition j_bt : tensor := {| dims := [rB; rT]; traw := {| shape := [2; 1]; data := [1; 2]%Z |} |}.
Definition j_fb : tensor := {| dims := [rF; rB]; traw := {| shape := [2; 2]; data := [10; 20; 30; 40]%Z |} |}.
Example C88_ex_ok : joinable j_size j_bt rT [(j_bt, rT); (j_fb, rF)] /\ ~ In (d_base rM) (other_names j_bt rT) /\ j_size (d_base rM) = total_size j_size [rT; rF].
Proof.
  split; [|split; [cbn; lia|reflexivity]]. constructor; [|constructor; [|constructor]]; (split; [repeat split; repeat constructor; cbn; lia|]; split; [cbn; auto|apply Permutation_refl]).
Qed.
Example C88_ex_concat : concat_tensors [(j_bt, rT); (j_fb, rF)] rM = Ok {| dims := [rB; rM]; traw := {| shape := [2; 3]; data := [1; 10; 30; 2; 20; 40]%Z |} |}.
Proof. reflexivity. Qed.
Example C88_ex_split : split j_size {| dims := [rB; rM]; traw := {| shape := [2; 3]; data := [1; 10; 30; 2; 20; 40]%Z |} |} rM [rT; rF] =
  Ok [{| dims := [rB; rT]; traw := {| shape := [2; 1]; data := [1; 2]%Z |} |}; {| dims := [rB; rF]; traw := {| shape := [2; 2]; data := [10; 30; 20; 40]%Z |} |}].
Proof. reflexivity. Qed.
Example C89_ex_contract : topk_contract sort_topk.
Proof. exact sort_topk_contract. Qed.
(** [beam] and [classes] *)
Example C89_ex_top_k : top_k sort_topk (fun d => Some (r_size (d_base d))) {| dims := [rB; rT; rF]; traw := {| shape := [2; 3; 2]; data := [1; 9; 3; 4; 5; 6; 7; 8; 2; 1; 12; 0]%Z |} |} [rT; rF] 2 rK =
  Ok ({| dims := [rB; rK]; traw := {| shape := [2; 2]; data := [9; 6; 12; 8]%Z |} |},
      [{| dims := [rB; rK]; traw := {| shape := [2; 2]; data := [0; 2; 2; 0]%Z |} |}; {| dims := [rB; rK]; traw := {| shape := [2; 2]; data := [1; 1; 0; 1]%Z |} |}]).
Proof. reflexivity. Qed.

(** If one of the axes is dynamic, then there is an error after all the work, though the entries are masked for this case before. *)
Theorem C89_dynamic_refuted : exists size topk dimension t axes k_dim, topk_contract topk /\ well size t /\ NoDup (bases axes) /\ incl (bases axes) (bases (dims t)) /\ axes <> [] /\
  size (d_base k_dim) <= prod (sizes size axes) /\ top_k topk dimension t axes (size (d_base k_dim)) k_dim = Err TypeError.
Proof.
  exists r_size, sort_topk, (fun d => if deq d rT then None else Some (r_size (d_base d))), r_btf, [rT; rF], rK. split; [exact sort_topk_contract|]. split; [exact C87_ex_well|].
  split; [repeat constructor; cbn; lia|]. split; [intros c; cbn; intuition lia|]. split; [discriminate|]. split; [cbn; lia|reflexivity].
Qed.
Print Assumptions C89_dynamic_refuted.
