(** C143: dicts of tensors as dicts of raw tensors. Model: TDictModel; vocabulary: TDictSpec. *)
From Coq Require Import String.
From Verif Require Import Base ListLemmas PyDict TDictModel TDictSpec TDictProofs.
Local Open Scope nat_scope. Local Open Scope list_scope.

(** What was stored as raw tensors is restored by the same options, whatever the sizes of the dims were before: all tensors, and the sizes of all their dims. No other dim is changed. *)
Theorem C143_roundtrip : forall (V : Type) o (td : list (string * @tensor V)) src s raws, dict_ok td -> as_raw_tensor_dict o td src = Ok raws ->
  (forall d, In d (all_dims td) -> same_kind (src d) (s d)) ->
  exists s', assign_from_raw_tensor_dict o (template td) s raws = Ok (map (fun x => (fst x, t_raw (snd x))) td, s') /\
    (forall d, In d (all_dims td) -> restored o (src d) (s' d)) /\ (forall d, ~ In d (all_dims td) -> s' d = s d).
Proof.
  intros V o td src s raws Hok E Hk. unfold as_raw_tensor_dict in E. destruct (negb _); cbn in E; [|discriminate]. destruct (write_ok o src (rounds td) [] [] raws (rounds_nodup td Hok) (NoDup_nil _) E) as (_ & _ & _ & Hc).
  unfold assign_from_raw_tensor_dict. rewrite rounds_template, read_erase. destruct (read_ok o src raws (rounds td) [] s Hc) as (s' & Er & R1 & R2); [intros d Hd; apply Hk; now rewrite <- dims_of_rounds|intros d []|].
  exists s'. rewrite Er, tensors_of_rounds, <- dims_of_rounds. auto.
Qed.
Print Assumptions C143_roundtrip.

(** It can be stored exactly if each dim has a size: it is static, or there is a tensor for its sizes, or it is a batch dim with a known value, unless scalars are left out. *)
Definition can_store {V} (o : opts) (d : @dim V) : Prop :=
  (is_static d -> d_size d <> None) /\ (d_batch d = true -> o_scalar o = true -> exists v, has_size d v).
Theorem C143_store : forall (V : Type) o (td : list (string * @tensor V)) src, dict_ok td -> (o_const o = true -> o_scalar o = true) ->
  ((exists raws, as_raw_tensor_dict o td src = Ok raws) <-> forall d, In d (all_dims td) -> can_store o (src d)).
Proof.
  intros V o td src Hok Ho.
  assert (Hd : forall d : @dim V, (exists e, dim_entry o d = Ok e) <-> can_store o d).
  { intros [b sz ext val]. unfold dim_entry, can_store, is_static, has_size. cbn. destruct b; cbn [andb].
    - split.
      + intros (e & He). split; [intros [H _]; discriminate|]. intros _ Hs. rewrite Hs in He. destruct ext as [[h [|v|n]]|]; cbn in He.
        * destruct val as [v|]; [|discriminate]. exists v. right. eauto.
        * exists (RVal v). left. exists h. split; [reflexivity|discriminate].
        * exists (RInt n). left. exists h. split; [reflexivity|discriminate].
        * destruct val as [v|]; [|discriminate]. exists v. right. eauto.
      + intros [_ H]. destruct (o_scalar o) eqn:Es; [|destruct ext as [[h [|v|n]]|]; eauto]. destruct (H eq_refl eq_refl) as (v & [(h & E & Hv)|(_ & E & Ev)]).
        * subst ext. destruct v as [|v|n]; [exfalso; now apply (Hv eq_refl)|eauto|eauto].
        * subst val. destruct E as [->|(h & ->)]; cbn; eauto.
    - destruct ext as [[h v]|]; [split; [intros _; split; [intros [_ H]; discriminate|discriminate]|eauto]|]. destruct sz as [n|]; [split; [intros _; split; [discriminate|discriminate]|eauto]|].
      split; [intros (e & H); discriminate|intros [H _]; exfalso; now apply H]. }
  unfold as_raw_tensor_dict. replace (negb (o_const o && negb (o_scalar o))) with true by (destruct (o_const o), (o_scalar o); try reflexivity; discriminate (Ho eq_refl)). cbn [assert_ bind].
  rewrite <- dims_of_rounds. pose proof (rounds_nodup td Hok) as Hn. revert Hn. generalize (rounds td) as rs. intros rs Hn.
  assert (G : forall rs vis (out : @dict rkey raw), NoDup (map key_of rs) -> (forall k, In k (map key_of rs) -> ~ In k (dkeys out)) -> (forall d, In d vis -> can_store o (src d)) ->
    ((exists raws, write o src rs vis out = Ok raws) <-> forall d, In d (dims_of rs) -> can_store o (src d))).
  { clear - Hd. induction rs as [|[n t|n i d] rs IH]; intros vis out Hn Hout Hv; cbn [write].
    - split; [intros _ d []|eauto].
    - cbn in Hn. inversion Hn as [|? ? Hn1 Hn2]; subst. assert (Eh : dhas out (KData n) = false) by (destruct (dhas out (KData n)) eqn:E; [apply dhas_keys in E; destruct (Hout (KData n)); [now left|exact E]|reflexivity]). rewrite Eh. cbn [negb assert_ bind]. apply IH; [exact Hn2| |exact Hv].
      intros k Hk Hi. unfold dkeys in Hi. rewrite map_app, in_app_iff in Hi. destruct Hi as [Hi|[<-|[]]]; [|contradiction]. apply (Hout k); [now right|exact Hi].
    - cbn in Hn. inversion Hn as [|? ? Hn1 Hn2]; subst. change (dims_of (RDim n i d :: rs)) with (d :: dims_of rs). assert (Hout' : forall k, In k (map key_of rs) -> ~ In k (dkeys out)) by (intros k Hk; apply Hout; now right). destruct (o_exclude o && is_visited d vis) eqn:Ex.
      + apply andb_true_iff in Ex. destruct Ex as [_ Ex]. apply existsb_exists in Ex. destruct Ex as (d' & Hi & Ed). apply Nat.eqb_eq in Ed. subst d'. rewrite (IH vis out Hn2 Hout' Hv). split; [intros H x [<-|Hx]; auto|intros H x Hx; apply H; now right].
      + assert (Eh : dhas out (KSize n i) = false) by (destruct (dhas out (KSize n i)) eqn:E; [apply dhas_keys in E; destruct (Hout (KSize n i)); [now left|exact E]|reflexivity]). rewrite Eh. cbn [negb assert_ bind]. destruct (dim_entry o (src d)) as [e|x] eqn:Ee; cbn [bind].
        * assert (Hc : can_store o (src d)) by (apply Hd; eauto). rewrite IH; [split; [intros H y [<-|Hy]; auto|intros H y Hy; apply H; now right]|exact Hn2| |intros y [<-|Hy]; auto].
          destruct e as [v|]; [|exact Hout']. intros k Hk Hi. unfold dkeys in Hi. rewrite map_app, in_app_iff in Hi. destruct Hi as [Hi|[<-|[]]]; [|contradiction]. exact (Hout' k Hk Hi).
        * split; [intros (r & H); discriminate|]. intros H. destruct (proj2 (Hd (src d)) (H d (or_introl eq_refl))) as (e & H'). congruence. }
  apply G; [exact Hn|intros k _ []|intros d []].
Qed.
Print Assumptions C143_store.

(** Without duplicate dims, the size of a dim is stored once only, however many tensors have it. *)
Theorem C143_once : forall (V : Type) o (td : list (string * @tensor V)) src raws n i t n' i' t' d, dict_ok td -> o_exclude o = true -> as_raw_tensor_dict o td src = Ok raws ->
  In (KSize n i) (dkeys raws) -> In (n, t) td -> nth_error (t_dims t) i = Some d ->
  In (KSize n' i') (dkeys raws) -> In (n', t') td -> nth_error (t_dims t') i' = Some d -> n = n' /\ i = i'.
Proof.
  intros V o td src raws n i t n' i' t' d Hok Ho E K1 T1 N1 K2 T2 N2. unfold as_raw_tensor_dict in E. destruct (negb _); cbn in E; [|discriminate]. destruct (write_once o src (rounds td) [] [] raws Ho E) as (l & H1 & _ & H3 & H4).
  assert (G : forall n i t, In (KSize n i) (dkeys raws) -> In (n, t) td -> nth_error (t_dims t) i = Some d -> In (n, i, d) l).
  { clear - H3 H4 Hok. intros n i t K T N. destruct (H4 n i K) as [[]|(d' & H)]. destruct (in_rounds td n i d' (H3 _ _ _ H)) as (t' & T' & N'). assert (Et : t' = t) by (apply (In_dget td n t Hok) in T; apply (In_dget td n t' Hok) in T'; congruence). subst t'. rewrite N in N'. injection N' as <-. exact H. }
  specialize (G n i t K1 T1 N1) as G1. specialize (G n' i' t' K2 T2 N2) as G2. assert (P : (n, i, d) = (n', i', d)); [|injection P; auto].
  clear - H1 G1 G2. induction l as [|x l IH]; [contradiction|]. cbn in H1. inversion H1 as [|? ? Hn Hd]; subst. destruct G1 as [->|G1], G2 as [G2|G2]; [exact G2| | |now apply IH].
  - destruct Hn. apply (in_map snd) in G2. exact G2.
  - subst x. destruct Hn. apply (in_map snd) in G1. exact G1.
Qed.
Print Assumptions C143_once.

(** Only such sizes are stored as the options tell: those of static dims only with constant sizes, one number for the whole batch only with scalars. *)
Theorem C143_sizes : forall (V : Type) o (td : list (string * @tensor V)) src raws n t i d v, dict_ok td -> as_raw_tensor_dict o td src = Ok raws ->
  In (n, t) td -> nth_error (t_dims t) i = Some d -> dget raws (KSize n i) = Some v -> (d_batch (src d) = true -> forall h w, d_ext (src d) = Some (h, w) -> h = false) ->
  (is_static (src d) -> o_const o = true /\ exists size, d_size (src d) = Some size /\ v = RInt size) /\
  (~ is_static (src d) -> has_size (src d) v /\ (is_scalar (src d) -> o_scalar o = true)).
Proof.
  intros V o td src raws n t i d v Hok E Ht Hi Hv Hb. unfold as_raw_tensor_dict in E. destruct (negb _); cbn in E; [|discriminate]. destruct (write_sizes o src _ _ _ _ E n i v (dget_In _ _ _ Hv)) as [[]|(d' & H1 & H2)].
  destruct (in_rounds td n i d' H1) as (t' & T' & N'). assert (Et : t' = t) by (apply (In_dget td n t Hok) in Ht; apply (In_dget td n t' Hok) in T'; congruence). subst t'. rewrite Hi in N'. injection N' as <-. clear - H2 Hb.
  destruct (src d) as [b sz ext val]. unfold dim_entry, is_static, is_scalar, has_size in *. cbn in *. destruct b; cbn [andb] in H2.
  - split; [intros [H _]; discriminate|]. intros _. destruct ext as [[h [|w|m]]|].
    + destruct (o_scalar o); [|discriminate]. destruct val as [w|]; cbn in H2; [|discriminate]. injection H2 as <-. split; [right; eauto|auto].
    + rewrite (Hb eq_refl h _ eq_refl), orb_false_r in *. destruct (o_scalar o); [|discriminate]. injection H2 as <-. split; [left; exists false; split; [reflexivity|discriminate]|auto].
    + rewrite (Hb eq_refl h _ eq_refl), orb_false_r in *. destruct (o_scalar o); [|discriminate]. injection H2 as <-. split; [left; exists false; split; [reflexivity|discriminate]|auto].
    + destruct (o_scalar o); [|discriminate]. destruct val as [w|]; cbn in H2; [|discriminate]. injection H2 as <-. split; [right; eauto|auto].
  - destruct ext as [[h w]|].
    + split; [intros [_ H]; discriminate|]. intros _. destruct (o_scalar o || h) eqn:Eo; [|discriminate]. injection H2 as <-. split; [left; exists h; split; [reflexivity|discriminate]|]. intros [H|(w' & H)]; [discriminate|]. injection H as -> ->. now rewrite orb_false_r in Eo.
    + split; [|intros H; exfalso; apply H; auto]. intros _. destruct sz as [m|]; [|discriminate]. destruct (o_scalar o), (o_const o); try discriminate. injection H2 as <-. eauto.
Qed.
Print Assumptions C143_sizes.

(** And with duplicates and constant sizes, the size of each dim of each tensor is stored. *)
Theorem C143_all_sizes : forall (V : Type) o (td : list (string * @tensor V)) src raws n t i d, dict_ok td -> as_raw_tensor_dict o td src = Ok raws -> o_exclude o = false -> o_const o = true ->
  In (n, t) td -> nth_error (t_dims t) i = Some d -> exists v, dget raws (KSize n i) = Some v.
Proof.
  intros V o td src raws n t i d Hok E Ho Hc Ht Hi. unfold as_raw_tensor_dict in E. destruct (o_scalar o) eqn:Es; [|rewrite Hc in E; discriminate]. rewrite andb_false_r in E. cbn [negb assert_ bind] in E.
  destruct (write_ok o src (rounds td) [] [] raws (rounds_nodup td Hok) (NoDup_nil _) E) as (_ & _ & _ & Hcov). destruct (covered_in o src raws _ _ n i d Ho Hcov (rounds_in td n t i d Ht Hi)) as (e & He & <-).
  unfold dim_entry in He. rewrite Es, Hc in He. cbn [andb orb] in He. destruct (d_batch (src d) && _); [destruct (d_value (src d)) as [v|]; cbn in He; [|discriminate]; injection He as <-; eauto|]. destruct (d_ext (src d)) as [[h v]|]; [injection He as <-; eauto|]. destruct (d_size (src d)) as [m|]; [|discriminate]. injection He as <-. eauto.
Qed.
Print Assumptions C143_all_sizes.

(** Whatever raw tensors it is read from, it is an error if a tensor is missing, or if there is another size for a static dim; otherwise each tensor is as it is there. *)
Theorem C143_assign : forall (V : Type) o (td : list (string * @tensor V)) s raws,
  (forall l s', assign_from_raw_tensor_dict o td s raws = Ok (l, s') -> map fst l = map fst td /\ forall n v, In (n, v) l -> dget raws (KData n) = Some v) /\
  (forall n t i d size v, o_exclude o = false -> In (n, t) td -> nth_error (t_dims t) i = Some d -> is_static (s d) -> d_size (s d) = Some size -> dget raws (KSize n i) = Some v -> v <> RInt size ->
    exists e, assign_from_raw_tensor_dict o td s raws = Err e).
Proof.
  intros V o td s raws. unfold assign_from_raw_tensor_dict. split.
  - intros l s' E. destruct (read_sound o raws _ _ _ _ _ E) as (H1 & H2 & _). rewrite tensors_of_rounds, map_map in H1. auto.
  - intros n t i d size v Ho Ht Hi Hs Hz Hv Hne. destruct (read o raws (rounds td) [] s) as [[l s']|e] eqn:E; [|eauto]. destruct (read_sound o raws _ _ _ _ _ E) as (_ & _ & H3). specialize (H3 Ho n i d v (rounds_in td n t i d Ht Hi) Hs Hv). rewrite Hz in H3. contradiction.
Qed.
Print Assumptions C143_assign.

(** A batch dim 0 of three sequences, the time 1 with lengths, the features 2; two tensors *)
Definition ex_store : @store (list nat) := fun d =>
  match d with 0 => {| d_batch := true; d_size := None; d_ext := None; d_value := Ok (RInt 3) |} | 1 => {| d_batch := false; d_size := None; d_ext := Some (true, RVal [5; 4; 2]); d_value := Err OtherException |}
  | _ => {| d_batch := false; d_size := Some 7; d_ext := None; d_value := Ok (RInt 7) |} end.
Definition ex_empty : @store (list nat) := fun d =>
  match d with 0 => {| d_batch := true; d_size := None; d_ext := None; d_value := Err OtherException |} | 1 => {| d_batch := false; d_size := None; d_ext := Some (true, RNone); d_value := Err OtherException |}
  | _ => {| d_batch := false; d_size := Some 7; d_ext := None; d_value := Ok (RInt 7) |} end.
Definition ex_td : list (string * @tensor (list nat)) := [("data", {| t_dims := [0; 1; 2]; t_raw := RVal [1] |}); ("classes", {| t_dims := [0; 1]; t_raw := RVal [2] |})]%string.
Example C143_ex : dict_ok ex_td /\ (forall d, In d (all_dims ex_td) -> same_kind (ex_store d) (ex_empty d)) /\
  as_raw_tensor_dict {| o_const := false; o_scalar := true; o_exclude := true |} ex_td ex_store =
    Ok [(KData "data", RVal [1]); (KSize "data" 0, RInt 3); (KSize "data" 1, RVal [5; 4; 2]); (KData "classes", RVal [2])]%string /\
  as_raw_tensor_dict {| o_const := true; o_scalar := true; o_exclude := false |} ex_td ex_store =
    Ok [(KData "data", RVal [1]); (KSize "data" 0, RInt 3); (KSize "data" 1, RVal [5; 4; 2]); (KSize "data" 2, RInt 7); (KData "classes", RVal [2]); (KSize "classes" 0, RInt 3); (KSize "classes" 1, RVal [5; 4; 2])]%string /\
  as_raw_tensor_dict {| o_const := false; o_scalar := false; o_exclude := true |} ex_td ex_store = Ok [(KData "data", RVal [1]); (KSize "data" 1, RVal [5; 4; 2]); (KData "classes", RVal [2])]%string /\
  as_raw_tensor_dict {| o_const := true; o_scalar := false; o_exclude := true |} ex_td ex_store = Err AssertionError /\
  as_raw_tensor_dict {| o_const := false; o_scalar := true; o_exclude := true |} ex_td ex_empty = Err OtherException.
Proof.
  split; [repeat constructor; cbn; intuition discriminate|]. split; [|repeat split; reflexivity]. intros d Hd. cbn in Hd. assert (H : d = 0 \/ d = 1 \/ d = 2) by intuition lia. destruct H as [->|[->| ->]]; unfold same_kind; cbn; repeat split; auto; intros h v H; discriminate.
Qed.
