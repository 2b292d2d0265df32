From Verif Require Import Base ListLemmas ConvModel ConvSpec ConvProofs PadOpsModel PadOpsSpec.
Local Open Scope nat_scope.

Section Frames.
Context {A : Type}.

(** * general *)
Lemma mapM_combine_F2 {X Y Z'} (P : X -> Y -> Prop) (f : X * Y -> res Z') (g : X -> Y -> Z') l l' :
  Forall2 P l l' -> (forall x y, P x y -> f (x, y) = Ok (g x y)) ->
  mapM f (combine l l') = Ok (map (fun p => g (fst p) (snd p)) (combine l l')).
Proof. intros H Hf. induction H as [|a b l l' Hab H IH]; cbn; auto. rewrite (Hf _ _ Hab), IH. reflexivity. Qed.

Lemma list_max_map_mono (f : nat -> nat) ls :
  (forall a b, a <= b -> f a <= f b) -> ls <> [] -> list_max (map f ls) = f (list_max ls).
Proof.
  intros Hm Hne. induction ls as [|n ls IH]; [easy|]. cbn [map list_max fold_right]. destruct ls as [|n' ls].
  - cbn. rewrite !Nat.max_0_r. reflexivity.
  - fold (list_max (map f (n' :: ls))). fold (list_max (n' :: ls)). rewrite IH by easy.
    set (k := list_max (n' :: ls)). clearbody k. destruct (Nat.max_spec n k) as [[L ->]|[L ->]].
    + apply Nat.max_r. apply Hm. lia.
    + apply Nat.max_l. apply Hm. lia.
Qed.

(** a batch is given by its rows *)
Lemma padded_map {T U} (g : nat -> nat) (R : list T -> list U) xs lens (rows : list (list T)) (out : list (list U)) :
  padded xs lens rows -> (forall a b, a <= b -> g a <= g b) ->
  (forall x, In x xs -> length (R x) = g (length x)) ->
  length out = length rows ->
  (forall i x row o, nth_error xs i = Some x -> nth_error rows i = Some row -> nth_error out i = Some o ->
     (exists junk, row = x ++ junk) -> length row = list_max lens ->
     (exists junk, o = R x ++ junk) /\ length o = g (list_max lens)) ->
  padded (map R xs) (map g lens) out.
Proof.
  intros [-> H] Hm HR Hl Hi. split.
  - rewrite !map_map. apply map_ext_in. intros x Hx. symmetry. auto.
  - assert (Hne : xs = [] \/ map (@length T) xs <> []) by (destruct xs; [left; auto|right; discriminate]).
    destruct Hne as [->|Hne].
    + inversion H; subst. destruct out; [constructor|discriminate].
    + rewrite list_max_map_mono by auto. set (M := list_max _) in *. clearbody M. clear Hne HR.
      revert out Hl Hi. induction H as [|x row xs rows [Hx Hr] H IH]; intros out Hl Hi.
      * destruct out; [constructor|discriminate].
      * destruct out as [|o out]; [discriminate|]. constructor.
        -- apply (Hi 0 x row o); auto.
        -- apply IH; [cbn in Hl; lia|]. intros i. apply (Hi (S i)).
Qed.

Lemma padded_len {T} (xs : list (list T)) lens rows : padded xs lens rows -> length lens = length rows /\ length xs = length rows.
Proof. intros [-> H]. apply Forall2_len in H. rewrite map_length. auto. Qed.

Lemma nth_error_combine {X Y} (l : list X) (l' : list Y) i :
  nth_error (combine l l') i = match nth_error l i, nth_error l' i with Some a, Some b => Some (a, b) | _, _ => None end.
Proof.
  revert l' i. induction l as [|a l IH]; intros [|b l'] [|i]; cbn; auto.
  - destruct (nth_error l i); auto.
Qed.

Lemma repeat_cat {T} (v : T) a b : repeat v a ++ repeat v b = repeat v (a + b).
Proof. symmetry. apply repeat_app. Qed.
Lemma nth_error_repeat' {T} (v : T) k i : i < k -> nth_error (repeat v k) i = Some v.
Proof. revert i. induction k as [|k IH]; intros [|i] H; cbn; try lia; auto. apply IH. lia. Qed.

(** * pad *)
Lemma padded_nth {T} (xs : list (list T)) lens rows i x row :
  padded xs lens rows -> nth_error xs i = Some x -> nth_error rows i = Some row ->
  nth_error lens i = Some (length x) /\ (exists junk, row = x ++ junk) /\ length row = list_max lens.
Proof.
  intros [-> H] Hx Hr. split.
  - rewrite nth_error_map, Hx. reflexivity.
  - destruct (Forall2_nth_l _ _ _ _ _ H Hx) as (r & Er & P). rewrite Hr in Er. injection Er as <-. auto.
Qed.

Theorem pad_ok zero handle l r (v : A) (xs : list (list A)) lens rows :
  padded xs lens rows -> (handle = true \/ r = 0) ->
  exists olens out, pad zero handle l r (Scalar v) lens rows = Ok (olens, out) /\
    padded (map (fun x => repeat v l ++ x ++ repeat v r) xs) olens out.
Proof.
  intros Hp Hh. pose proof Hp as [El HF]. unfold pad. cbn [pad_rows].
  set (rows1 := map (fun row => repeat v l ++ row ++ repeat v r) rows).
  assert (Hmono : forall a b, a <= b -> l + a + r <= l + b + r) by (intros; lia).
  assert (HR : forall x, In x xs -> length (repeat v l ++ x ++ repeat v r) = l + length x + r)
    by (intros; rewrite !app_length, !repeat_length; lia).
  assert (Base : r = 0 -> padded (map (fun x => repeat v l ++ x ++ repeat v r) xs) (map (fun n => l + n + r) lens) rows1).
  { intros ->. apply (padded_map (fun n => l + n + 0) (fun x => repeat v l ++ x ++ repeat v 0) _ _ _ _ Hp Hmono HR).
    - unfold rows1. apply map_length.
    - intros i x row o Hx Hr Ho [junk E] Hl. unfold rows1 in Ho. rewrite nth_error_map, Hr in Ho. injection Ho as <-.
      cbn [repeat]. rewrite !app_nil_r. split.
      + exists junk. rewrite E, !app_assoc. reflexivity.
      + rewrite app_length, repeat_length, Hl. lia. }
  destruct (Nat.eqb_spec r 0) as [Er|Er].
  - exists (map (fun n => l + n + r) lens), rows1. split; [|auto]. destruct handle; auto. unfold pad_masking.
    rewrite (proj2 (Nat.eqb_eq r 0) Er). reflexivity.
  - destruct Hh as [->|]; [|lia]. unfold pad_masking. rewrite (proj2 (Nat.eqb_neq r 0) Er). rewrite list_max_dim_value.
    rewrite (mapM_combine_F2 (fun n row => length row = l + list_max lens + r) _ (fun n row => masked v (l + n) row)).
    + cbn [bind]. eexists _, _. split; [reflexivity|].
      apply (padded_map (fun n => l + n + r) (fun x => repeat v l ++ x ++ repeat v r) _ _ _ _ Hp Hmono HR).
      * rewrite map_length, combine_length. unfold rows1. rewrite map_length. destruct (padded_len _ _ _ Hp). lia.
      * intros i x row o Hx Hr Ho [junk E] Hl. rewrite nth_error_map, nth_error_combine in Ho.
        destruct (padded_nth _ _ _ _ _ _ Hp Hx Hr) as (En & _ & _). rewrite En in Ho. unfold rows1 in Ho.
        rewrite nth_error_map, Hr in Ho. cbn [option_map fst snd] in Ho. injection Ho as <-.
        assert (EM : repeat v l ++ row ++ repeat v r = (repeat v l ++ x) ++ (junk ++ repeat v r)) by (rewrite E, !app_assoc; reflexivity).
        rewrite EM. replace (l + length x) with (length (repeat v l ++ x)) by (rewrite app_length, repeat_length; lia).
        rewrite masked_app. rewrite <- !app_assoc. split.
        -- exists (repeat v (length junk)). rewrite app_length, repeat_length. rewrite <- !app_assoc. do 2 f_equal.
           rewrite repeat_cat. f_equal. lia.
        -- repeat rewrite ?app_length, ?repeat_length.
           pose proof (f_equal (@length A) E) as EL. rewrite app_length in EL. lia.
    + assert (G : forall i n row, nth_error lens i = Some n -> nth_error rows1 i = Some row -> length row = l + list_max lens + r).
      { intros i n row Hn Hr. unfold rows1 in Hr. rewrite nth_error_map in Hr. destruct (nth_error rows i) as [row0|] eqn:E0; [|discriminate].
        injection Hr as <-. rewrite !app_length, !repeat_length.
        assert (exists x, nth_error xs i = Some x) as [x Hx].
        { destruct (nth_error xs i) eqn:Ex; eauto. apply nth_error_None in Ex. destruct (padded_len _ _ _ Hp) as [_ El'].
          assert (i < length rows) by (apply nth_error_Some; congruence). lia. }
        destruct (padded_nth _ _ _ _ _ _ Hp Hx E0) as (_ & _ & Hlen). lia. }
      assert (EL : length lens = length rows1) by (unfold rows1; rewrite map_length; apply (padded_len _ _ _ Hp)).
      set (M := l + list_max lens + r) in *. clearbody M rows1. clear - G EL. revert rows1 G EL.
      induction lens as [|n ls IH]; intros [|row rows1] G EL; try discriminate; constructor.
      * apply (G 0 n row); auto.
      * apply IH; [intros i; apply (G (S i))|cbn in EL; lia].
    + intros n row Hlen. cbn [fst snd]. unfold where_before. rewrite Hlen, Nat.eqb_refl. reflexivity.
Qed.

Lemma narrow_ok s k (row : list A) : s + k <= length row -> narrow (Z.of_nat s) (Z.of_nat k) row = Ok (firstn k (skipn s row)).
Proof.
  intros H. unfold narrow. rewrite (proj2 (Z.ltb_ge (Z.of_nat k) 0)) by lia.
  rewrite (proj2 (Z.ltb_ge (Z.of_nat s) (- Z.of_nat (length row)))) by lia.
  rewrite (proj2 (Z.ltb_ge (Z.of_nat (length row)) (Z.of_nat s))) by lia. cbn [orb].
  rewrite (proj2 (Z.ltb_ge (Z.of_nat s) 0)) by lia.
  rewrite (proj2 (Z.ltb_ge (Z.of_nat (length row) - Z.of_nat k) (Z.of_nat s))) by lia. rewrite !Nat2Z.id. reflexivity.
Qed.

Lemma firstn_skipn_app s k (x junk : list A) : s + k <= length x -> firstn k (skipn s (x ++ junk)) = firstn k (skipn s x).
Proof.
  intros H. rewrite skipn_app. rewrite firstn_app. rewrite skipn_length. replace (k - (length x - s)) with 0 by lia.
  cbn. apply app_nil_r.
Qed.

Lemma narrow_batch s ks (ys : list (list A)) plens prows :
  padded ys plens prows -> Forall2 (fun k y => s + k <= length y) ks ys ->
  exists out, mapM (narrow (Z.of_nat s) (Z.of_nat (dim_value ks))) prows = Ok out /\
    padded (map (fun ky => firstn (fst ky) (skipn s (snd ky))) (combine ks ys)) ks out.
Proof.
  intros [-> H] Hk. rewrite list_max_dim_value. set (M := list_max (map (@length A) ys)) in *.
  assert (HM : ys = [] \/ s + list_max ks <= M).
  { destruct ys as [|y0 ys]; [auto|right]. inversion Hk as [|k0 ? ks' ? Hk0 Hk']; subst.
    assert (In y0 (y0 :: ys)) as Hin by (left; auto). pose proof (in_len _ _ Hin) as L0. fold M in L0.
    assert (list_max (k0 :: ks') <= M - s); [|lia]. apply list_max_le. apply Forall_forall. intros k Hi.
    apply In_nth_error in Hi as [i Hi]. destruct (Forall2_nth_l _ _ _ _ _ Hk Hi) as (y & Hy & Hle).
    apply nth_error_In in Hy. pose proof (in_len _ _ Hy). fold M in H0. lia. }
  destruct HM as [->|HM].
  - inversion H; subst. inversion Hk; subst. exists []. split; auto. split; auto.
  - exists (map (fun row => firstn (list_max ks) (skipn s row)) prows). split.
    + rewrite (mapM_ext _ (fun row => Ok (firstn (list_max ks) (skipn s row)))).
      * apply mapM_total. auto.
      * intros row Hi. apply In_nth_error in Hi as [i Hi]. 
        assert (length row = M).
        { clearbody M. clear HM Hk. clear - H Hi. revert i Hi. induction H as [|a b l l' [_ Hl] H IH]; intros [|i] Hi; cbn in *; try discriminate; eauto. congruence. }
        apply narrow_ok. lia.
    + assert (Hle : forall k, In k ks -> k <= list_max ks) by (intros; apply le_list_max; auto).
      set (K := list_max ks) in *. split.
      * clear - Hk. induction Hk as [|k y ks ys Hky Hk IH]; cbn [combine map fst snd]; auto. f_equal; auto.
        rewrite firstn_length, skipn_length. lia.
      * fold K. clearbody K M. revert prows H. induction Hk as [|k y ks ys Hky Hk IH]; intros prows H; inversion H as [|? row ? rows' [[junk E] Hl] H']; subst;
          cbn [combine map fst snd]; constructor.
        -- split.
           ++ exists (skipn k (firstn K (skipn s (y ++ junk)))).
              assert (k <= K) by (apply Hle; left; auto).
              rewrite <- (firstn_skipn_app s k y junk) by auto.
              replace (firstn k (skipn s (y ++ junk))) with (firstn k (firstn K (skipn s (y ++ junk)))).
              ** symmetry. apply firstn_skipn.
              ** rewrite firstn_firstn. rewrite Nat.min_l by auto. reflexivity.
           ++ rewrite firstn_length, skipn_length. lia.
        -- apply IH; auto. intros; apply Hle; right; auto.
Qed.

(** * shift *)
Lemma frame_nth v (x : list A) t : frame v x (Z.of_nat t) = nth t x v.
Proof. unfold frame. rewrite (proj2 (Z.ltb_ge _ _)) by lia. rewrite Nat2Z.id. reflexivity. Qed.
Lemma nth_firstn' {T} (l : list T) k i d : i < k -> nth i (firstn k l) d = nth i l d.
Proof. revert k i. induction l as [|a l IH]; intros [|k] [|i] H; cbn; try lia; auto. apply IH. lia. Qed.
Lemma nth_error_firstn' {T} (l : list T) k i : i < k -> nth_error (firstn k l) i = nth_error l i.
Proof. revert k i. induction l as [|a l IH]; intros [|k] [|i] H; cbn; try lia; auto. apply IH. lia. Qed.
Lemma nth_error_skipn' {T} (l : list T) k i : nth_error (skipn k l) i = nth_error l (k + i).
Proof. revert l. induction k as [|k IH]; intros [|a l]; cbn; auto. destruct i; auto. Qed.

Lemma combine_self_map {X Y Z'} (f : X -> Y) (g : X -> Z') (l : list X) :
  combine (map f l) (map g l) = map (fun a => (f a, g a)) l.
Proof. induction l as [|a l IH]; cbn; f_equal; auto. Qed.
Lemma Forall2_self_map {X Y Z'} (P : Y -> Z' -> Prop) (f : X -> Y) (g : X -> Z') l :
  (forall a, In a l -> P (f a) (g a)) -> Forall2 P (map f l) (map g l).
Proof. induction l as [|a l IH]; intros H; cbn; constructor; auto. - apply H; left; auto. - apply IH; intros; apply H; right; auto. Qed.

Theorem shift_right_ok zero handle a (v : A) (xs : list (list A)) lens rows :
  padded xs lens rows ->
  exists ys out, shift_right zero handle a (Scalar v) lens rows = Ok (lens, out) /\ padded ys lens out /\
    Forall2 (moved v (Z.of_nat a)) xs ys.
Proof.
  intros Hp. destruct (pad_ok zero handle a 0 v xs lens rows Hp (or_intror eq_refl)) as (pl & pr & E & Hpp).
  unfold shift_right. rewrite E. cbn [bind]. unfold slice, slice_out. cbn [Nat.eqb assert_ bind].
  pose proof Hp as [El _]. subst lens. cbn [Z.of_nat].
  destruct (narrow_batch 0 (map (@length A) xs) _ _ _ Hpp) as (out & Eo & Ho).
  { apply Forall2_self_map. intros y _. rewrite !app_length, !repeat_length. lia. }
  change (Z.of_nat 0) with 0%Z in Eo. rewrite Eo. cbn [bind]. eexists _, out. split; [reflexivity|]. split; [exact Ho|].
  rewrite combine_self_map, map_map. cbn [fst snd skipn]. clear.
  induction xs as [|x xs IH]; cbn [map]; constructor; auto. cbn [repeat]. rewrite app_nil_r. split.
  - rewrite firstn_length, app_length, repeat_length. lia.
  - intros t Ht. rewrite nth_error_firstn' by auto. destruct (Nat.lt_ge_cases t a) as [L|L].
    + rewrite nth_error_app1 by (rewrite repeat_length; auto). rewrite nth_error_repeat' by auto. unfold frame.
      rewrite (proj2 (Z.ltb_lt _ _)) by lia. reflexivity.
    + rewrite nth_error_app2 by (rewrite repeat_length; auto). rewrite repeat_length.
      replace (Z.of_nat t - Z.of_nat a)%Z with (Z.of_nat (t - a)) by lia. rewrite frame_nth. apply nth_error_nth'. lia.
Qed.

Theorem shift_left_ok zero a (v : A) (xs : list (list A)) lens rows :
  padded xs lens rows ->
  exists ys out, shift_left zero a (Scalar v) lens rows = Ok (lens, out) /\ padded ys lens out /\
    Forall2 (moved v (- Z.of_nat a)) xs ys.
Proof.
  intros Hp. destruct (pad_ok zero true 0 a v xs lens rows Hp (or_introl eq_refl)) as (pl & pr & E & Hpp).
  unfold shift_left. rewrite E. cbn [bind]. unfold slice, slice_out. cbn [Nat.eqb assert_ bind].
  pose proof Hp as [El _]. subst lens.
  destruct (narrow_batch a (map (@length A) xs) _ _ _ Hpp) as (out & Eo & Ho).
  { apply Forall2_self_map. intros y _. rewrite !app_length, !repeat_length. lia. }
  rewrite Eo. cbn [bind]. eexists _, out. split; [reflexivity|]. split; [exact Ho|].
  rewrite combine_self_map, map_map. cbn [fst snd]. clear.
  induction xs as [|x xs IH]; cbn [map]; constructor; auto. cbn [repeat app]. split.
  - rewrite firstn_length, skipn_length, app_length, repeat_length. lia.
  - intros t Ht. rewrite nth_error_firstn', nth_error_skipn' by auto.
    replace (Z.of_nat t - - Z.of_nat a)%Z with (Z.of_nat (a + t)) by lia. rewrite frame_nth.
    destruct (Nat.lt_ge_cases (a + t) (length x)) as [L|L].
    + rewrite nth_error_app1 by auto. apply nth_error_nth'. auto.
    + rewrite nth_error_app2 by auto. rewrite nth_error_repeat' by lia. rewrite nth_overflow by auto. reflexivity.
Qed.

(** a tensor value, appended *)
Theorem pad_tensor_ok zero handle (vs : list A) (xs : list (list A)) lens rows :
  padded xs lens rows -> length vs = length xs -> handle = true ->
  exists olens out, pad zero handle 0 1 (PerSeq vs) lens rows = Ok (olens, out) /\
    padded (map (fun vx => snd vx ++ [fst vx]) (combine vs xs)) olens out.
Proof.
  intros [-> H] Hv ->. unfold pad. cbn [pad_rows pad_masking Nat.eqb]. rewrite list_max_dim_value. cbn [plus].
  set (M := list_max (map (@length A) xs)) in *.
  exists (map (fun n => n + 1) (map (@length A) xs)).
  assert (G : exists out,
    mapM (fun vnr : A * (nat * list A) => where_before (M + 1) (fst (snd vnr)) (fst vnr) (snd (snd vnr)))
      (combine vs (combine (map (@length A) xs) (map (fun vr : A * list A => snd vr ++ [fst vr]) (combine vs rows)))) = Ok out /\
    Forall2 (fun x row => (exists junk, row = x ++ junk) /\ length row = M + 1) (map (fun vx => snd vx ++ [fst vx]) (combine vs xs)) out).
  { assert (HM : forall x, In x xs -> length x <= M) by (intros; apply in_len; auto).
    clearbody M. revert vs Hv. induction H as [|x row xs rows [[junk E] Hl] H IH]; intros [|v vs] Hv; try discriminate.
    - exists []. split; auto. constructor.
    - destruct (IH ltac:(intros; apply HM; right; auto) vs ltac:(cbn in Hv; lia)) as (out & Eo & Fo).
      cbn [combine map mapM fst snd]. unfold where_before at 1. rewrite app_length, Hl. cbn [length]. rewrite Nat.eqb_refl. cbn [bind].
      eexists. split.
      + rewrite Eo. cbn [bind]. reflexivity.
      + constructor; auto. rewrite E, <- app_assoc, masked_app. rewrite app_length, Nat.add_1_r. cbn [length repeat]. split.
        * exists (repeat v (length junk)). rewrite <- app_assoc. cbn [app]. reflexivity.
        * rewrite E in Hl. rewrite app_length in Hl. rewrite app_length. cbn [length]. rewrite repeat_length. lia. }
  destruct G as (out & Eo & Fo). exists out. split.
  - cbn [bind]. rewrite Eo. cbn [bind]. reflexivity.
  - split.
    + clear - Hv. revert vs Hv. induction xs as [|x xs IH]; intros [|v vs] Hv; try discriminate; cbn [combine map fst snd]; auto.
      rewrite app_length. cbn [length]. f_equal. apply IH. cbn in Hv. lia.
    + destruct xs as [|x0 xs0]; [destruct vs; [|discriminate]; inversion Fo; subst; constructor|].
      rewrite list_max_map_mono by (try discriminate; intros; lia). exact Fo.
Qed.

(** * reverse_sequence *)
Lemma seq_prefix a b : a <= b -> seq 0 b = seq 0 a ++ seq a (b - a).
Proof. apply seq_split'. Qed.

Lemma map_nth_seq {T} (d : T) l : map (fun t => nth t l d) (seq 0 (length l)) = l.
Proof.
  apply nth_error_ext. intros i. destruct (Nat.lt_ge_cases i (length l)) as [L|L].
  - rewrite nth_error_map, nth_error_seq by auto. cbn [option_map plus]. symmetry. apply nth_error_nth'. auto.
  - rewrite (proj2 (nth_error_None l i)) by auto. apply nth_error_None. rewrite map_length, seq_length. auto.
Qed.

Lemma gather1_nth {T} (row : list T) i d : i < length row -> gather1 row (Z.of_nat i) = Ok (nth i row d).
Proof.
  intros H. unfold gather1. rewrite (proj2 (Z.ltb_ge _ _)) by lia. rewrite Nat2Z.id.
  rewrite (nth_error_nth' row d H). reflexivity.
Qed.

Lemma reverse_row (x : list A) junk M :
  x <> [] -> length (x ++ junk) = M ->
  exists o, mapM (fun t => gather1 (x ++ junk) (clamp 0 (Z.of_nat (length x) - 1) (Z.of_nat (length x) - Z.of_nat t - 1))) (seq 0 M) = Ok o /\
    (exists j, o = rev x ++ j) /\ length o = M.
Proof.
  intros Hne HM. destruct x as [|a x']; [easy|]. set (x := a :: x') in *. clear Hne.
  assert (Hx : 0 < length x) by (unfold x; cbn; lia). clearbody x. rewrite app_length in HM.
  exists (map (fun t => nth (length x - t - 1) (x ++ junk) a) (seq 0 M)). split; [|split].
  - rewrite (mapM_ext _ (fun t => Ok (nth (length x - t - 1) (x ++ junk) a))); [apply mapM_total; auto|].
    intros t Ht. replace (clamp 0 _ _) with (Z.of_nat (length x - t - 1)).
    + apply gather1_nth. rewrite app_length. lia.
    + unfold clamp. lia.
  - rewrite (seq_prefix (length x) M) by lia. rewrite map_app. eexists. f_equal.
    rewrite <- (map_nth_seq a (rev x)). rewrite rev_length. apply map_ext_in. intros t Ht. apply in_seq in Ht.
    rewrite app_nth1 by lia. rewrite rev_nth by lia. f_equal. lia.
  - rewrite map_length, seq_length. reflexivity.
Qed.

Theorem reverse_ok (xs : list (list A)) lens rows :
  padded xs lens rows -> Forall (fun x => x <> []) xs ->
  exists out, reverse_sequence true lens rows = Ok (lens, out) /\ padded (map (@rev A) xs) lens out.
Proof.
  intros [-> H] Hne. unfold reverse_sequence. rewrite list_max_dim_value. set (M := list_max _) in *.
  assert (G : exists out,
    mapM (fun nr : nat * list A =>
            mapM (fun t => gather1 (snd nr) (clamp 0 (Z.of_nat (fst nr) - 1) (Z.of_nat (fst nr) - Z.of_nat t - 1))) (seq 0 M))
         (combine (map (@length A) xs) rows) = Ok out /\
    Forall2 (fun x row => (exists junk, row = x ++ junk) /\ length row = M) (map (@rev A) xs) out).
  { clearbody M. induction H as [|x row xs rows [[junk ->] Hl] H IH].
    - exists []. split; auto. constructor.
    - inversion Hne as [|? ? Hx Hne']; subst. destruct (IH Hne') as (out & Eo & Fo).
      destruct (reverse_row x junk (length (x ++ junk)) Hx eq_refl) as (o & E & Ho).
      exists (o :: out). split.
      + cbn [combine map mapM fst snd]. rewrite E. cbn [bind]. rewrite Eo. reflexivity.
      + cbn [map]. constructor; auto. }
  destruct G as (out & Eo & Fo). exists out. cbn [bind]. rewrite Eo. cbn [bind]. split; auto. split.
  - rewrite map_map. apply map_ext. intros. symmetry. apply rev_length.
  - exact Fo.
Qed.

(** * slice *)
Theorem slice_size_ok s st ks (xs : list (list A)) lens rows :
  padded xs lens rows -> start_of s st -> Forall2 (fun k x => s + k <= length x) ks xs ->
  exists out, slice lens rows st None 1 (SizeDim ks) = Ok (ks, out) /\
    padded (map (fun kx => firstn (fst kx) (skipn s (snd kx))) (combine ks xs)) ks out.
Proof.
  intros Hp Hs Hk. destruct (narrow_batch s ks xs lens rows Hp Hk) as (out & E & Ho). exists out. split; auto.
  unfold slice, slice_out. cbn [Nat.eqb assert_ bind].
  assert (Es : match st with NoStart => 0%Z | StartInt z => z | StartTensor z => z end = Z.of_nat s)
    by (destruct Hs as [->|[-> ->]]; reflexivity).
  rewrite Es, E. reflexivity.
Qed.

Theorem slice_from_ok s st (xs : list (list A)) lens rows :
  padded xs lens rows -> start_of s st -> s <= list_max lens ->
  exists olens out, slice lens rows st None 1 NoSize = Ok (olens, out) /\ padded (map (skipn s) xs) olens out.
Proof.
  intros Hp Hs HM. unfold slice, slice_out. cbn [Nat.eqb].
  assert (Es : match st with NoStart => 0%Z | StartInt z => z | StartTensor z => z end = Z.of_nat s)
    by (destruct Hs as [->|[-> ->]]; reflexivity).
  assert (Ed : slice_dim lens st None = Ok (map (fun n => n - s) lens)).
  { unfold slice_dim. destruct Hs as [->|[-> ->]].
    - rewrite (proj2 (Z.leb_le _ _)) by lia. f_equal. apply map_ext. intros n. unfold relu. lia.
    - cbn [Z.leb Z.compare]. f_equal. apply map_ext. intros n. unfold relu. lia. }
  rewrite Ed. cbn [bind]. rewrite Es. rewrite list_max_dim_value.
  exists (map (fun n => n - s) lens), (map (skipn s) rows). split.
  - rewrite (mapM_ext _ (fun row => Ok (skipn s row))).
    + rewrite (mapM_total (fun row => Ok (skipn s row)) (skipn s)) by auto. reflexivity.
    + intros row Hi. apply In_nth_error in Hi as [i Hi].
      assert (exists x, nth_error xs i = Some x) as [x Hx].
      { destruct (nth_error xs i) eqn:Ex; eauto. apply nth_error_None in Ex. destruct (padded_len _ _ _ Hp) as [_ El'].
        assert (i < length rows) by (apply nth_error_Some; congruence). lia. }
      destruct (padded_nth _ _ _ _ _ _ Hp Hx Hi) as (_ & _ & Hl).
      replace (Z.of_nat (list_max lens) - Z.of_nat s)%Z with (Z.of_nat (list_max lens - s)) by lia.
      rewrite narrow_ok by lia. rewrite firstn_all2; auto. rewrite skipn_length. lia.
  - apply (padded_map (fun n => n - s) (skipn s) _ _ _ _ Hp).
    + intros; lia.
    + intros; apply skipn_length.
    + apply map_length.
    + intros i x row o Hx Hr Ho [junk E] Hl. rewrite nth_error_map, Hr in Ho. injection Ho as <-. split.
      * rewrite E, skipn_app. eexists. reflexivity.
      * rewrite skipn_length. lia.
Qed.

Theorem slice_range_ok s st e (xs : list (list A)) lens rows :
  padded xs lens rows -> xs <> [] -> start_of s st -> s <= e -> Forall (fun x => e <= length x) xs ->
  exists olens out, slice lens rows st (Some (Z.of_nat e)) 1 NoSize = Ok (olens, out) /\
    padded (map (fun x => firstn (e - s) (skipn s x)) xs) olens out.
Proof.
  intros Hp Hne Hs Hse Hl.
  assert (Es : match st with NoStart => 0%Z | StartInt z => z | StartTensor z => z end = Z.of_nat s)
    by (destruct Hs as [->|[-> ->]]; reflexivity).
  destruct (narrow_batch s (map (fun _ => e - s) lens) xs lens rows Hp) as (out & E & Ho).
  { destruct Hp as [-> _]. rewrite map_map. rewrite <- (map_id xs) at 2. apply Forall2_self_map.
    intros x Hx. rewrite Forall_forall in Hl. specialize (Hl x Hx). lia. }
  exists (map (fun _ => e - s) lens), out. split.
  - unfold slice, slice_out. cbn [Nat.eqb].
    assert (Ed : slice_dim lens st (Some (Z.of_nat e)) = Ok (map (fun _ => e - s) lens)).
    { unfold slice_dim. destruct Hs as [->|[-> ->]].
      - rewrite (proj2 (Z.leb_le _ _)) by lia. rewrite (proj2 (Z.ltb_ge (Z.of_nat e) 0)) by lia.
        rewrite (proj2 (Z.ltb_ge _ _)) by lia. f_equal. apply map_ext. intros; lia.
      - cbn [Z.leb Z.compare]. rewrite (proj2 (Z.ltb_ge (Z.of_nat e) 0)) by lia.
        rewrite (proj2 (Z.ltb_ge _ _)) by lia. f_equal. apply map_ext. intros; lia. }
    rewrite Ed. cbn [bind]. rewrite Es. replace (Z.of_nat e - Z.of_nat s)%Z with (Z.of_nat (e - s)) by lia.
    rewrite list_max_dim_value in E. rewrite list_max_map_mono in E.
    + rewrite E. reflexivity.
    + auto.
    + destruct Hp as [-> _]. destruct xs; [easy|discriminate].
  - destruct Hp as [-> _]. rewrite map_map in *. rewrite <- (map_id xs) in Ho at 2. rewrite combine_self_map in Ho.
    rewrite map_map in Ho. exact Ho.
Qed.

(** * window *)
Definition wins (d : A) (s W m : nat) (q : list A) : list (list A) :=
  map (fun t => map (fun w => nth (t * s + w) q d) (seq 0 W)) (seq 0 m).

Lemma nth_concat_repeat (p : list A) k j i d : j < k -> i < length p -> nth (j * length p + i) (concat (repeat p k)) d = nth i p d.
Proof.
  revert j. induction k as [|k IH]; intros [|j] Hj Hi; try lia; cbn [repeat concat].
  - cbn. apply app_nth1. auto.
  - rewrite app_nth2 by nia. replace (S j * length p + i - length p) with (j * length p + i) by nia. apply IH; lia.
Qed.
Lemma length_concat_repeat (p : list A) k : length (concat (repeat p k)) = k * length p.
Proof. induction k as [|k IH]; cbn [repeat concat]; auto. rewrite app_length, IH. lia. Qed.

Lemma nth_skipn' (l : list A) k i d : nth i (skipn k l) d = nth (k + i) l d.
Proof. revert l. induction k as [|k IH]; intros [|a l]; cbn; auto; destruct i; auto. Qed.

Lemma window_row1_ok zero W O value (p : list A) :
  0 < W -> length p + 1 = O + W -> window_row1 zero W O value p = Ok (wins zero 1 W O p).
Proof.
  intros HW HP. unfold window_row1, reshape2. rewrite app_length, length_concat_repeat, repeat_length.
  replace (W * length p + W =? W * (O + W)) with true by (symmetry; apply Nat.eqb_eq; nia). cbn [bind].
  set (v := match value with Scalar v => v | _ => zero end). set (flat := concat (repeat p W) ++ repeat v W).
  assert (EL : length flat = W * (O + W)) by (unfold flat; rewrite app_length, length_concat_repeat, repeat_length; nia).
  rewrite mapM_map.
  rewrite (mapM_ext _ (fun i => Ok (firstn O (skipn (i * (O + W)) flat)))).
  - rewrite (mapM_total (fun i => Ok (firstn O (skipn (i * (O + W)) flat))) (fun i => firstn O (skipn (i * (O + W)) flat))) by auto.
    cbn [bind]. f_equal. unfold wins. apply map_ext_in. intros t Ht. apply in_seq in Ht. rewrite map_map. apply map_ext_in.
    intros w Hw. apply in_seq in Hw. rewrite nth_firstn' by lia. rewrite nth_skipn'. unfold flat.
    replace (w * (O + W) + t) with (w * length p + (w + t)) by nia.
    rewrite app_nth1 by (rewrite length_concat_repeat; nia). rewrite nth_concat_repeat by lia. f_equal. lia.
  - intros i Hi. apply in_seq in Hi. change 0%Z with (Z.of_nat 0). rewrite narrow_ok.
    + cbn [skipn]. rewrite firstn_firstn. rewrite Nat.min_l by lia. reflexivity.
    + rewrite firstn_length, skipn_length, EL. assert ((i + 1) * (O + W) <= W * (O + W)) by (apply Nat.mul_le_mono_r; lia). lia.
Qed.

Lemma window_strided_ok zero W s O (p : list A) :
  0 < W -> 0 < s -> length p + 1 = O + W -> window_row_strided W s (ceildiv O s) p = Ok (wins zero s W (ceildiv O s) p).
Proof.
  intros HW Hs HP. unfold window_row_strided, wins. 
  rewrite (mapM_ext _ (fun t => Ok (map (fun w => nth (t * s + w) p zero) (seq 0 W)))); [apply mapM_total; auto|].
  intros t Ht. apply in_seq in Ht. assert (t * s < O) by (apply ceildiv_lt; auto; lia).
  rewrite (mapM_ext _ (fun w => Ok (nth (t * s + w) p zero))); [apply mapM_total; auto|].
  intros w Hw. apply in_seq in Hw. apply gather1_nth. lia.
Qed.

Lemma wins_prefix d s W m m' q junk :
  0 < s -> m <= m' -> (forall t, t < m -> t * s + W <= length q) ->
  exists j, wins d s W m' (q ++ junk) = wins d s W m q ++ j.
Proof.
  intros Hs Hm Hq. unfold wins. rewrite (seq_prefix m m') by auto. rewrite map_app. eexists. f_equal.
  apply map_ext_in. intros t Ht. apply in_seq in Ht. apply map_ext_in. intros w Hw. apply in_seq in Hw.
  apply app_nth1. specialize (Hq t ltac:(lia)). lia.
Qed.

Definition win_counts (s : nat) (os : list nat) : list nat := if 1 <? s then map (fun n => ceildiv n s) os else os.
Definition win_rows zero W s value os prows :=
  if 1 <? s then mapM (@window_row_strided A W s (dim_value (win_counts s os))) prows
  else mapM (window_row1 zero W (dim_value os) value) prows.

Lemma win_rows_ok zero W s value os (qs : list (list A)) qlens prows :
  padded qs qlens prows -> 0 < W -> 0 < s -> Forall2 (fun o q => length q + 1 = o + W) os qs ->
  exists out, win_rows zero W s value os prows = Ok out /\
    padded (map (fun oq => wins zero s W (ceildiv (fst oq) s) (snd oq)) (combine os qs)) (win_counts s os) out.
Proof.
  intros [-> H] HW Hs Ho.
  assert (Ec : win_counts s os = map (fun n => ceildiv n s) os).
  { unfold win_counts. destruct (Nat.ltb_spec 1 s); auto. replace s with 1 by lia. rewrite (map_ext _ (fun n => n)), map_id; auto.
    intros. apply ceildiv_1. }
  set (O := list_max os). set (C := ceildiv O s).
  assert (Hos : os = [] \/ os <> []) by (destruct os; [left; auto|right; discriminate]). destruct Hos as [Eos|Hne].
  { subst os. inversion Ho; subst. inversion H; subst. exists []. split; [unfold win_rows; destruct (1 <? s); reflexivity|]. rewrite Ec. split; auto. constructor. }
  assert (EC : list_max (map (fun n => ceildiv n s) os) = C).
  { unfold C, O. rewrite list_max_map_mono; auto. intros; apply ceildiv_mono; auto. }
  assert (EM : list_max (map (@length A) qs) + 1 = O + W).
  { assert (E : map (@length A) qs = map (fun o => o + W - 1) os).
    { clear - Ho. induction Ho as [|o q os qs E Ho IH]; cbn [map]; auto. f_equal; auto. lia. }
    rewrite E, list_max_map_mono by (auto; intros; lia). fold O. lia. }
  exists (map (wins zero s W C) prows). split.
  - unfold win_rows. rewrite Ec, !list_max_dim_value, EC. fold O.
    destruct (Nat.ltb_spec 1 s) as [L|L].
    + rewrite (mapM_ext _ (fun p => Ok (wins zero s W C p))); [apply mapM_total; auto|].
      intros p Hi. apply window_strided_ok; auto. apply In_nth_error in Hi as [i Hi].
      assert (length p = list_max (map (@length A) qs)); [|lia].
      set (M := list_max _) in *. clearbody M. clear - H Hi.
      revert i Hi. induction H as [|a b l l' [_ Hl] H IH]; intros [|i] Hi; cbn in *; try discriminate; eauto. congruence.
    + assert (s = 1) by lia. subst s. unfold C. rewrite ceildiv_1.
      rewrite (mapM_ext _ (fun p => Ok (wins zero 1 W O p))); [apply mapM_total; auto|].
      intros p Hi. apply window_row1_ok; auto. apply In_nth_error in Hi as [i Hi].
      assert (length p = list_max (map (@length A) qs)); [|lia].
      set (M := list_max _) in *. clearbody M. clear - H Hi.
      revert i Hi. induction H as [|a b l l' [_ Hl] H IH]; intros [|i] Hi; cbn in *; try discriminate; eauto. congruence.
  - rewrite Ec. split.
    + clear - Ho. induction Ho as [|o q os qs E Ho IH]; cbn [combine map fst snd]; auto. f_equal; auto.
      unfold wins. rewrite map_length, seq_length. reflexivity.
    + rewrite EC.
      assert (HC : forall o, In o os -> ceildiv o s <= C).
      { intros o Hi. unfold C, O. apply ceildiv_mono; auto. apply le_list_max. auto. }
      clear EC EM Hne Ec. set (M := list_max (map (@length A) qs)) in *. clearbody C M. clear O. revert prows H.
      induction Ho as [|o q os qs E Ho IH]; intros prows H; inversion H as [|? p ? ps [[junk Ep] Hl] H']; subst; cbn [combine map fst snd];
        constructor.
      * split; [|unfold wins; rewrite map_length, seq_length; reflexivity]. apply wins_prefix; auto.
        -- apply HC. left; auto.
        -- intros t Ht. apply ceildiv_lt in Ht; auto. lia.
      * apply IH; auto. intros; apply HC; right; auto.
Qed.

Lemma window_unfold zero handle use_mask same W s wl wr value lens rows :
  window zero handle use_mask same W s wl wr value lens rows =
  let rows := if use_mask then map (fun nr => masked zero (fst nr) (snd nr)) (combine lens rows) else rows in
  let* (out, prows) :=
    if same then
      let '(l, r) := window_sides W wl wr in
      let* (_, prows) := pad zero handle l r value lens rows in
      Ok (lens, prows)
    else Ok (map (fun n => n - W + 1) lens, rows) in
  let* res := win_rows zero W s value out prows in Ok (win_counts s out, res).
Proof.
  unfold window. cbv zeta.
  match goal with |- bind ?a _ = bind ?a _ => destruct a as [[o p]|e]; [|reflexivity] end. cbn [bind].
  unfold win_rows, win_counts. destruct (1 <? s); reflexivity.
Qed.

Lemma mask_padded zero use_mask (xs : list (list A)) lens rows :
  padded xs lens rows ->
  padded xs lens (if use_mask : bool then map (fun nr => masked zero (fst nr) (snd nr)) (combine lens rows) else rows).
Proof.
  intros Hp. destruct use_mask; auto. apply padded_with_padded with zero. destruct Hp as [-> H]. split; auto.
  set (m := list_max _) in *. clearbody m. induction H as [|x row xs rows [[junk ->] Hl] H IH]; cbn [combine map fst snd]; constructor; auto.
  exists (length junk). rewrite masked_app. split; auto. rewrite app_length, repeat_length. rewrite app_length in Hl. auto.
Qed.

Lemma frame_padded v l r (x : list A) d i : i < l + length x + r ->
  nth i (repeat v l ++ x ++ repeat v r) d = frame v x (Z.of_nat i - Z.of_nat l).
Proof.
  intros H. destruct (Nat.lt_ge_cases i l) as [L|L].
  - rewrite app_nth1 by (rewrite repeat_length; auto). unfold frame. rewrite (proj2 (Z.ltb_lt _ _)) by lia.
    apply nth_error_nth. apply nth_error_repeat'. auto.
  - rewrite app_nth2 by (rewrite repeat_length; auto). rewrite repeat_length.
    replace (Z.of_nat i - Z.of_nat l)%Z with (Z.of_nat (i - l)) by lia. rewrite frame_nth.
    destruct (Nat.lt_ge_cases (i - l) (length x)) as [L'|L'].
    + rewrite app_nth1 by auto. apply nth_indep. auto.
    + rewrite app_nth2 by auto. rewrite (nth_overflow x) by auto. apply nth_error_nth. apply nth_error_repeat'. lia.
Qed.

Theorem window_same_ok zero handle use_mask W s wl wr l r (v : A) (xs : list (list A)) lens rows :
  padded xs lens rows -> 0 < W -> 0 < s -> handle = true \/ r = 0 -> window_sides W wl wr = (l, r) -> l + r + 1 = W ->
  exists ys olens out, window zero handle use_mask true W s wl wr (Scalar v) lens rows = Ok (olens, out) /\ padded ys olens out /\
    Forall2 (fun x y => windows_of v W s l x y /\ same_count s x y) xs ys.
Proof.
  intros Hp HW Hs Hh Esd Hlr. rewrite window_unfold. cbv zeta. rewrite Esd.
  pose proof (mask_padded zero use_mask xs lens rows Hp) as Hm.
  destruct (pad_ok zero handle l r v xs lens _ Hm Hh) as (pl & pr & E & Hpp). rewrite E. cbn [bind].
  destruct (win_rows_ok zero W s (Scalar v) lens _ _ _ Hpp HW Hs) as (out & Eo & Ho).
  { destruct Hp as [-> _]. apply Forall2_self_map. intros x _. rewrite !app_length, !repeat_length. lia. }
  rewrite Eo. cbn [bind]. eexists _, _, _. split; [reflexivity|]. split; [exact Ho|].
  destruct Hp as [-> _]. rewrite combine_self_map, map_map. cbn [fst snd]. rewrite <- (map_id xs) at 1. apply Forall2_self_map.
  intros x _. split.
  - intros i Hi. unfold wins in *. rewrite map_length, seq_length in Hi. rewrite nth_error_map, nth_error_seq by auto.
    cbn [option_map plus]. f_equal. apply map_ext_in. intros j Hj. apply in_seq in Hj. apply ceildiv_lt in Hi; auto.
    apply frame_padded. lia.
  - intros i. unfold wins. rewrite map_length, seq_length. apply ceildiv_lt. auto.
Qed.

Theorem window_valid_ok zero handle use_mask W s wl wr value (v : A) (xs : list (list A)) lens rows :
  padded xs lens rows -> 0 < W -> 0 < s -> Forall (fun x => W <= length x) xs ->
  exists ys olens out, window zero handle use_mask false W s wl wr value lens rows = Ok (olens, out) /\ padded ys olens out /\
    Forall2 (fun x y => windows_of v W s 0 x y /\ valid_count W s x y) xs ys.
Proof.
  intros Hp HW Hs Hl. rewrite window_unfold. cbv zeta. cbn [bind].
  pose proof (mask_padded zero use_mask xs lens rows Hp) as Hm. rewrite Forall_forall in Hl.
  destruct (win_rows_ok zero W s value (map (fun n => n - W + 1) lens) _ _ _ Hm HW Hs) as (out & Eo & Ho).
  { destruct Hp as [-> _]. rewrite map_map. rewrite <- (map_id xs) at 2. apply Forall2_self_map. intros x Hx. specialize (Hl x Hx). lia. }
  rewrite Eo. cbn [bind]. eexists _, _, _. split; [reflexivity|]. split; [exact Ho|].
  destruct Hp as [-> _]. rewrite map_map. rewrite <- (map_id xs) at 3. rewrite combine_self_map, map_map. cbn [fst snd].
  rewrite <- (map_id xs) at 1. apply Forall2_self_map.
  intros x Hx. specialize (Hl x Hx). split.
  - intros i Hi. unfold wins in *. rewrite map_length, seq_length in Hi. rewrite nth_error_map, nth_error_seq by auto.
    cbn [option_map plus]. f_equal. apply map_ext_in. intros j Hj. apply in_seq in Hj. apply ceildiv_lt in Hi; auto.
    rewrite Z.sub_0_r, frame_nth. apply nth_indep. lia.
  - intros i. unfold wins. rewrite map_length, seq_length. rewrite ceildiv_lt by auto. lia.
Qed.

(** * masked_select and masked_scatter over all dims *)
Lemma list_prod_flat_map {X Y} (l : list X) (l' : list Y) : list_prod l l' = flat_map (fun a => map (fun b => (a, b)) l') l.
Proof. induction l as [|a l IH]; cbn; auto. rewrite IH. reflexivity. Qed.
Lemma map_flat_map {X Y Z'} (f : Y -> Z') (g : X -> list Y) l : map f (flat_map g l) = flat_map (fun a => map f (g a)) l.
Proof. induction l as [|a l IH]; cbn; auto. rewrite map_app, IH. reflexivity. Qed.
Lemma flat_map_ext_in {X Y} (f g : X -> list Y) l : (forall a, In a l -> f a = g a) -> flat_map f l = flat_map g l.
Proof. induction l as [|a l IH]; intros H; cbn; auto. rewrite H by (left; auto). f_equal. apply IH. intros; apply H; right; auto. Qed.
Lemma flat_map_singleton {X Y} (f : X -> Y) l : flat_map (fun a => [f a]) l = map f l.
Proof. induction l as [|a l IH]; cbn; auto. Qed.
Lemma firstn1_skipn {T} (l : list T) i : firstn 1 (skipn i l) = match nth_error l i with Some a => [a] | None => [] end.
Proof. revert l. induction i as [|i IH]; intros [|a l]; cbn; auto. rewrite <- IH. destruct l; auto. Qed.

Definition at2 {T} (d : T) (rows : list (list T)) (p : nat * nat) : T := nth (snd p) (nth (fst p) rows []) d.

Lemma flat_order_positions {T} (d : T) bm nb m rows :
  shape nb m rows -> flat_order bm m rows = map (at2 d rows) (positions bm nb m).
Proof.
  intros [Hn Hm]. rewrite Forall_forall in Hm. unfold flat_order, positions. destruct bm.
  - rewrite list_prod_flat_map, map_flat_map.
    rewrite (flat_map_ext_in _ (fun b => nth b rows [])).
    + rewrite flat_map_concat_map. subst nb. rewrite map_nth_seq. reflexivity.
    + intros b Hb. apply in_seq in Hb. rewrite map_map. unfold at2. cbn [fst snd].
      replace m with (length (nth b rows [])).
      * apply map_nth_seq.
      * apply Hm. apply nth_In. lia.
  - rewrite map_map. rewrite list_prod_flat_map, map_flat_map. apply flat_map_ext_in. intros t Ht. apply in_seq in Ht.
    rewrite map_map. unfold at2. cbn [fst snd]. rewrite (flat_map_ext_in _ (fun row => [nth t row d])).
    + rewrite flat_map_singleton. subst nb. rewrite <- (map_nth_seq [] rows) at 1. rewrite map_map. reflexivity.
    + intros row Hr. rewrite firstn1_skipn. rewrite (nth_error_nth' row d); auto. rewrite (Hm row Hr). lia.
Qed.

Lemma select_map {X T} (f : X -> T) (g : X -> bool) ps : select_flat (map f ps) (map g ps) = map f (filter g ps).
Proof. unfold select_flat. rewrite combine_self_map. induction ps as [|p ps IH]; cbn; auto. destruct (g p); cbn; congruence. Qed.

Lemma scatter_map {X} (f h : X -> A) (g : X -> bool) ps :
  scatter_flat (map f ps) (map g ps) (map h (filter g ps)) = Ok (map (fun p => if g p then h p else f p) ps).
Proof. induction ps as [|p ps IH]; cbn; auto. destruct (g p); cbn; rewrite IH; reflexivity. Qed.

Lemma nth_error_flat_map {T} (F : nat -> list T) k a n i j :
  (forall i, length (F i) = k) -> j < k -> i < n -> nth_error (flat_map F (seq a n)) (i * k + j) = nth_error (F (a + i)) j.
Proof.
  intros HF Hj. revert a i. induction n as [|n IH]; intros a [|i] Hi; try lia; cbn [seq flat_map].
  - cbn [Nat.mul plus]. rewrite nth_error_app1 by (rewrite HF; auto). rewrite Nat.add_0_r. reflexivity.
  - rewrite nth_error_app2 by (rewrite HF; nia). rewrite HF. replace (S i * k + j - k) with (i * k + j) by nia.
    rewrite IH by lia. f_equal. f_equal. lia.
Qed.
Lemma length_flat_map {T} (F : nat -> list T) k a n : (forall i, length (F i) = k) -> length (flat_map F (seq a n)) = n * k.
Proof. intros HF. revert a. induction n as [|n IH]; intros a; cbn; auto. rewrite app_length, HF, IH. reflexivity. Qed.

Lemma unflat_positions bm nb m (k : nat * nat -> A) :
  unflat_order bm nb m (map k (positions bm nb m)) = map (fun b => map (fun t => k (b, t)) (seq 0 m)) (seq 0 nb).
Proof.
  unfold unflat_order, positions. destruct bm.
  - rewrite list_prod_flat_map, map_flat_map. apply map_ext_in. intros b Hb. apply in_seq in Hb.
    set (F := fun a => map k (map (fun b0 => (a, b0)) (seq 0 m))).
    assert (HF : forall i, length (F i) = m) by (intros; unfold F; rewrite !map_length, seq_length; auto).
    apply nth_error_ext. intros t. destruct (Nat.lt_ge_cases t m) as [L|L].
    + rewrite nth_error_firstn', nth_error_skipn' by auto. rewrite (nth_error_flat_map F m 0 nb b t HF L) by lia.
      cbn [plus]. unfold F. rewrite map_map. reflexivity.
    + rewrite (proj2 (nth_error_None _ t)), (proj2 (nth_error_None _ t)); auto.
      * rewrite map_length, seq_length. auto.
      * rewrite firstn_length. lia.
  - rewrite map_map. rewrite list_prod_flat_map, map_flat_map. apply map_ext_in. intros b Hb. apply in_seq in Hb.
    set (F := fun a => map (fun x : nat * nat => k (snd x, fst x)) (map (fun b0 => (a, b0)) (seq 0 nb))).
    assert (HF : forall i, length (F i) = nb) by (intros; unfold F; rewrite !map_length, seq_length; auto).
    rewrite (flat_map_ext_in _ (fun t => [k (b, t)])); [apply flat_map_singleton|].
    intros t Ht. apply in_seq in Ht. rewrite firstn1_skipn. rewrite (nth_error_flat_map F nb 0 m t b HF) by lia. cbn [plus].
    unfold F. rewrite map_map, nth_error_map, nth_error_seq by lia. reflexivity.
Qed.

Lemma shape_cell {T} nb m (rows : list (list T)) b t d :
  shape nb m rows -> b < nb -> t < m -> cell rows b t = Some (at2 d rows (b, t)).
Proof.
  intros [Hn Hm] Hb Ht. unfold cell, at2. cbn [fst snd]. rewrite (nth_error_nth' rows [] (n:=b)) by lia.
  apply nth_error_nth'. rewrite Forall_forall in Hm. rewrite Hm; auto. apply nth_In. lia.
Qed.
Lemma cell_bounds {T} nb m (rows : list (list T)) b t a : shape nb m rows -> cell rows b t = Some a -> b < nb /\ t < m.
Proof.
  intros [Hn Hm] H. unfold cell in H. destruct (nth_error rows b) as [r|] eqn:E; [|discriminate]. rewrite Forall_forall in Hm.
  pose proof (nth_error_In _ _ E) as Hi. rewrite <- (Hm r Hi), <- Hn. split; apply nth_error_Some; congruence.
Qed.

Lemma mask_masked_shape nb m lens mask : shape nb m mask -> length lens = nb -> shape nb m (mask_masked lens mask).
Proof.
  intros [Hn Hm] Hl. unfold mask_masked. split.
  - rewrite map_length, combine_length. lia.
  - clear Hn Hl. revert lens. induction Hm as [|r mask Hr Hm IH]; intros [|n lens]; cbn; constructor; auto.
    unfold masked. rewrite map_length, combine_length, seq_length. cbn [fst snd]. lia.
Qed.

Lemma masked_nth {T} (v : T) n row i : nth_error (masked v n row) i = option_map (fun a => if i <? n then a else v) (nth_error row i).
Proof.
  unfold masked. rewrite nth_error_map, nth_error_combine. destruct (Nat.lt_ge_cases i (length row)) as [L|L].
  - rewrite nth_error_seq by auto. cbn [plus]. destruct (nth_error row i); reflexivity.
  - rewrite (proj2 (nth_error_None row i)) by auto. destruct (nth_error (seq 0 (length row)) i); reflexivity.
Qed.

Lemma mask_masked_inside nb m lens mask :
  shape nb m mask -> length lens = nb -> inside lens mask -> mask_masked lens mask = mask.
Proof.
  intros [Hn Hm] Hl Hi. subst nb. unfold mask_masked. clear Hm. revert lens Hl Hi.
  induction mask as [|r mask IH]; intros [|n lens] Hl Hi; try discriminate; cbn [combine map fst snd]; auto. f_equal.
  - apply nth_error_ext. intros i. rewrite masked_nth. destruct (nth_error r i) as [b|] eqn:E; auto. cbn [option_map].
    destruct (Nat.ltb_spec i n) as [L|L]; auto. specialize (Hi 0 i n eq_refl L). unfold cell in Hi. cbn [nth_error] in Hi.
    rewrite E in Hi. destruct b; congruence.
  - apply IH; [cbn in Hl; lia|]. intros b t k Hk Ht. apply (Hi (S b) t k Hk Ht).
Qed.

Lemma cell_map2 nb m (k : nat * nat -> A) b t : b < nb -> t < m ->
  cell (map (fun b => map (fun t => k (b, t)) (seq 0 m)) (seq 0 nb)) b t = Some (k (b, t)).
Proof.
  intros Hb Ht. unfold cell. rewrite nth_error_map, nth_error_seq by auto. cbn [option_map plus].
  rewrite nth_error_map, nth_error_seq by auto. reflexivity.
Qed.
Lemma shape_map2 {T} nb m (k : nat -> nat -> T) : shape nb m (map (fun b => map (k b) (seq 0 m)) (seq 0 nb)).
Proof.
  split; [rewrite map_length, seq_length; auto|]. apply Forall_forall. intros r Hr. apply in_map_iff in Hr as (b & <- & _).
  rewrite map_length, seq_length. auto.
Qed.

Lemma positions_in bm nb m p : In p (positions bm nb m) <-> fst p < nb /\ snd p < m.
Proof.
  unfold positions. destruct p as [b t]. cbn [fst snd]. destruct bm.
  - rewrite in_prod_iff, !in_seq. lia.
  - rewrite in_map_iff. split.
    + intros ([t' b'] & E & Hi). cbn in E. injection E as -> ->. apply in_prod_iff in Hi. rewrite !in_seq in Hi. lia.
    + intros H. exists (t, b). split; auto. apply in_prod_iff. rewrite !in_seq. lia.
Qed.

Lemma positions_nil bm nb m : nb = 0 \/ m = 0 -> positions bm nb m = [].
Proof.
  intros H. destruct (positions bm nb m) as [|p l] eqn:E; auto. exfalso.
  assert (In p (positions bm nb m)) as Hp by (rewrite E; left; auto). apply positions_in in Hp. lia.
Qed.
Lemma positions_nil_inv bm nb m : positions bm nb m = [] -> nb = 0 \/ m = 0.
Proof.
  intros E. destruct nb as [|nb]; auto. destruct m as [|m]; auto. exfalso.
  assert (In (0, 0) (positions bm (S nb) (S m))) as Hp by (apply positions_in; cbn; lia). rewrite E in Hp. destruct Hp.
Qed.

(** an element of the tensor, if there is any *)
Lemma shape_elem {T} nb m (rows : list (list T)) bm : shape nb m rows -> (exists d : T, True) \/ positions bm nb m = [].
Proof.
  intros [Hn Hm]. destruct rows as [|r rows]; [right; apply positions_nil; left; auto|].
  destruct r as [|d r]; [|left; eauto]. right. apply positions_nil. right. inversion Hm; auto.
Qed.

Theorem masked_select_ok bm lens (rows : list (list A)) mask :
  shape (length lens) (list_max lens) rows -> shape (length lens) (list_max lens) mask ->
  selection bm (length lens) (list_max lens) rows mask (masked_select bm lens rows mask).
Proof.
  intros Hr Hm. unfold selection, masked_select. change (dim_value lens) with (list_max lens).
  set (nb := length lens) in *. set (m := list_max lens) in *.
  assert (Eg : forall p, In p (positions bm nb m) ->
    (match cell mask (fst p) (snd p) with Some b => b | None => false end) = at2 false mask p).
  { intros p Hp. apply positions_in in Hp as [Hb Ht]. rewrite (shape_cell nb m mask _ _ false Hm Hb Ht). destruct p; reflexivity. }
  rewrite (filter_ext_in _ _ _ Eg).
  destruct (shape_elem nb m rows bm Hr) as [[d _]|E].
  - rewrite (flat_order_positions d bm nb m rows Hr), (flat_order_positions false bm nb m mask Hm), select_map.
    assert (G : forall p, In p (positions bm nb m) -> cell rows (fst p) (snd p) = Some (at2 d rows p)).
    { intros p Hp. apply positions_in in Hp as [Hb Ht]. rewrite (shape_cell nb m rows _ _ d Hr Hb Ht). destruct p; reflexivity. }
    clear Eg. revert G. generalize (positions bm nb m) as ps. induction ps as [|p ps IH]; intros G; cbn [filter map]; [constructor|].
    destruct (at2 false mask p); cbn [map].
    + constructor; [apply G; left; auto|]. apply IH. intros; apply G; right; auto.
    + apply IH. intros; apply G; right; auto.
  - rewrite (flat_order_positions false bm nb m mask Hm), E. cbn [map filter]. unfold select_flat. rewrite combine_nil. constructor.
Qed.

Theorem masked_scatter_ok bm lens (f : A -> A) (rows backup : list (list A)) mask :
  shape (length lens) (list_max lens) rows -> shape (length lens) (list_max lens) backup ->
  shape (length lens) (list_max lens) mask -> inside lens mask ->
  exists out, masked_scatter bm lens backup mask (map f (masked_select bm lens rows mask)) = Ok out /\
    shape (length lens) (list_max lens) out /\
    forall b t x y s, cell rows b t = Some x -> cell backup b t = Some y -> cell mask b t = Some s ->
      cell out b t = Some (if s then f x else y).
Proof.
  intros Hr Hb Hm Hi. unfold masked_scatter, masked_select.
  rewrite (mask_masked_inside (length lens) (list_max lens)) by auto. change (dim_value lens) with (list_max lens).
  set (nb := length lens) in *. set (m := list_max lens) in *.
  destruct (shape_elem nb m rows bm Hr) as [[d _]|E].
  - rewrite (flat_order_positions d bm nb m rows Hr), (flat_order_positions false bm nb m mask Hm),
      (flat_order_positions d bm nb m backup Hb), select_map.
    rewrite map_map. rewrite (scatter_map (at2 d backup) (fun p => f (at2 d rows p))). cbn [bind]. rewrite unflat_positions.
    eexists. split; [reflexivity|]. split; [apply (shape_map2 nb m (fun b t => if at2 false mask (b, t) then f (at2 d rows (b, t)) else at2 d backup (b, t)))|].
    intros b t x y s Hx Hy Hs. destruct (cell_bounds _ _ _ _ _ _ Hr Hx) as [Lb Lt].
    rewrite (cell_map2 nb m (fun p => if at2 false mask p then f (at2 d rows p) else at2 d backup p) b t Lb Lt).
    rewrite (shape_cell nb m rows b t d Hr Lb Lt) in Hx. rewrite (shape_cell nb m backup b t d Hb Lb Lt) in Hy.
    rewrite (shape_cell nb m mask b t false Hm Lb Lt) in Hs. injection Hx as ->. injection Hy as ->. injection Hs as ->. reflexivity.
  - assert (El : forall T (l : list (list T)), shape nb m l -> flat_order bm m l = []).
    { intros T l [Hn Hl]. apply positions_nil_inv in E. unfold flat_order. destruct bm.
      - destruct E as [E0|E0]; [rewrite E0 in Hn; destruct l; [reflexivity|discriminate]|]. rewrite E0 in Hl.
        clear - Hl. induction Hl as [|a l Ha Hl IH]; cbn; auto. rewrite IH. destruct a; [auto|discriminate].
      - destruct E as [E0|E0]; [rewrite E0 in Hn; destruct l; [|discriminate]|rewrite E0; reflexivity].
        cbn. clear. induction (seq 0 m); auto. }
    rewrite (El A backup Hb), (El A rows Hr), (El bool mask Hm). cbn [scatter_flat bind]. eexists. split; [reflexivity|]. split.
    + apply positions_nil_inv in E. split; [unfold unflat_order; destruct bm; rewrite map_length, seq_length; auto|].
      apply Forall_forall. intros r Hir. unfold unflat_order in Hir. destruct bm; apply in_map_iff in Hir as (b & <- & Hir); apply in_seq in Hir.
      * rewrite skipn_nil, firstn_nil. cbn [length]. lia.
      * assert (E0 : m = 0) by lia. rewrite E0. reflexivity.
    + intros b t x y s Hx _ _. exfalso. destruct (cell_bounds _ _ _ _ _ _ Hr Hx) as [Lb Lt].
      assert (In (b, t) (positions bm nb m)) as Hin by (apply positions_in; auto). rewrite E in Hin. destruct Hin.
Qed.

(** * pack_padded and pad_packed *)
Lemma Forall2_impl_in {X Y} (P Q : X -> Y -> Prop) l l' :
  (forall a b, In a l -> In b l' -> P a b -> Q a b) -> Forall2 P l l' -> Forall2 Q l l'.
Proof.
  intros H F. induction F as [|a b l l' Hab F IH]; constructor.
  - apply H; auto; left; auto.
  - apply IH. intros; apply H; auto; right; auto.
Qed.
Lemma combine_app' {X Y} (l1 l2 : list X) (k1 k2 : list Y) :
  length l1 = length k1 -> combine (l1 ++ l2) (k1 ++ k2) = combine l1 k1 ++ combine l2 k2.
Proof. revert k1. induction l1 as [|a l1 IH]; intros [|b k1] H; cbn in *; try discriminate; auto. f_equal. apply IH. lia. Qed.

Lemma sequence_mask_shape lens : shape (length lens) (list_max lens) (sequence_mask lens).
Proof.
  unfold sequence_mask. split; [apply map_length|]. apply Forall_forall. intros r Hr. apply in_map_iff in Hr as (n & <- & _).
  rewrite map_length, seq_length. reflexivity.
Qed.
Lemma sequence_mask_cell lens b t n : nth_error lens b = Some n -> t < list_max lens -> cell (sequence_mask lens) b t = Some (t <? n).
Proof.
  intros Hn Ht. unfold cell, sequence_mask. rewrite nth_error_map, Hn. cbn [option_map].
  rewrite nth_error_map, nth_error_seq by (exact Ht). reflexivity.
Qed.
Lemma sequence_mask_inside lens : inside lens (sequence_mask lens).
Proof.
  intros b t n Hn Ht E. destruct (cell_bounds _ _ _ _ _ _ (sequence_mask_shape lens) E) as [_ L].
  rewrite (sequence_mask_cell lens b t n Hn L) in E. injection E as E. apply Nat.ltb_lt in E. lia.
Qed.
Lemma padded_shape {T} (xs : list (list T)) lens rows : padded xs lens rows -> shape (length lens) (list_max lens) rows.
Proof.
  intros Hp. split; [symmetry; apply (padded_len _ _ _ Hp)|]. destruct Hp as [_ H]. set (M := list_max lens) in *. clearbody M.
  induction H as [|x row xs rows [_ Hl] H IH]; constructor; auto.
Qed.
Lemma padded_cell {T} (xs : list (list T)) lens rows b t x :
  padded xs lens rows -> nth_error xs b = Some x -> t < length x -> cell rows b t = nth_error x t.
Proof.
  intros Hp Hx Ht. unfold cell. destruct (nth_error rows b) as [row|] eqn:E.
  - destruct (padded_nth _ _ _ _ _ _ Hp Hx E) as (_ & [junk ->] & _). apply nth_error_app1. auto.
  - apply nth_error_None in E. destruct (padded_len _ _ _ Hp) as [_ L]. assert (b < length xs) by (apply nth_error_Some; congruence). lia.
Qed.

Theorem pack_ok bm (xs : list (list A)) lens rows : padded xs lens rows -> packed bm xs (pack_padded bm lens rows).
Proof.
  intros Hp. pose proof (masked_select_ok bm lens rows (sequence_mask lens) (padded_shape _ _ _ Hp) (sequence_mask_shape lens)) as H.
  unfold packed, pack_padded. unfold selection in H. pose proof Hp as [El _].
  rewrite <- El. replace (length xs) with (length lens) by (rewrite El; apply map_length).
  erewrite filter_ext_in in H.
  - eapply Forall2_impl_in; [|exact H]. intros p a Hi _ E. cbn beta in E.
    apply filter_In in Hi as [_ Hi]. cbv beta in Hi. unfold cell at 1 in Hi.
    destruct (nth_error xs (fst p)) as [x|] eqn:Ex; [|discriminate]. destruct (nth_error x (snd p)) as [a'|] eqn:Ea; [|discriminate].
    assert (L : snd p < length x) by (apply nth_error_Some; congruence).
    rewrite (padded_cell _ _ _ _ _ _ Hp Ex L) in E. unfold cell. rewrite Ex. exact E.
  - intros p Hi. apply positions_in in Hi as [Lb Lt]. destruct (nth_error lens (fst p)) as [n|] eqn:En.
    + rewrite (sequence_mask_cell lens _ _ n En Lt). unfold cell. rewrite El, nth_error_map in En.
      destruct (nth_error xs (fst p)) as [x|]; [|discriminate]. injection En as <-.
      destruct (Nat.ltb_spec (snd p) (length x)) as [L|L].
      * destruct (nth_error x (snd p)) eqn:Ea; auto. apply nth_error_None in Ea. lia.
      * rewrite (proj2 (nth_error_None x (snd p)) L). reflexivity.
    + apply nth_error_None in En. lia.
Qed.

Theorem pack_concat (xs : list (list A)) lens rows : padded xs lens rows -> pack_padded true lens rows = concat xs.
Proof.
  intros [-> H]. unfold pack_padded, masked_select, flat_order, sequence_mask. rewrite map_map.
  change (dim_value ?l) with (list_max l). set (M := list_max _) in *.
  assert (HM : forall x, In x xs -> length x <= M) by (intros; apply in_len; auto). clearbody M.
  induction H as [|x row xs rows [[junk E] Hl] H IH]; cbn [map concat]; [reflexivity|].
  unfold select_flat in *. rewrite combine_app' by (rewrite map_length, seq_length; auto).
  rewrite filter_app, map_app. rewrite IH by (intros; apply HM; right; auto). f_equal.
  assert (Lx : length x <= M) by (apply HM; left; auto). rewrite (seq_prefix _ M Lx), map_app, E.
  rewrite combine_app' by (rewrite map_length, seq_length; auto). rewrite filter_app, map_app.
  rewrite (map_ext_in _ (fun _ => true) (seq 0 (length x))) by (intros t Ht; apply in_seq in Ht; apply Nat.ltb_lt; lia).
  rewrite (map_ext_in _ (fun _ => false) (seq (length x) (M - length x))) by (intros t Ht; apply in_seq in Ht; apply Nat.ltb_ge; lia).
  assert (E1 : forall n k, map fst (filter snd (combine x (map (fun _ => true) (seq k n)))) = firstn n x).
  { clear. induction x as [|a x IH]; intros [|n] k; cbn; auto. f_equal. apply IH. }
  assert (E2 : forall (l : list A) n k, map fst (filter snd (combine l (map (fun _ => false) (seq k n)))) = []).
  { clear. induction l as [|a l IH]; intros [|n] k; cbn; auto. }
  rewrite E1, E2, app_nil_r. apply firstn_all.
Qed.

Theorem pad_packed_ok zero bm (f : A -> A) (xs : list (list A)) lens rows :
  padded xs lens rows ->
  exists out, pad_packed zero bm lens (map f (pack_padded bm lens rows)) = Ok out /\ padded_with zero (map (map f) xs) lens out.
Proof.
  intros Hp. unfold pad_packed, pack_padded.
  destruct (masked_scatter_ok bm lens f rows (map (fun _ => repeat zero (dim_value lens)) lens) (sequence_mask lens)) as (out & E & Hs & Hc).
  - apply (padded_shape _ _ _ Hp).
  - split; [apply map_length|]. apply Forall_forall. intros r Hr. apply in_map_iff in Hr as (n & <- & _). apply repeat_length.
  - apply sequence_mask_shape.
  - apply sequence_mask_inside.
  - exists out. split; auto. pose proof Hp as [El _]. split.
    + rewrite map_map, El. apply map_ext. intros. symmetry. apply map_length.
    + assert (G : forall b x, nth_error xs b = Some x ->
        exists row, nth_error out b = Some row /\ exists k, row = map f x ++ repeat zero k /\ length row = list_max lens).
      { intros b x Hx. assert (Hb : b < length lens) by (rewrite El, map_length; apply nth_error_Some; congruence).
        destruct Hs as [Hn Hl]. destruct (nth_error out b) as [row|] eqn:Er; [|apply nth_error_None in Er; lia].
        exists row. split; auto. rewrite Forall_forall in Hl. pose proof (Hl row (nth_error_In _ _ Er)) as HL.
        exists (list_max lens - length x). split; auto. assert (Hin : length x <= list_max lens).
        { rewrite El. apply in_len. eapply nth_error_In; eauto. }
        assert (En : nth_error lens b = Some (length x)) by (rewrite El, nth_error_map, Hx; reflexivity).
        apply nth_error_ext. intros t. destruct (Nat.lt_ge_cases t (list_max lens)) as [L|L].
        - pose proof (sequence_mask_cell lens b t _ En L) as Em.
          assert (Eb : cell (map (fun _ : nat => repeat zero (dim_value lens)) lens) b t = Some zero).
          { unfold cell. rewrite nth_error_map, En. cbn [option_map]. apply nth_error_repeat'. exact L. }
          pose proof (padded_shape _ _ _ Hp) as Hsr. pose proof (shape_cell _ _ rows b t zero Hsr Hb L) as Ec.
          pose proof (Hc b t _ _ _ Ec Eb Em) as Ho. unfold cell in Ho. rewrite Er in Ho. rewrite Ho.
          destruct (Nat.ltb_spec t (length x)) as [Lt|Lt].
          + rewrite nth_error_app1 by (rewrite map_length; auto). rewrite nth_error_map.
            rewrite (padded_cell _ _ _ _ _ _ Hp Hx Lt) in Ec. rewrite Ec. reflexivity.
          + rewrite nth_error_app2 by (rewrite map_length; auto). rewrite map_length. rewrite nth_error_repeat' by lia. reflexivity.
        - rewrite (proj2 (nth_error_None row t)) by lia. symmetry. apply nth_error_None. rewrite app_length, map_length, repeat_length. lia. }
      destruct Hs as [Hn _]. rewrite El, map_length in Hn. set (M := list_max lens) in *. clearbody M. clear - G Hn. revert out G Hn.
      induction xs as [|x xs IH]; intros [|row out] G Hn; try discriminate; cbn [map]; constructor.
      * destruct (G 0 x eq_refl) as (r & Er & H). injection Er as <-. exact H.
      * apply IH; [intros b; apply (G (S b))|cbn in Hn; lia].
Qed.

(** * masked_select and masked_scatter over the time dim *)
Fixpoint count (m : list bool) : nat := match m with [] => 0 | b :: m => (if b then 1 else 0) + count m end.

Lemma kept_length (row : list A) m : length row = length m -> length (kept row m) = count m.
Proof.
  unfold kept. revert m. induction row as [|a row IH]; intros [|[|] m] H; cbn in *; try discriminate; auto.
Qed.

Lemma cumsum_length k m : length (cumsum_from k m) = length m.
Proof. revert k. induction m as [|b m IH]; intros k; cbn; auto. Qed.
Lemma cumsum_last k m d : m <> [] -> nth (length m - 1) (cumsum_from k m) d = k + count m.
Proof.
  revert k. induction m as [|b m IH]; intros k H; [easy|]. destruct m as [|b' m].
  - cbn. lia.
  - cbn [length]. replace (S (S (length m)) - 1) with (S (length (b' :: m) - 1)) by (cbn; lia).
    change (nth (S (length (b' :: m) - 1)) (cumsum_from k (b :: b' :: m)) d)
      with (nth (length (b' :: m) - 1) (cumsum_from (k + (if b then 1 else 0)) (b' :: m)) d).
    rewrite IH by easy. cbn [count]. lia.
Qed.

Lemma firstn_skipn_mid {T} (l1 : list T) o l2 a i : i = length l1 -> firstn i (l1 ++ o :: l2) ++ a :: skipn (S i) (l1 ++ o :: l2) = l1 ++ a :: l2.
Proof.
  intros ->. rewrite firstn_app, Nat.sub_diag, firstn_all. cbn [firstn]. rewrite app_nil_r. f_equal. f_equal.
  rewrite skipn_app. rewrite skipn_all2 by lia. replace (S (length l1) - length l1) with 1 by lia. reflexivity.
Qed.

Lemma scatter_row zero add N (row : list A) m done z :
  (forall a, add zero a = a) -> length row = length m -> length done + count m <= N ->
  exists z', scatter_add add (done ++ repeat zero (N - length done) ++ [z])
    (map (fun ib => if snd ib : bool then fst ib - 1 else N) (combine (cumsum_from (length done) m) m)) row
  = Ok (done ++ kept row m ++ repeat zero (N - length done - count m) ++ [z']).
Proof.
  intros Hadd. revert m done z. induction row as [|a row IH]; intros [|b m] done z Hl Hc; try discriminate.
  - cbn. exists z. rewrite Nat.sub_0_r. reflexivity.
  - cbn [cumsum_from combine map scatter_add fst snd]. cbn [count] in Hc. destruct b.
    + replace (length done + 1 - 1) with (length done) by lia.
      destruct (N - length done) as [|r] eqn:Er; [lia|]. cbn [repeat app].
      rewrite nth_error_app2 by auto. rewrite Nat.sub_diag. cbn [nth_error].
      rewrite firstn_skipn_mid by auto. rewrite Hadd.
      replace (length done + 1) with (length (done ++ [a])) by (rewrite app_length; reflexivity).
      destruct (IH m (done ++ [a]) z) as [z' E]; [cbn in Hl; lia|rewrite app_length; cbn [length]; lia|].
      replace r with (N - length (done ++ [a])) by (rewrite app_length; cbn [length]; lia).
      replace (done ++ a :: repeat zero (N - length (done ++ [a])) ++ [z]) with ((done ++ [a]) ++ repeat zero (N - length (done ++ [a])) ++ [z])
        by (rewrite <- app_assoc; reflexivity).
      exists z'. rewrite E. f_equal. unfold kept. cbn [combine filter snd map fst]. rewrite <- app_assoc. cbn [app]. do 4 f_equal.
    + replace (length done + 0) with (length done) by lia.
      rewrite app_assoc. rewrite nth_error_app2 by (rewrite app_length, repeat_length; lia).
      rewrite app_length, repeat_length. replace (N - (length done + (N - length done))) with 0 by lia. cbn [nth_error].
      rewrite firstn_skipn_mid by (rewrite app_length, repeat_length; lia).
      destruct (IH m done (add z a)) as [z' E]; [cbn in Hl; lia|lia|]. rewrite <- app_assoc. exists z'. rewrite E. f_equal.
Qed.

Lemma masked_false n m : n <= length m -> masked false n m = firstn n m ++ repeat false (length m - n).
Proof.
  intros H. rewrite <- (firstn_skipn n m) at 1. replace n with (length (firstn n m)) at 1 by (rewrite firstn_length; lia).
  rewrite masked_app, skipn_length. reflexivity.
Qed.
Lemma kept_masked (x y junk : list A) m :
  length (x ++ junk) = length m -> length y = length junk -> kept (x ++ y) (masked false (length x) m) = kept x m.
Proof.
  intros H Hy. rewrite app_length in H. rewrite masked_false by lia. unfold kept.
  rewrite combine_app' by (rewrite firstn_length; lia). rewrite filter_app, map_app.
  assert (E : forall k, map fst (filter snd (combine y (repeat false k))) = []).
  { clear. induction y as [|a y IH]; intros [|k]; cbn; auto. }
  rewrite E, app_nil_r. do 2 f_equal. clear.
  revert m. induction x as [|a x IH]; intros [|b m]; cbn; auto. f_equal. auto.
Qed.

Lemma list_max_cons n l : list_max (n :: l) = Nat.max n (list_max l).
Proof. reflexivity. Qed.

Theorem masked_select_time_ok zero add use_mask (xs : list (list A)) lens rows mask :
  (forall a, add zero a = a) -> padded xs lens rows -> shape (length lens) (list_max lens) mask -> 0 < list_max lens ->
  exists olens out, masked_select_time zero add use_mask lens rows mask = Ok (olens, out) /\
    padded_with zero (map (fun xm => kept (fst xm) (snd xm)) (combine xs mask)) olens out.
Proof.
  intros Hadd [-> H] [Hn Hm] Hpos. unfold masked_select_time. rewrite map_length in Hn. change (dim_value (map (@length A) xs)) with (list_max (map (@length A) xs)).
  set (M := list_max (map (@length A) xs)) in *.
  assert (HxM : forall x, In x xs -> length x <= M) by (intros; apply in_len; auto). clearbody M.
  set (cs := map count (mask_masked (map (@length A) xs) mask)).
  assert (E1 : mapM (fun idx => gather1 idx (Z.of_nat M - 1)) (map (cumsum_from 0) (mask_masked (map (@length A) xs) mask)) = Ok cs).
  { rewrite mapM_map. unfold cs.
    rewrite (mapM_ext _ (fun m => Ok (count m))); [apply mapM_total; auto|].
    intros m Hi. assert (Lm : length m = M).
    { destruct (mask_masked_shape (length xs) M (map (@length A) xs) mask) as [_ F]; [split; auto|apply map_length|]. rewrite Forall_forall in F. auto. }
    replace (Z.of_nat M - 1)%Z with (Z.of_nat (length m - 1)) by lia.
    rewrite (gather1_nth _ _ 0) by (rewrite cumsum_length; lia). f_equal. rewrite cumsum_last; auto. destruct m; [cbn in *; lia|easy]. }
  rewrite E1. cbn [bind]. set (N := dim_value cs).
  assert (HN : forall m, In m (mask_masked (map (@length A) xs) mask) -> count m <= N).
  { intros m Hi. unfold N. change (dim_value cs) with (list_max cs). apply le_list_max. unfold cs. apply in_map. auto. }
  assert (G : exists ext,
    mapM (fun ir : list nat * list A => scatter_add add (repeat zero (N + 1)) (fst ir) (snd ir))
      (combine (map (fun im => map (fun ib => if snd ib : bool then fst ib - 1 else N) (combine (fst im) (snd im)))
                 (combine (map (cumsum_from 0) (mask_masked (map (@length A) xs) mask)) (mask_masked (map (@length A) xs) mask)))
               (if use_mask then map (fun nr => masked zero (fst nr) (snd nr)) (combine (map (@length A) xs) rows) else rows)) = Ok ext /\
    Forall2 (fun y e => exists z', e = y ++ repeat zero (N - length y) ++ [z'] /\ length y <= N)
      (map (fun xm => kept (fst xm) (snd xm)) (combine xs mask)) ext /\
    map (@length A) (map (fun xm => kept (fst xm) (snd xm)) (combine xs mask)) = cs).
  { clearbody N. unfold cs. clear E1 cs. revert mask Hn Hm HN. induction H as [|x row xs rows [[junk E] Hl] H IH]; intros [|m mask] Hn Hm HN; try discriminate.
    - exists []. split; [destruct use_mask; reflexivity|]. split; [constructor|reflexivity].
    - apply Forall_cons_iff in Hm as [Lm Hm']. subst row.
      destruct (IH ltac:(intros; apply HxM; right; auto) mask ltac:(cbn in Hn; lia) Hm') as (ext & Ee & Fe & Ec).
      { intros m' Hi. apply HN. right. auto. }
      set (row := x ++ junk) in *.
      assert (Lrow : length row = length (masked false (length x) m)).
      { rewrite masked_false by (rewrite Lm, <- Hl; unfold row; rewrite app_length; lia).
        rewrite app_length, firstn_length, repeat_length. rewrite Lm, <- Hl. unfold row. rewrite app_length. lia. }
      pose proof (HN _ (or_introl eq_refl)) as HN0. cbn [fst snd] in HN0.
      assert (R : forall y, length y = length junk -> exists z',
        scatter_add add (repeat zero (N + 1)) (map (fun ib => if snd ib : bool then fst ib - 1 else N)
          (combine (cumsum_from 0 (masked false (length x) m)) (masked false (length x) m))) (x ++ y)
        = Ok (kept x m ++ repeat zero (N - length (kept x m)) ++ [z']) /\ length (kept x m) = count (masked false (length x) m)).
      { intros y Hy. assert (Ly : length (x ++ y) = length (masked false (length x) m)).
        { rewrite <- Lrow. unfold row. rewrite !app_length. lia. }
        assert (K : kept (x ++ y) (masked false (length x) m) = kept x m) by (apply (kept_masked x y junk); [fold row; lia|auto]).
        destruct (scatter_row zero add N (x ++ y) (masked false (length x) m) [] zero Hadd Ly HN0) as [z' Ez].
        cbn [length app] in Ez. rewrite K in Ez. pose proof (kept_length _ _ Ly) as KL. rewrite K in KL. rewrite Nat.sub_0_r in Ez.
        rewrite repeat_app. cbn [repeat]. exists z'. rewrite KL. split; auto. }
      set (row' := if use_mask then masked zero (length x) row else row).
      assert (Erow' : exists y, row' = x ++ y /\ length y = length junk).
      { unfold row', row. destruct use_mask; [|eauto]. rewrite masked_app. eexists. split; [reflexivity|]. apply repeat_length. }
      destruct Erow' as (y & Ey & Ly). destruct (R y Ly) as (z' & Ez & Kl).
      exists ((kept x m ++ repeat zero (N - length (kept x m)) ++ [z']) :: ext). split; [|split].
      + replace (if use_mask then map (fun nr => masked zero (fst nr) (snd nr)) (combine (map (@length A) (x :: xs)) (row :: rows)) else row :: rows)
          with (row' :: (if use_mask then map (fun nr => masked zero (fst nr) (snd nr)) (combine (map (@length A) xs) rows) else rows))
          by (unfold row'; destruct use_mask; reflexivity).
        change (mask_masked (map (@length A) (x :: xs)) (m :: mask)) with (masked false (length x) m :: mask_masked (map (@length A) xs) mask).
        cbn [map combine mapM fst snd]. rewrite Ey, Ez. cbn [bind]. rewrite Ee. reflexivity.
      + cbn [combine map fst snd]. constructor; auto. exists z'. split; auto. lia.
      + cbn [combine map fst snd]. change (mask_masked (map (@length A) (x :: xs)) (m :: mask)) with (masked false (length x) m :: mask_masked (map (@length A) xs) mask).
        cbn [map]. apply (f_equal2 cons); [exact Kl|exact Ec]. }
  destruct G as (ext & Ee & Fe & Ec).
  replace (mapM _ _) with (Ok ext : res (list (list A))) by (symmetry; exact Ee).
  cbn [bind]. unfold slice, slice_out. cbn [Nat.eqb assert_ bind]. fold N.
  exists cs, (map (firstn N) ext). split.
  - rewrite (mapM_ext _ (fun e => Ok (firstn N e))).
    + rewrite (mapM_total (fun e => Ok (firstn N e)) (firstn N)) by auto. reflexivity.
    + intros e Hi. change 0%Z with (Z.of_nat 0). rewrite narrow_ok; [reflexivity|].
      assert (length e = N + 1); [|lia].
      apply In_nth_error in Hi as [i Hi]. clear - Fe Hi. revert i Hi.
      induction Fe as [|y e' l l' (z' & -> & L) F IH]; intros [|i] Hi; cbn in Hi; try discriminate; eauto. injection Hi as <-.
      rewrite !app_length, repeat_length. cbn [length]. lia.
  - split; auto. change (list_max cs) with N. clear - Fe. induction Fe as [|y e l l' (z' & -> & L) F IH]; cbn [map]; constructor; auto.
    exists (N - length y). rewrite app_assoc, firstn_app. rewrite firstn_all2 by (rewrite app_length, repeat_length; lia).
    rewrite app_length, repeat_length. replace (N - (length y + (N - length y))) with 0 by lia. cbn [firstn]. rewrite app_nil_r. split; auto.
    rewrite app_length, repeat_length. lia.
Qed.

Lemma Forall2_cons_iff {X Y} (P : X -> Y -> Prop) a b l l' : Forall2 P (a :: l) (b :: l') <-> P a b /\ Forall2 P l l'.
Proof. split; [intros H; inversion H; auto|intros []; constructor; auto]. Qed.

Definition where_row (f : A -> A) (m : list bool) (row b : list A) : list A :=
  map (fun mrb => if fst mrb : bool then f (fst (snd mrb)) else snd (snd mrb)) (combine m (combine row b)).

Lemma scatter_time_row (f : A -> A) (row b : list A) m done rest s :
  length row = length m -> length b = length m -> s = done ++ map f (kept row m) ++ rest -> s <> [] ->
  exists g, mapM (fun i => gather1 s (Z.of_nat i))
    (map (fun ib => if snd ib : bool then fst ib - 1 else 0) (combine (cumsum_from (length done) m) m)) = Ok g /\
    map (fun mgb => if fst mgb : bool then fst (snd mgb) else snd (snd mgb)) (combine m (combine g b)) = where_row f m row b.
Proof.
  intros Hr Hb Es Hne. revert row b done Hr Hb Es. induction m as [|t m IH]; intros [|a row] [|c b] done Hr Hb Es; try discriminate.
  - exists []. split; reflexivity.
  - cbn [cumsum_from combine map mapM fst snd]. destruct t.
    + replace (length done + 1 - 1) with (length done) by lia.
      assert (Ea : gather1 s (Z.of_nat (length done)) = Ok (f a)).
      { unfold gather1. rewrite (proj2 (Z.ltb_ge _ _)) by lia. rewrite Nat2Z.id, Es. unfold kept. cbn [combine filter snd map fst app].
        rewrite nth_error_app2 by auto. rewrite Nat.sub_diag. reflexivity. }
      rewrite Ea. cbn [bind]. replace (length done + 1) with (length (done ++ [f a])) by (rewrite app_length; reflexivity).
      destruct (IH row b (done ++ [f a])) as (g & Eg & Ew); try (cbn in *; lia).
      { rewrite Es. unfold kept. cbn [combine filter snd map fst app]. rewrite <- app_assoc. reflexivity. }
      rewrite Eg. cbn [bind]. eexists. split; [reflexivity|]. unfold where_row in *. cbn [combine map fst snd]. f_equal. exact Ew.
    + replace (length done + 0) with (length done) by lia.
      destruct s as [|s0 s']; [easy|]. assert (E0 : gather1 (s0 :: s') (Z.of_nat 0) = Ok s0) by reflexivity. rewrite E0. cbn [bind].
      destruct (IH row b done) as (g & Eg & Ew); try (cbn in *; lia); [exact Es|].
      rewrite Eg. cbn [bind]. eexists. split; [reflexivity|]. unfold where_row in *. cbn [combine map fst snd]. f_equal. exact Ew.
Qed.

Theorem masked_scatter_time_ok (f : A -> A) (xs : list (list A)) lens rows mask backup slens src :
  padded xs lens rows -> shape (length lens) (list_max lens) mask -> shape (length lens) (list_max lens) backup ->
  padded (map (fun xm => map f (kept (fst xm) (snd xm))) (combine xs mask)) slens src -> 0 < list_max slens ->
  exists out, masked_scatter_time lens backup mask src = Ok out /\ shape (length lens) (list_max lens) out /\
    forall b t n x y s, nth_error lens b = Some n -> cell rows b t = Some x -> cell backup b t = Some y -> cell mask b t = Some s ->
      cell out b t = Some (if s && (t <? n) then f x else y).
Proof.
  intros [-> H] [Hn Hm] [Hbn Hb] [Es Hs] Hpos. rewrite map_length in *. unfold masked_scatter_time.
  set (M := list_max (map (@length A) xs)) in *.
  assert (HxM : forall x, In x xs -> length x <= M) by (intros; apply in_len; auto). clearbody M.
  set (K := list_max slens) in *. clearbody K. clear Es.
  exists (map (fun rbm => where_row f (snd (snd rbm)) (fst rbm) (fst (snd rbm))) (combine rows (combine backup (mask_masked (map (@length A) xs) mask)))).
  assert (Lr : length xs = length rows) by (apply Forall2_len in H; auto).
  split; [|split].
  - revert mask Hn Hm backup Hbn Hb src Hs. clear Lr.
    induction H as [|x row xs rows [[junk E] Hl] H IH]; intros [|m mask] Hn Hm [|bk backup] Hbn Hb src Hs; try discriminate.
    + reflexivity.
    + apply Forall_cons_iff in Hm as [Lm Hm']. apply Forall_cons_iff in Hb as [Lb Hb']. subst row. cbn [combine map fst snd] in Hs.
      destruct src as [|srow src]; [inversion Hs|]. apply Forall2_cons_iff in Hs as [[[sj Esr] Lsr] Hs']. subst srow.
      change (mask_masked (map (@length A) (x :: xs)) (m :: mask)) with (masked false (length x) m :: mask_masked (map (@length A) xs) mask).
      cbn [combine map mapM fst snd].
      assert (Lrow : length (x ++ junk) = length (masked false (length x) m)).
      { pose proof (app_length x junk) as Eaj. rewrite masked_false by lia. rewrite (app_length (firstn _ _)), firstn_length, repeat_length. lia. }
      destruct (scatter_time_row f (x ++ junk) bk (masked false (length x) m) [] sj (map f (kept x m) ++ sj)) as (g & Eg & Ew).
      * exact Lrow.
      * lia.
      * cbn [app]. rewrite (kept_masked x junk junk) by lia. reflexivity.
      * intros E0. rewrite E0 in Lsr. cbn in Lsr. lia.
      * cbn [length] in Eg. rewrite Eg. cbn [bind]. rewrite Ew.
        rewrite IH; auto. intros; apply HxM; right; auto.
  - split.
    + rewrite map_length, !combine_length. unfold mask_masked. rewrite map_length, combine_length, map_length. lia.
    + clear Hs Hpos Lr. revert mask Hn Hm backup Hbn Hb.
      induction H as [|x row xs rows [[junk E] Hl] H IH]; intros [|m mask] Hn Hm [|bk backup] Hbn Hb; try discriminate; [constructor|].
      apply Forall_cons_iff in Hm as [Lm Hm']. apply Forall_cons_iff in Hb as [Lb Hb']. subst row.
      change (mask_masked (map (@length A) (x :: xs)) (m :: mask)) with (masked false (length x) m :: mask_masked (map (@length A) xs) mask).
      cbn [combine map fst snd]. constructor.
      * unfold where_row. rewrite map_length, !combine_length. unfold masked. rewrite map_length, combine_length, seq_length. lia.
      * apply IH; auto. intros; apply HxM; right; auto.
  - intros b t n x y s En Ex Ey Em. unfold cell. rewrite nth_error_map, !nth_error_combine. unfold mask_masked.
    rewrite nth_error_map, nth_error_combine. unfold cell in Ex, Ey, Em.
    destruct (nth_error rows b) as [rb|]; [|discriminate]. destruct (nth_error backup b) as [kb|]; [|discriminate].
    rewrite En. destruct (nth_error mask b) as [mb|]; [|discriminate]. cbn [option_map fst snd]. unfold where_row.
    rewrite nth_error_map, !nth_error_combine, masked_nth, Ex, Ey, Em. cbn [option_map fst snd].
    destruct (t <? n); destruct s; reflexivity.
Qed.

(** * the errors *)
Theorem shift_right_tensor zero handle a vs (xs : list (list A)) lens rows :
  padded xs lens rows -> length vs = length xs -> shift_right zero handle a (PerSeq vs) lens rows = Ok (lens, rows).
Proof.
  intros Hp Hv. unfold shift_right, pad. cbn [pad_rows pad_masking Nat.eqb].
  replace (if handle then Ok (map (fun vr : A * list A => snd vr ++ [fst vr]) (combine vs rows)) else
    Ok (map (fun vr : A * list A => snd vr ++ [fst vr]) (combine vs rows)) : res (list (list A)))
    with (Ok (map (fun vr : A * list A => snd vr ++ [fst vr]) (combine vs rows)) : res (list (list A))) by (destruct handle; reflexivity).
  cbn [bind]. unfold slice, slice_out. cbn [Nat.eqb assert_ bind].
  assert (E : mapM (narrow 0 (Z.of_nat (dim_value lens))) (map (fun vr : A * list A => snd vr ++ [fst vr]) (combine vs rows)) = Ok rows).
  { change (dim_value lens) with (list_max lens). destruct Hp as [-> H]. set (M := list_max _) in *. clearbody M. revert vs Hv.
    induction H as [|x row xs rows [_ Hl] H IH]; intros [|v vs] Hv; try discriminate; [reflexivity|].
    cbn [combine map mapM fst snd]. change 0%Z with (Z.of_nat 0) at 1. rewrite narrow_ok by (rewrite app_length; cbn [length]; lia).
    cbn [bind skipn]. rewrite IH by (cbn in Hv; lia). cbn [bind]. rewrite <- Hl. rewrite firstn_app, Nat.sub_diag, firstn_all. cbn [firstn].
    rewrite app_nil_r. reflexivity. }
  rewrite E. reflexivity.
Qed.

Theorem pad_no_value zero l r lens (rows : list (list A)) : 0 < r -> is_ok (pad zero true l r NoValue lens rows) = false.
Proof. intros H. unfold pad, pad_masking. cbn [pad_rows]. destruct (Nat.eqb_spec r 0); [lia|]. reflexivity. Qed.
Theorem window_no_value zero use_mask W s lens (rows : list (list A)) :
  1 < W -> is_ok (window zero true use_mask true W s None None NoValue lens rows) = false.
Proof.
  intros H. unfold window. cbn [window_sides]. set (R := if use_mask then _ else _). clearbody R.
  assert (0 < W / 2) by (apply Nat.div_str_pos; lia).
  pose proof (pad_no_value zero (ceildiv W 2 - 1) (W / 2) lens R H0) as E. destruct (pad _ _ _ _ _ _ _); [discriminate|reflexivity].
Qed.
End Frames.

(** * More about slices *)
Section More.
Context {A : Type}.
Lemma mapM_narrow (z w : Z) (f : list A -> list A) xs lens rows :
  padded xs lens rows -> (forall x junk, In x xs -> length (x ++ junk) = list_max lens -> narrow z w (x ++ junk) = Ok (f x)) ->
  mapM (narrow z w) rows = Ok (map f xs).
Proof.
  intros [_ H] Hf. induction H as [|x row xs rows [(junk & ->) HL] H IH]; [reflexivity|]. cbn [mapM map].
  rewrite (Hf x junk (or_introl eq_refl) HL). cbn [bind]. rewrite IH; [reflexivity|]. intros y jk Hy. apply Hf. now right.
Qed.
Lemma padded_static k (ys : list (list A)) : Forall (fun y => length y = k) ys -> padded ys (map (fun _ => k) ys) ys.
Proof.
  intros H. split.
  - apply map_ext_in. intros y Hy. rewrite Forall_forall in H. symmetry. now apply H.
  - assert (M : ys = [] \/ list_max (map (fun _ => k) ys) = k).
    { clear H. induction ys as [|y ys IH]; [now left|]. right. cbn. destruct IH as [->|IH]; [cbn; lia|]. unfold list_max in IH. rewrite IH. lia. }
    destruct M as [->|M]; [constructor|]. rewrite M. clear M. induction H as [|y ys Hy H IH]; constructor; auto. split; [exists []; now rewrite app_nil_r|easy].
Qed.
Lemma slice_int_ok s st k (xs : list (list A)) lens rows :
  padded xs lens rows -> start_of s st -> Forall (fun x => s + k <= length x) xs ->
  exists olens out, slice lens rows st None 1 (SizeInt k) = Ok (olens, out) /\ padded (map (fun x => firstn k (skipn s x)) xs) olens out.
Proof.
  intros HP HS HF. rewrite Forall_forall in HF.
  assert (E : mapM (narrow (Z.of_nat s) (Z.of_nat k)) rows = Ok (map (fun x => firstn k (skipn s x)) xs)).
  { apply (mapM_narrow _ _ _ xs lens); [easy|]. intros x junk Hx HL. specialize (HF x Hx). rewrite narrow_ok by (rewrite app_length; lia).
    now rewrite firstn_skipn_app by lia. }
  exists (map (fun _ => k) lens), (map (fun x => firstn k (skipn s x)) xs). split.
  - unfold slice, slice_out. cbn [Nat.eqb assert_ bind].
    replace (match st with NoStart => 0%Z | StartInt z | StartTensor z => z end) with (Z.of_nat s) by (destruct HS as [->|[-> ->]]; reflexivity).
    now rewrite E.
  - replace (map (fun _ => k) lens) with (map (fun _ : list A => k) (map (fun x => firstn k (skipn s x)) xs)).
    + apply padded_static. apply Forall_forall. intros y Hy. apply in_map_iff in Hy as (x & <- & Hx). specialize (HF x Hx).
      rewrite firstn_length, skipn_length. lia.
    + destruct HP as [-> _]. now rewrite !map_map.
Qed.
Lemma narrow_end n a k (row : list A) : length row = n -> 0 < a <= n -> k <= a -> narrow (- Z.of_nat a) (Z.of_nat k) row = Ok (firstn k (skipn (n - a) row)).
Proof.
  intros H Ha Hk. unfold narrow. rewrite H. rewrite (proj2 (Z.ltb_ge (Z.of_nat k) 0)) by lia.
  rewrite (proj2 (Z.ltb_ge (- Z.of_nat a) (- Z.of_nat n))) by lia. rewrite (proj2 (Z.ltb_ge (Z.of_nat n) (- Z.of_nat a))) by lia. cbn [orb].
  rewrite (proj2 (Z.ltb_lt (- Z.of_nat a) 0)) by lia. rewrite (proj2 (Z.ltb_ge _ _)) by lia. rewrite Nat2Z.id. do 3 f_equal. lia.
Qed.
Lemma slice_end_ok n a b (xs : list (list A)) lens rows :
  padded xs lens rows -> Forall (fun x => length x = n) xs -> 0 < b -> b <= a -> a <= n ->
  exists olens out, slice lens rows (StartInt (- Z.of_nat a)) (Some (- Z.of_nat b)%Z) 1 NoSize = Ok (olens, out) /\
    padded (map (fun x => firstn (a - b) (skipn (n - a) x)) xs) olens out.
Proof.
  intros HP HF Hb Hba Ha. rewrite Forall_forall in HF.
  assert (M : xs <> [] -> list_max lens = n).
  { destruct HP as [-> _]. clear - HF. induction xs as [|x xs IH]; [easy|]. intros _. cbn. specialize (HF x (or_introl eq_refl)) as Hx.
    destruct xs as [|y xs]; [cbn; lia|]. unfold list_max in IH. rewrite IH; [lia| |easy]. intros z Hz. apply HF. now right. }
  assert (E : mapM (narrow (- Z.of_nat a) (Z.of_nat (a - b))) rows = Ok (map (fun x => firstn (a - b) (skipn (n - a) x)) xs)).
  { apply (mapM_narrow _ _ _ xs lens); [easy|]. intros x junk Hx HL. rewrite M in HL by (intros ->; easy).
    assert (junk = []) as -> by (rewrite app_length, (HF x Hx) in HL; destruct junk; cbn in HL; [easy|lia]).
    rewrite app_nil_r. apply narrow_end; [now apply HF|lia|lia]. }
  exists (map (fun _ => a - b) lens), (map (fun x => firstn (a - b) (skipn (n - a) x)) xs). split.
  - unfold slice, slice_out. cbn [Nat.eqb]. unfold slice_dim.
    rewrite (proj2 (Z.leb_gt 0 (- Z.of_nat a))) by lia. rewrite (proj2 (Z.ltb_lt (- Z.of_nat b) 0)) by lia.
    replace (- - Z.of_nat a + - Z.of_nat b)%Z with (Z.of_nat (a - b)) by lia. rewrite (proj2 (Z.ltb_ge _ 0)) by lia. cbn [bind].
    replace (- Z.of_nat b - - Z.of_nat a)%Z with (Z.of_nat (a - b)) by lia. rewrite E. now rewrite Nat2Z.id.
  - replace (map (fun _ => a - b) lens) with (map (fun _ : list A => a - b) (map (fun x => firstn (a - b) (skipn (n - a) x)) xs)).
    + apply padded_static. apply Forall_forall. intros y Hy. apply in_map_iff in Hy as (x & <- & Hx). specialize (HF x Hx).
      rewrite firstn_length, skipn_length. lia.
    + destruct HP as [-> _]. now rewrite !map_map.
Qed.
Lemma narrow_before z w (rows : list (list A)) : rows <> [] -> Forall (fun r => (z < - Z.of_nat (length r))%Z) rows -> is_ok (mapM (narrow z w) rows) = false.
Proof.
  intros Hne HF. destruct HF as [|r rows Hr HF]; [easy|]. cbn [mapM]. unfold narrow at 1.
  destruct (w <? 0)%Z; [reflexivity|]. rewrite (proj2 (Z.ltb_lt z (- Z.of_nat (length r)))) by lia. reflexivity.
Qed.
Lemma slice_refused (rows : list (list A)) lens st stop step size :
  step = 0 \/ (size <> NoSize /\ step <> 1) \/ (size <> NoSize /\ stop <> None) \/
  (size = NoSize /\ exists a e, st = StartInt (Z.neg a) /\ stop = Some (Z.of_nat e)) \/
  (exists z, st = StartInt z /\ rows <> [] /\ Forall (fun r => (z < - Z.of_nat (length r))%Z) rows) ->
  is_ok (slice lens rows st stop step size) = false.
Proof.
  unfold slice. destruct (slice_out lens st stop step size) as [ls|x] eqn:E; [|reflexivity]. cbn [bind].
  unfold slice_out in E. intros [->|[[H1 H2]|[[H1 H2]|[(-> & a & e & -> & ->)|(z & -> & H1 & H2)]]]].
  - discriminate.
  - destruct (step =? 0); [discriminate|]. apply Nat.eqb_neq in H2. rewrite H2 in E. destruct size; easy.
  - destruct stop; [|easy]. destruct size; easy.
  - destruct (step =? 0); [discriminate|]. unfold slice_dim in E. change (0 <=? Z.neg a)%Z with false in E. cbn [bind] in E.
    destruct (Z.ltb_spec (Z.of_nat e) 0); [lia|]. discriminate.
  - destruct size.
    + pose proof (narrow_before z ((match stop with None => Z.of_nat (dim_value lens) | Some e => e end) - z) rows H1 H2) as N.
      now destruct (mapM _ rows).
    + destruct stop; [reflexivity|]. cbn [assert_ bind]. pose proof (narrow_before z (Z.of_nat n) rows H1 H2) as N. now destruct (mapM _ rows).
    + destruct stop; [reflexivity|]. cbn [assert_ bind]. pose proof (narrow_before z (Z.of_nat (dim_value lens0)) rows H1 H2) as N. now destruct (mapM _ rows).
Qed.
Lemma pad_tensor_once (zero : A) left right vs xs lens rows :
  padded xs lens rows -> xs <> [] -> length vs = length xs -> 0 < right -> left + right <> 1 ->
  is_ok (pad zero true left right (PerSeq vs) lens rows) = false.
Proof.
  intros [-> H] Hne HL Hr Hlr. unfold pad, pad_masking. cbn [pad_rows]. destruct (Nat.eqb_spec right 0); [lia|].
  destruct xs as [|x xs]; [easy|]. inversion H as [|x' row xs' rows' [(junk & ->) Hrow] H']; subst. clear H. destruct vs as [|v vs]; [discriminate|].
  cbn [combine map mapM fst snd]. unfold where_before at 1. rewrite list_max_dim_value. cbn [map] in *. rewrite app_length, Hrow. cbn [length].
  match goal with |- context [?a =? ?b] => destruct (Nat.eqb_spec a b); [lia|] end. reflexivity.
Qed.
End More.
