(** Proofs about the automata. *)
From Verif Require Import Base ListLemmas FsaModel FsaSpec.
Local Open Scope Z_scope.

(** ** Counting paths *)
Definition out (es : list edge) (s : nat) : list edge := filter (fun e => (e_from e =? s)%nat) es.
Lemma filter_filter : forall A (f g : A -> bool) l, filter f (filter g l) = filter (fun x => g x && f x) l.
Proof.
  induction l as [|x l IH]; [reflexivity|]. cbn [filter]. destruct (g x) eqn:E; cbn [filter andb]; [|exact IH].
  destruct (f x); rewrite IH; reflexivity.
Qed.
Lemma total_app : forall a b, total (a ++ b) = (total a + total b)%nat.
Proof. induction a as [|x a IH]; intros b; cbn [total fold_right app]; [reflexivity|]. fold (total (a ++ b)) (total a). rewrite IH. lia. Qed.
(** The paths through one edge. *)
Definition via (es : list edge) (x : Z) (xs : list Z) (t : nat) (e : edge) : nat :=
  if e_emit e =? x then count_paths es (e_to e) xs t else O.
Lemma count_cons : forall es s x xs t, count_paths es s (x :: xs) t = total (map (via es x xs t) (out es s)).
Proof.
  intros es s x xs t. cbn [count_paths]. unfold out. rewrite <- (filter_filter _ (fun e => e_emit e =? x)).
  induction (filter (fun e => (e_from e =? s)%nat) es) as [|e l IH]; [reflexivity|].
  cbn [filter map total fold_right]. fold (total (map (via es x xs t) l)). unfold via at 1. destruct (e_emit e =? x); [|exact IH].
  cbn [map total fold_right]. rewrite <- IH. reflexivity.
Qed.
Lemma out_app : forall a b s, out (a ++ b) s = out a s ++ out b s.
Proof. intros. apply filter_app. Qed.
Lemma out_none : forall es s, (forall e, In e es -> e_from e <> s) -> out es s = [].
Proof.
  induction es as [|e es IH]; intros s H; [reflexivity|]. cbn [out filter]. destruct (Nat.eqb_spec (e_from e) s) as [E|E].
  - exfalso. apply (H e); [left; reflexivity|exact E].
  - apply IH. intros e' Hin. apply H. right. exact Hin.
Qed.
Lemma out_mk : forall s t x b es q, out (mk s t x b :: es) q = (if (s =? q)%nat then [mk s t x b] else []) ++ out es q.
Proof. intros. cbn [out filter e_from mk]. destruct (s =? q)%nat; reflexivity. Qed.
Lemma out_nil : forall q, out [] q = [].
Proof. reflexivity. Qed.

(** ** Collapsing *)
Fixpoint coll (blank prev : Z) (xs : list Z) : list Z :=
  match xs with
  | [] => []
  | x :: r => if (x =? prev) || (x =? blank) then coll blank x r else x :: coll blank x r
  end.
Lemma collapse_cons : forall blank r x, collapse blank (x :: r) = (if x =? blank then [] else [x]) ++ coll blank x r.
Proof.
  intros blank. unfold collapse. induction r as [|y r IH]; intros x.
  - cbn. destruct (x =? blank); reflexivity.
  - assert (E : merge_repeated (x :: y :: r) = if x =? y then merge_repeated (y :: r) else x :: merge_repeated (y :: r)) by reflexivity.
    rewrite E. clear E. cbn [coll]. destruct (Z.eqb_spec x y) as [-> |Hxy].
    + rewrite IH, Z.eqb_refl. cbn [orb]. reflexivity.
    + assert (E : (y =? x) = false) by (apply Z.eqb_neq; congruence). rewrite E. cbn [orb filter]. rewrite IH.
      destruct (x =? blank), (y =? blank); reflexivity.
Qed.
Lemma collapse_coll : forall blank xs, collapse blank xs = coll blank blank xs.
Proof.
  intros blank [|x r]; [reflexivity|]. rewrite collapse_cons. cbn [coll]. rewrite orb_diag. destruct (x =? blank); reflexivity.
Qed.

Lemma list_eqb_spec : forall a b, list_eqb a b = true <-> a = b.
Proof. intros a b. unfold list_eqb. destruct (list_eq_dec Z.eq_dec a b); split; intros H; congruence. Qed.
Lemma list_eqb_cons : forall x y a b, list_eqb (x :: a) (y :: b) = (x =? y) && list_eqb a b.
Proof.
  intros x y a b. unfold list_eqb. destruct (list_eq_dec Z.eq_dec (x :: a) (y :: b)) as [E|E], (list_eq_dec Z.eq_dec a b) as [E'|E'], (Z.eqb_spec x y) as [E2|E2]; try reflexivity; congruence.
Qed.

(** ** The CTC automaton by recursion over the labels *)
Section Ctc.
Variable blank : Z.
Variable b : nat.
Definition block (s : nat) (l : Z) (ts : list Z) : list edge :=
  match ts with
  | [] => [mk s (s + 1) l b; mk s (s + 3) l b; mk (s + 1) (s + 1) l b; mk (s + 1) (s + 2) blank b;
           mk (s + 1) (s + 3) l b; mk (s + 1) (s + 3) blank b; mk (s + 2) (s + 2) blank b; mk (s + 2) (s + 3) blank b]
  | t :: ts' => [mk s (s + 1) l b; mk (s + 1) (s + 1) l b; mk (s + 1) (s + 2) blank b]
      ++ (if l =? t then [] else mk (s + 1) (s + 3) t b :: match ts' with [] => [mk (s + 1) (s + 5) t b] | _ => [] end)
      ++ [mk (s + 2) (s + 2) blank b]
  end.
Fixpoint blocks (s : nat) (ts : list Z) : list edge :=
  match ts with [] => [] | l :: ts' => block s l ts' ++ blocks (s + 2) ts' end.
Definition last_state (s : nat) (ts : list Z) : nat := match ts with [] => s | _ => (s + 2 * length ts + 1)%nat end.

Lemma skipn_nth : forall (row : list Z) i, (i < length row)%nat -> skipn i row = nth i row 0 :: skipn (S i) row.
Proof.
  induction row as [|x row IH]; intros i H; [cbn in H; lia|]. destruct i as [|i]; [reflexivity|]. cbn [length] in H. cbn [skipn nth].
  rewrite (IH i) by lia. reflexivity.
Qed.
Lemma labels_blocks : forall n row i s, (i + n <= length row)%nat ->
  ctc_labels blank b row (i + n) (seq i n) s = (blocks s (firstn n (skipn i row)), last_state s (firstn n (skipn i row))).
Proof.
  induction n as [|n IH]; intros row i s H; [reflexivity|].
  cbn [seq ctc_labels]. rewrite (skipn_nth row i) by lia. cbn [firstn blocks].
  unfold ctc_label. destruct n as [|n].
  - replace (i + 1 =? i + 1)%nat with true by (symmetry; apply Nat.eqb_eq; lia).
    replace (i + 2 =? i + 1)%nat with false by (symmetry; apply Nat.eqb_neq; lia).
    cbn [negb andb seq ctc_labels firstn blocks block app last_state length]. f_equal; [|lia].
    replace (s + 1 + 1)%nat with (s + 2)%nat by lia. replace (s + 1 + 2)%nat with (s + 3)%nat by lia. replace (s + 2 + 1)%nat with (s + 3)%nat by lia. reflexivity.
  - replace (i + 1 =? i + S (S n))%nat with false by (symmetry; apply Nat.eqb_neq; lia). cbn [negb andb].
    specialize (IH row (i + 1)%nat). replace (i + 1 + S n)%nat with (i + S (S n))%nat in IH by lia.
    replace (S i) with (i + 1)%nat by lia. rewrite IH by lia.
    rewrite (skipn_nth row (i + 1)) by lia. cbn [firstn]. set (l := nth i row 0). set (t := nth (i + 1) row 0).
    set (ts := firstn n (skipn (S (i + 1)) row)).
    assert (En : (i + 2 =? i + S (S n))%nat = match ts with [] => true | _ => false end).
    { subst ts. destruct n as [|n]; [cbn [firstn]; apply Nat.eqb_eq; lia|]. rewrite (skipn_nth row (S (i + 1))) by lia. cbn [firstn]. apply Nat.eqb_neq. lia. }
    rewrite En. cbn [block last_state length]. f_equal; [|lia].
    replace (s + 1 + 1)%nat with (s + 2)%nat by lia. rewrite !app_nil_r. replace (s + 1 + 2)%nat with (s + 3)%nat by lia. replace (s + 1 + 4)%nat with (s + 5)%nat by lia.
    destruct (l =? t), ts; cbn [negb app]; reflexivity.
Qed.

(** ** The language of the CTC automaton *)
Variable es : list edge.
Variable fin : nat.
Notation cnt := (fun q xs => count_paths es q xs fin).

(** [es] contains the automaton for the labels [ts] from state [s] on. *)
Definition holds (s : nat) (ts : list Z) : Prop :=
  fin = (s + 2 * length ts + 1)%nat /\
  out es s = mk s s blank b :: out (blocks s ts) s /\
  (forall q, (s < q)%nat -> out es q = out (blocks s ts) q).
Lemma blocks_from : forall ts s e, In e (blocks s ts) -> (s <= e_from e)%nat.
Proof.
  induction ts as [|l ts IH]; intros s e H; [destruct H|]. cbn [blocks] in H. apply in_app_or in H. destruct H as [H|H].
  - unfold block in H. destruct ts as [|t ts'].
    + cbn in H. repeat (destruct H as [<- |H]; [cbn; lia|]). destruct H.
    + apply in_app_or in H. destruct H as [H|H]; [cbn in H; repeat (destruct H as [<- |H]; [cbn; lia|]); destruct H|].
      apply in_app_or in H. destruct H as [H|H]; [|cbn in H; repeat (destruct H as [<- |H]; [cbn; lia|]); destruct H].
      destruct (l =? t); [destruct H|]. destruct H as [<- |H]; [cbn; lia|]. destruct ts'; [|destruct H]. destruct H as [<- |H]; [cbn; lia|destruct H].
  - apply IH in H. lia.
Qed.
Lemma out_blocks_none : forall ts s q, (q < s)%nat -> out (blocks s ts) q = [].
Proof. intros ts s q H. apply out_none. intros e Hin. apply blocks_from in Hin. lia. Qed.
Lemma out_mk_eq : forall s t x c l q, s = q -> out (mk s t x c :: l) q = mk s t x c :: out l q.
Proof. intros. rewrite out_mk. replace (s =? q)%nat with true by (symmetry; apply Nat.eqb_eq; assumption). reflexivity. Qed.
Lemma out_mk_neq : forall s t x c l q, s <> q -> out (mk s t x c :: l) q = out l q.
Proof. intros. rewrite out_mk. replace (s =? q)%nat with false by (symmetry; apply Nat.eqb_neq; assumption). reflexivity. Qed.
Ltac outs := repeat (first [rewrite out_mk_eq by lia | rewrite out_mk_neq by lia | rewrite out_app | rewrite out_nil | rewrite out_blocks_none by lia | rewrite app_nil_r | rewrite app_nil_l]).

Lemma holds_first : forall s l ts, holds s (l :: ts) ->
  out es s = mk s s blank b :: mk s (s + 1) l b :: match ts with [] => [mk s (s + 3) l b] | _ => [] end.
Proof.
  intros s l ts (_ & H & _). rewrite H. f_equal. cbn [blocks]. destruct ts as [|t ts]; cbn [block app]; outs; [reflexivity|].
  destruct (l =? t); [|destruct ts]; cbn [app]; outs; reflexivity.
Qed.
Lemma holds_label : forall s l ts, holds s (l :: ts) ->
  out es (s + 1) = mk (s + 1) (s + 1) l b :: mk (s + 1) (s + 2) blank b ::
    match ts with
    | [] => [mk (s + 1) (s + 3) l b; mk (s + 1) (s + 3) blank b]
    | t :: ts' => if l =? t then [] else mk (s + 1) (s + 3) t b :: match ts' with [] => [mk (s + 1) (s + 5) t b] | _ => [] end
    end.
Proof.
  intros s l ts (_ & _ & H). rewrite H by lia. cbn [blocks]. destruct ts as [|t ts]; cbn [block app]; outs; [reflexivity|].
  destruct (l =? t); [|destruct ts]; cbn [app]; outs; reflexivity.
Qed.
Lemma holds_next : forall s l t ts, holds s (l :: t :: ts) -> holds (s + 2) (t :: ts).
Proof.
  intros s l t ts (H1 & _ & H). split; [cbn [length] in *; lia|]. split.
  - rewrite H by lia. change (blocks s (l :: t :: ts)) with (block s l (t :: ts) ++ blocks (s + 2) (t :: ts)). rewrite out_app. cbn [block].
    destruct (l =? t); [|destruct ts]; cbn [app]; outs; reflexivity.
  - intros q Hq. rewrite H by lia. change (blocks s (l :: t :: ts)) with (block s l (t :: ts) ++ blocks (s + 2) (t :: ts)). rewrite out_app. cbn [block].
    destruct (l =? t); [|destruct ts]; cbn [app]; outs; reflexivity.
Qed.
Lemma holds_last : forall s l, holds s [l] ->
  out es (s + 2) = [mk (s + 2) (s + 2) blank b; mk (s + 2) (s + 3) blank b] /\ out es (s + 3) = [] /\ fin = (s + 3)%nat.
Proof.
  intros s l (H1 & _ & H). rewrite !H by lia. cbn [blocks block]. rewrite app_nil_r. repeat split; outs; try reflexivity. cbn [length] in H1. lia.
Qed.

Lemma final_paths : forall s l xs, holds s [l] -> cnt (s + 3)%nat xs = exactly (list_eqb [] xs).
Proof.
  intros s l [|x xs] H; destruct (holds_last s l H) as (_ & H2 & H3); cbn beta.
  - cbn [count_paths]. rewrite H3, Nat.eqb_refl. reflexivity.
  - rewrite count_cons, H2. reflexivity.
Qed.

Definition nonempty {A} (l : list A) : bool := match l with [] => false | _ => true end.
Lemma last_blank_paths : forall s l xs, holds s [l] -> cnt (s + 2)%nat xs = exactly (list_eqb [] (coll blank blank xs) && nonempty xs).
Proof.
  intros s l xs H. destruct (holds_last s l H) as (H1 & H2 & H3). induction xs as [|x xs IH].
  - cbn [count_paths]. rewrite H3. replace (s + 2 =? s + 3)%nat with false by (symmetry; apply Nat.eqb_neq; lia). reflexivity.
  - cbn beta in *. rewrite count_cons, H1. cbn [map total fold_right]. unfold via. cbn [mk e_emit e_to]. rewrite IH.
    pose proof (final_paths s l xs H) as Hf. cbn beta in Hf. rewrite Hf. clear IH Hf. cbn [coll nonempty]. rewrite andb_true_r, orb_diag.
    rewrite (Z.eqb_sym blank x). destruct (Z.eqb_spec x blank) as [-> |Hx]; [|reflexivity].
    destruct xs as [|y xs]; [reflexivity|]. cbn [nonempty]. rewrite andb_true_r. unfold list_eqb at 2. destruct (list_eq_dec Z.eq_dec [] (y :: xs)) as [E|]; [discriminate E|].
    cbn [exactly]. lia.
Qed.

Lemma ctc_paths : forall ts l s, holds s (l :: ts) -> Forall (fun t => t <> blank) (l :: ts) ->
  (forall xs, cnt (s + 1)%nat xs = exactly (list_eqb ts (coll blank l xs) && (nonempty ts || nonempty xs))) /\
  (forall xs, cnt s xs = exactly (list_eqb (l :: ts) (coll blank blank xs))).
Proof.
  induction ts as [|t ts IHts]; intros l s H Hf; inversion Hf as [|? ? Hl Hf']; subst.
  - assert (HL : forall xs, cnt (s + 1)%nat xs = exactly (list_eqb [] (coll blank l xs) && nonempty xs)).
    { induction xs as [|x xs IH].
      - cbn [count_paths]. destruct (holds_last s l H) as (_ & _ & H3). rewrite H3. replace (s + 1 =? s + 3)%nat with false by (symmetry; apply Nat.eqb_neq; lia). reflexivity.
      - cbn beta in *. rewrite count_cons, (holds_label _ _ _ H). cbn [map total fold_right]. unfold via. cbn [mk e_emit e_to].
        pose proof (final_paths s l xs H) as Hfp. pose proof (last_blank_paths s l xs H) as Hb. cbn beta in Hfp, Hb. rewrite IH, Hb, Hfp. clear IH Hb Hfp.
        cbn [coll nonempty]. rewrite andb_true_r. rewrite (Z.eqb_sym l x), (Z.eqb_sym blank x).
        destruct (Z.eqb_spec x l) as [-> |Hx].
        + replace (l =? blank) with false by (symmetry; apply Z.eqb_neq; exact Hl). cbn [orb].
          destruct xs as [|y xs]; [reflexivity|]. cbn [nonempty]. rewrite !andb_true_r. unfold list_eqb at 2. destruct (list_eq_dec Z.eq_dec [] (y :: xs)) as [E|]; [discriminate E|]. cbn [exactly]. lia.
        + destruct (Z.eqb_spec x blank) as [-> |Hx2]; cbn [orb]; [|reflexivity].
          destruct xs as [|y xs]; [reflexivity|]. cbn [nonempty]. rewrite !andb_true_r. unfold list_eqb at 2. destruct (list_eq_dec Z.eq_dec [] (y :: xs)) as [E|]; [discriminate E|]. cbn [exactly]. lia. }
    split; [exact HL|]. induction xs as [|x xs IH].
    + cbn [count_paths coll]. destruct (holds_last s l H) as (_ & _ & H3). rewrite H3. replace (s =? s + 3)%nat with false by (symmetry; apply Nat.eqb_neq; lia). reflexivity.
    + cbn beta in *. rewrite count_cons, (holds_first _ _ _ H). cbn [map total fold_right]. unfold via. cbn [mk e_emit e_to].
      pose proof (final_paths s l xs H) as Hfp. cbn beta in Hfp. rewrite IH, HL, Hfp. clear IH HL Hfp.
      cbn [coll]. rewrite orb_diag, (Z.eqb_sym l x), (Z.eqb_sym blank x). destruct (Z.eqb_spec x blank) as [-> |Hx].
      * replace (blank =? l) with false by (symmetry; apply Z.eqb_neq; congruence). lia.
      * rewrite list_eqb_cons, (Z.eqb_sym l x). destruct (Z.eqb_spec x l) as [-> |Hx2]; [|reflexivity]. cbn [andb].
        destruct xs as [|y xs]; [reflexivity|]. cbn [nonempty]. rewrite andb_true_r. unfold list_eqb at 2. destruct (list_eq_dec Z.eq_dec [] (y :: xs)) as [E|]; [discriminate E|]. cbn [exactly]. lia.
  - pose proof (holds_next _ _ _ _ H) as Hn. destruct (IHts t (s + 2)%nat Hn Hf') as (IL & IB). clear IHts. cbn beta in IL, IB.
    replace (s + 2 + 1)%nat with (s + 3)%nat in IL by lia.
    assert (Ht : t <> blank) by (inversion Hf'; assumption).
    assert (Hskip : forall xs, (cnt (s + 3)%nat xs + match ts with [] => cnt (s + 5)%nat xs | _ => O end)%nat = exactly (list_eqb ts (coll blank t xs))).
    { intros xs. cbn beta. rewrite IL. destruct ts as [|t2 ts].
      - pose proof (final_paths (s + 2) t xs Hn) as Hfp. cbn beta in Hfp. replace (s + 2 + 3)%nat with (s + 5)%nat in Hfp by lia. rewrite Hfp.
        destruct xs as [|y xs]; [reflexivity|]. cbn [nonempty orb]. rewrite andb_true_r. unfold list_eqb at 2. destruct (list_eq_dec Z.eq_dec [] (y :: xs)) as [E|]; [discriminate E|]. cbn [exactly]. lia.
      - cbn [nonempty orb]. rewrite andb_true_r. apply Nat.add_0_r. }
    assert (HL : forall xs, cnt (s + 1)%nat xs = exactly (list_eqb (t :: ts) (coll blank l xs))).
    { induction xs as [|x xs IH].
      - cbn [count_paths coll]. destruct H as (H3 & _). rewrite H3. replace (s + 1 =? _)%nat with false by (symmetry; apply Nat.eqb_neq; cbn [length]; lia). reflexivity.
      - cbn beta in *. rewrite count_cons, (holds_label _ _ _ H). cbn [coll]. specialize (Hskip xs). cbn beta in Hskip.
        destruct (Z.eqb_spec l t) as [-> |Hlt].
        + cbn [map total fold_right]. unfold via. cbn [mk e_emit e_to]. rewrite IH, IB. rewrite (Z.eqb_sym t x), (Z.eqb_sym blank x).
          destruct (Z.eqb_spec x t) as [-> |Hx].
          * replace (t =? blank) with false by (symmetry; apply Z.eqb_neq; exact Ht). cbn [orb]. lia.
          * destruct (Z.eqb_spec x blank) as [-> |Hx2]; cbn [orb]; [lia|]. rewrite list_eqb_cons. replace (t =? x) with false by (symmetry; apply Z.eqb_neq; congruence). reflexivity.
        + assert (E : total (map (via es x xs fin) (mk (s + 1) (s + 3) t b :: match ts with [] => [mk (s + 1) (s + 5) t b] | _ => [] end))
                      = if t =? x then exactly (list_eqb ts (coll blank t xs)) else O).
          { rewrite <- Hskip. destruct ts; cbn [map total fold_right]; unfold via; cbn [mk e_emit e_to]; destruct (t =? x); lia. }
          cbn [map total fold_right] in E |- *. rewrite E. clear E. unfold via. cbn [mk e_emit e_to]. rewrite IH, IB. rewrite (Z.eqb_sym l x), (Z.eqb_sym blank x).
          destruct (Z.eqb_spec x l) as [-> |Hx].
          * replace (l =? blank) with false by (symmetry; apply Z.eqb_neq; exact Hl). cbn [orb]. replace (t =? l) with false by (symmetry; apply Z.eqb_neq; congruence). lia.
          * destruct (Z.eqb_spec x blank) as [-> |Hx2]; cbn [orb].
            -- replace (t =? blank) with false by (symmetry; apply Z.eqb_neq; exact Ht). lia.
            -- rewrite list_eqb_cons. destruct (Z.eqb_spec t x) as [-> |]; reflexivity. }
    split; [intros xs; rewrite HL; cbn [nonempty orb]; rewrite andb_true_r; reflexivity|].
    induction xs as [|x xs IH].
    + cbn [count_paths coll]. destruct H as (H3 & _). rewrite H3. replace (s =? _)%nat with false by (symmetry; apply Nat.eqb_neq; cbn [length]; lia). reflexivity.
    + cbn beta in *. rewrite count_cons, (holds_first _ _ _ H). cbn [map total fold_right]. unfold via. cbn [mk e_emit e_to]. rewrite IH, HL.
      cbn [coll]. rewrite orb_diag, (Z.eqb_sym l x), (Z.eqb_sym blank x). destruct (Z.eqb_spec x blank) as [-> |Hx].
      * replace (blank =? l) with false by (symmetry; apply Z.eqb_neq; congruence). lia.
      * rewrite list_eqb_cons, (Z.eqb_sym l x). destruct (Z.eqb_spec x l) as [-> |Hx2]; [|reflexivity]. cbn [andb]. lia.
Qed.

(** No labels: only blanks. *)
Lemma empty_paths : forall s xs, fin = s -> out es s = [mk s s blank b] -> cnt s xs = exactly (list_eqb [] (coll blank blank xs)).
Proof.
  intros s xs Hfin H. induction xs as [|x xs IH]; cbn beta in *.
  - cbn [count_paths]. rewrite Hfin, Nat.eqb_refl. reflexivity.
  - rewrite count_cons, H. cbn [map total fold_right]. unfold via. cbn [mk e_emit e_to]. rewrite IH. cbn [coll]. rewrite orb_diag, (Z.eqb_sym blank x).
    destruct (Z.eqb_spec x blank) as [-> |]; [lia|reflexivity].
Qed.
End Ctc.

(** ** Batches *)
Definition seq_edges (es : list edge) (b : nat) : list edge := filter (fun e => (e_seq e =? b)%nat) es.
Lemma seq_all : forall es b, (forall e, In e es -> e_seq e = b) -> seq_edges es b = es.
Proof. intros es b H. apply filter_all. intros e Hin. apply Nat.eqb_eq. auto. Qed.
Lemma seq_none : forall es b, (forall e, In e es -> e_seq e <> b) -> seq_edges es b = [].
Proof.
  induction es as [|e es IH]; intros b H; [reflexivity|]. cbn [seq_edges filter]. destruct (Nat.eqb_spec (e_seq e) b) as [E|E].
  - exfalso. apply (H e); [left; reflexivity|exact E].
  - apply IH. intros e' Hin. apply H. right. exact Hin.
Qed.
Lemma seq_app : forall a a' b, seq_edges (a ++ a') b = seq_edges a b ++ seq_edges a' b.
Proof. intros. apply filter_app. Qed.
Lemma blocks_in : forall blank b ts s e, In e (blocks blank b s ts) ->
  e_seq e = b /\ (s <= e_from e <= last_state s ts)%nat /\ (s <= e_to e <= last_state s ts)%nat.
Proof.
  intros blank b. induction ts as [|l ts IH]; intros s e H; [destruct H|]. cbn [blocks] in H. apply in_app_or in H. destruct H as [H|H].
  - unfold block in H. destruct ts as [|t ts'].
    + cbn in H. repeat (destruct H as [<- |H]; [cbn; lia|]). destruct H.
    + cbn [last_state length]. apply in_app_or in H. destruct H as [H|H]; [cbn in H; repeat (destruct H as [<- |H]; [cbn; lia|]); destruct H|].
      apply in_app_or in H. destruct H as [H|H]; [|cbn in H; repeat (destruct H as [<- |H]; [cbn; lia|]); destruct H].
      destruct (l =? t); [destruct H|]. destruct H as [<- |H]; [cbn; lia|]. destruct ts'; [|destruct H]. destruct H as [<- |H]; [cbn; lia|destruct H].
  - apply IH in H. destruct ts as [|t ts]; [cbn [last_state length] in *; lia|]. cbn [last_state length] in *. lia.
Qed.

(** The automata of the sequences lie one after the other. *)
Inductive laid_out : nat -> nat -> list edge -> list (nat * nat) -> list (list edge) -> Prop :=
| laid_nil : forall b s, laid_out b s [] [] []
| laid_cons : forall b s t es es' se own, (s <= t)%nat ->
    (forall e, In e es -> e_seq e = b /\ (s <= e_from e <= t)%nat /\ (s <= e_to e <= t)%nat) ->
    laid_out (b + 1) (t + 1) es' se own -> laid_out b s (es ++ es') ((s, t) :: se) (es :: own).
Lemma laid_seq : forall b s es se own, laid_out b s es se own -> forall e, In e es -> (b <= e_seq e < b + length se)%nat.
Proof.
  intros b s es se own H. induction H as [|b s t es es' se own Hst Hes Hl IH]; intros e Hin; [destruct Hin|].
  cbn [length]. apply in_app_or in Hin. destruct Hin as [Hin|Hin]; [destruct (Hes e Hin); lia|]. specialize (IH e Hin). lia.
Qed.
Lemma laid_own : forall b s es se own, laid_out b s es se own -> forall k, (k < length se)%nat -> nth_error own k = Some (seq_edges es (b + k)).
Proof.
  intros b s es se own H. induction H as [|b s t es es' se own Hst Hes Hl IH]; intros k Hk; [cbn in Hk; lia|].
  rewrite seq_app. destruct k as [|k].
  - rewrite Nat.add_0_r, seq_all by (intros e Hin; apply Hes; exact Hin). rewrite seq_none, app_nil_r; [reflexivity|].
    intros e Hin. pose proof (laid_seq _ _ _ _ _ Hl e Hin). lia.
  - rewrite seq_none; [|intros e Hin; destruct (Hes e Hin); lia]. cbn [nth_error app length] in *. replace (b + S k)%nat with (b + 1 + k)%nat by lia. apply IH. lia.
Qed.
Lemma laid_start : forall b s es se own, laid_out b s es se own -> forall k s' t', nth_error se k = Some (s', t') -> (s <= s' <= t')%nat.
Proof.
  intros b s es se own H. induction H as [|b s t es es' se own Hst Hes Hl IH]; intros k s' t' Hk; [destruct k; discriminate Hk|].
  destruct k as [|k]; cbn [nth_error] in Hk; [injection Hk as <- <-; lia|]. specialize (IH _ _ _ Hk). lia.
Qed.
Lemma laid_separate : forall s f own, laid_out 0 s (f_edges f) (f_start_end f) own -> separate f.
Proof.
  intros s [es se] own H. cbn [f_edges f_start_end] in H. unfold separate. cbn [f_edges f_start_end].
  assert (H0 : (forall e, In e es -> exists s1 t1, nth_error se (e_seq e - 0) = Some (s1, t1) /\ (s1 <= e_from e <= t1)%nat /\ (s1 <= e_to e <= t1)%nat) /\
    (forall k s1 t1 s2 t2, nth_error se k = Some (s1, t1) -> nth_error se (S k) = Some (s2, t2) -> (s1 <= t1 < s2)%nat)).
  { revert H. generalize 0%nat as b. intros b H. induction H as [b s|b s t es es' se own Hst Hes Hl IH]; [split; [intros e []|intros [|k] ? ? ? ? E; discriminate E]|].
    destruct IH as (I1 & I2). split.
    - intros e Hin. apply in_app_or in Hin. destruct Hin as [Hin|Hin].
      + destruct (Hes e Hin) as (E & R1 & R2). exists s, t. replace (e_seq e - b)%nat with O by lia. auto.
      + pose proof (laid_seq _ _ _ _ _ Hl e Hin) as Hs. destruct (I1 e Hin) as (s1 & t1 & E & R). exists s1, t1.
        replace (e_seq e - b)%nat with (S (e_seq e - (b + 1))) by lia. auto.
    - intros [|k] s1 t1 s2 t2 E1 E2; [|apply (I2 k s1 t1 s2 t2); assumption]. cbn [nth_error] in E1. injection E1 as <- <-.
      change (nth_error se 0 = Some (s2, t2)) in E2. pose proof (laid_start _ _ _ _ _ Hl _ _ _ E2). lia. }
  destruct H0 as (H1 & H2). split; [|exact H2]. intros e Hin. destruct (H1 e Hin) as (s1 & t1 & E & R). rewrite Nat.sub_0_r in E. eauto.
Qed.

Lemma ctc_laid : forall blank n_time rows lens b s f, Forall (fun r => length r = n_time) rows -> length lens = length rows ->
  ctc_seqs blank n_time b rows lens s = Ok f ->
  exists own, laid_out b s (f_edges f) (f_start_end f) own /\ length (f_start_end f) = length rows /\
    forall k row len, nth_error rows k = Some row -> nth_error lens k = Some len -> exists s' ,
      nth_error (f_start_end f) k = Some (s', last_state s' (firstn len row)) /\
      nth_error own k = Some (mk s' s' blank (b + k) :: blocks blank (b + k) s' (firstn len row)).
Proof.
  intros blank n_time. induction rows as [|row rows IH]; intros lens b s f Hr Hl H.
  - cbn in H. injection H as <-. exists []. split; [constructor|]. split; [reflexivity|]. intros [|k] ? ? E; discriminate E.
  - destruct lens as [|len lens]; [discriminate Hl|]. inversion Hr as [|? ? Hr1 Hr2]; subst. cbn [ctc_seqs] in H.
    apply bind_Ok in H. destruct H as (u & Ha & H). apply assert_Ok in Ha. apply Nat.leb_le in Ha.
    pose proof (labels_blocks blank b len row 0 s Ha) as E. cbn [skipn Nat.add] in E. rewrite E in H.
    apply bind_Ok in H. destruct H as (r & Hrec & H). apply Ok_inj in H. subst f. cbn [f_edges f_start_end].
    destruct (IH lens (b + 1)%nat _ r Hr2 ltac:(cbn in Hl; lia) Hrec) as (own & L1 & L2 & L3).
    set (ts := firstn len row) in *. exists ((mk s s blank b :: blocks blank b s ts) :: own). split; [|split].
    + change (mk s s blank b :: blocks blank b s ts ++ f_edges r) with ((mk s s blank b :: blocks blank b s ts) ++ f_edges r).
      assert (Hs : (s <= last_state s ts)%nat) by (unfold last_state; destruct ts; lia).
      constructor; [exact Hs| |exact L1]. intros e [<- |Hin]; [cbn; lia|apply blocks_in in Hin; exact Hin].
    + cbn [length]. rewrite L2. reflexivity.
    + intros [|k] row' len' E1 E2; cbn [nth_error] in *.
      * injection E1 as <-. injection E2 as <-. exists s. rewrite Nat.add_0_r. auto.
      * destruct (L3 k row' len' E1 E2) as (s' & F1 & F2). exists s'. replace (b + S k)%nat with (b + 1 + k)%nat by lia. auto.
Qed.

Theorem ctc_language : forall rows n_time lens blank f, Forall (fun r => length r = n_time) rows -> get_ctc_fsa rows n_time lens blank = Ok f ->
  separate f /\ length (f_start_end f) = length rows /\
  forall k row len, nth_error rows k = Some row -> nth_error lens k = Some len -> Forall (fun t => t <> blank) (firstn len row) ->
    forall xs, paths f k xs = exactly (list_eqb (firstn len row) (collapse blank xs)).
Proof.
  intros rows n_time lens blank f Hr H. unfold get_ctc_fsa in H. apply bind_Ok in H. destruct H as (u & Ha & H). apply assert_Ok in Ha. apply Nat.eqb_eq in Ha.
  destruct (ctc_laid _ _ _ _ _ _ _ Hr Ha H) as (own & L1 & L2 & L3). split; [eapply laid_separate; exact L1|]. split; [exact L2|].
  intros k row len E1 E2 Hf xs. destruct (L3 k row len E1 E2) as (s & F1 & F2). unfold paths. rewrite F1.
  assert (Hk : (k < length (f_start_end f))%nat) by (apply nth_error_Some; rewrite F1; discriminate).
  pose proof (laid_own _ _ _ _ _ L1 k Hk) as F3. rewrite F2 in F3. injection F3 as F3. unfold edges_of. fold (seq_edges (f_edges f) k). rewrite <- F3.
  rewrite collapse_coll. set (ts := firstn len row) in *. clearbody ts. clear F1 F2 F3. destruct ts as [|l ts]; [set (es := mk s s blank k :: blocks blank k s [])|set (es := mk s s blank k :: blocks blank k s (l :: ts))].
  - apply (empty_paths blank k es s s xs); [reflexivity|]. unfold es. cbn [blocks]. rewrite out_mk, Nat.eqb_refl. reflexivity.
  - refine (proj2 (ctc_paths blank k es _ ts l s _ Hf) xs). split; [cbn [last_state length]; lia|]. split.
    + unfold es. rewrite out_mk, Nat.eqb_refl. reflexivity.
    + intros q Hq. unfold es. rewrite out_mk. replace (s =? q)%nat with false by (symmetry; apply Nat.eqb_neq; lia). reflexivity.
Qed.

(** ** Sums over ranges *)
Lemma total_concat : forall A (g : A -> nat) B (h : B -> list A) l, total (map g (concat (map h l))) = total (map (fun j => total (map g (h j))) l).
Proof. intros A g B h. induction l as [|j l IH]; [reflexivity|]. cbn [map concat total fold_right]. rewrite map_app, total_app, IH. reflexivity. Qed.
Lemma total_ext : forall A (f g : A -> nat) l, (forall x, In x l -> f x = g x) -> total (map f l) = total (map g l).
Proof.
  intros A f g. induction l as [|x l IH]; intros H; [reflexivity|]. cbn [map total fold_right]. fold (total (map f l)) (total (map g l)).
  rewrite IH, (H x); [reflexivity|left; reflexivity|]. intros y Hy. apply H. right. exact Hy.
Qed.
Lemma total_single : forall a n y (v : nat -> nat),
  total (map (fun j => if (j =? y)%nat then v j else O) (seq a n)) = if (a <=? y)%nat && (y <? a + n)%nat then v y else O.
Proof.
  intros a n. revert a. induction n as [|n IH]; intros a y v.
  - replace ((a <=? y)%nat && (y <? a + 0)%nat) with false by lia. reflexivity.
  - cbn [seq map total fold_right]. fold (total (map (fun j => if (j =? y)%nat then v j else O) (seq (S a) n))). rewrite IH.
    destruct (Nat.eqb_spec a y) as [-> |H].
    + replace (S y <=? y)%nat with false by (symmetry; apply Nat.leb_gt; lia). replace (y <=? y)%nat with true by (symmetry; apply Nat.leb_le; lia).
      replace (y <? y + S n)%nat with true by (symmetry; apply Nat.ltb_lt; lia). cbn [andb]. lia.
    + replace (S a <=? y)%nat with (a <=? y)%nat by (destruct (a <=? y)%nat eqn:E1, (S a <=? y)%nat eqn:E2; try reflexivity; lia).
      replace (y <? S a + n)%nat with (y <? a + S n)%nat by (f_equal; lia). reflexivity.
Qed.

Lemma out_concat : forall (F : nat -> list edge) s n a i, (forall j e, In e (F j) -> e_from e = (s + j)%nat) ->
  out (concat (map F (seq a n))) (s + i) = if (a <=? i)%nat && (i <? a + n)%nat then F i else [].
Proof.
  intros F s n. induction n as [|n IH]; intros a i H.
  - replace ((a <=? i)%nat && (i <? a + 0)%nat) with false by lia. reflexivity.
  - cbn [seq map concat]. rewrite out_app, (IH (S a) i H). destruct (Nat.eq_dec a i) as [-> |Hne].
    + replace (S i <=? i)%nat with false by (symmetry; apply Nat.leb_gt; lia). replace (i <=? i)%nat with true by (symmetry; apply Nat.leb_le; lia).
      replace (i <? i + S n)%nat with true by (symmetry; apply Nat.ltb_lt; lia). cbn [andb]. rewrite app_nil_r.
      unfold out. apply filter_all. intros e Hin. apply Nat.eqb_eq. apply H. exact Hin.
    + rewrite out_none; [|intros e Hin; rewrite (H a e Hin); lia]. cbn [app].
      replace (S a <=? i)%nat with (a <=? i)%nat by (destruct (a <=? i)%nat eqn:E1, (S a <=? i)%nat eqn:E2; try reflexivity; lia).
      replace (i <? S a + n)%nat with (i <? a + S n)%nat by (f_equal; lia). reflexivity.
Qed.

(** ** The staircase automaton *)
Lemma stair_in : forall b len loop skip state i e, (i < len)%nat -> In e (stair_state b len loop skip state i) ->
  e_seq e = b /\ e_from e = state /\ (state <= e_to e <= state + len - i)%nat.
Proof.
  intros b len loop skip state i e Hi H. unfold stair_state in H. apply in_app_or in H. destruct H as [H|H].
  - destruct loop; [|destruct H]. destruct H as [<- |[]]. cbn. lia.
  - apply in_concat in H. destruct H as (l & Hl & He). apply in_map_iff in Hl. destruct Hl as (j & <- & Hj). apply in_seq in Hj.
    assert (Hj' : (i + 1 <= j <= len)%nat) by (destruct (0 <? skip)%nat; lia). clear Hj. destruct (0 <? i)%nat.
    + destruct He as [<- |[]]. cbn. lia.
    + apply in_app_or in He. destruct He as [He|He].
      * apply in_concat in He. destruct He as (l & Hl & He). apply in_map_iff in Hl. destruct Hl as (t & <- & _).
        destruct (loop && (i =? t)%nat && (j <? len)%nat); [destruct He|]. destruct He as [<- |[]]. cbn. lia.
      * destruct (loop && (j <? len)%nat); [|destruct He]. destruct He as [<- |[]]. cbn. lia.
Qed.

Section Stair.
Variables b len s : nat.
Variable es : list edge.
Notation cnt := (fun i xs => count_paths es (s + i) xs (s + len)).

Section NoLoop.
Variable limit : nat -> nat.
Hypothesis Hout : forall i, (i < len)%nat -> out es (s + i) = stair_state b len false (limit i) (s + i) i.
Hypothesis Hend : out es (s + len) = [].
Lemma end_paths : forall xs, cnt len xs = exactly (match xs with [] => true | _ => false end).
Proof. intros [|x xs]; cbn beta; [cbn [count_paths]; rewrite Nat.eqb_refl; reflexivity|rewrite count_cons, Hend; reflexivity]. Qed.
Definition jmax (i : nat) : nat := if (0 <? limit i)%nat then Nat.min len (i + limit i) else len.
Lemma step_jmax : forall i j, (i < len)%nat -> step_ok len limit i j = ((i + 1 <=? j) && (j <? i + 1 + (jmax i - i)))%nat.
Proof. intros i j Hi. unfold step_ok, jmax. destruct (0 <? limit i)%nat eqn:E; lia. Qed.

(** The number of ways to go on from a state [i] by a step to [j] and then with [xs]. *)
Lemma next_paths : forall (f : nat -> list nat -> bool) i xs, (i < len)%nat ->
  (forall j, (i < j < len)%nat -> cnt j (map Z.of_nat xs) = exactly (match xs with x :: ys => (x =? j)%nat && f j ys | [] => false end)) ->
  (forall j ys, f j ys = true -> (j < len)%nat) ->
  total (map (fun j => cnt j (map Z.of_nat xs)) (seq (i + 1) (jmax i - i))) =
  exactly (match xs with [] => step_ok len limit i len | x :: ys => step_ok len limit i x && f x ys end).
Proof.
  intros f i xs Hi Hj Hf.
  assert (Hjm : (i <= jmax i <= len)%nat) by (unfold jmax; destruct (0 <? limit i)%nat; lia).
  destruct xs as [|x ys].
  - rewrite (total_ext _ _ (fun j => if (j =? len)%nat then 1%nat else O)).
    + rewrite total_single, step_jmax by exact Hi. destruct (_ && _); reflexivity.
    + intros j Hin. apply in_seq in Hin. cbn beta. destruct (Nat.eqb_spec j len) as [-> |H].
      * rewrite end_paths. reflexivity.
      * rewrite Hj by lia. reflexivity.
  - rewrite (total_ext _ _ (fun j => if (j =? x)%nat then exactly (f j ys) else O)).
    + rewrite total_single, step_jmax by exact Hi. destruct (_ && _); [reflexivity|]. cbn [andb]. reflexivity.
    + intros j Hin. apply in_seq in Hin. cbn beta. destruct (Nat.eq_dec j len) as [-> |H].
      * rewrite end_paths. cbn [map]. destruct (Nat.eqb_spec len x) as [-> |]; [|reflexivity].
        destruct (f x ys) eqn:E; [|reflexivity]. apply Hf in E. lia.
      * rewrite Hj by lia. rewrite (Nat.eqb_sym x j). destruct (j =? x)%nat; reflexivity.
Qed.
Lemma steps_ok_lt : forall i xs, steps_ok len limit i xs = true -> (i < len)%nat.
Proof. intros i [|x xs] H; cbn [steps_ok] in H; [|apply andb_true_iff in H; destruct H as (H & _)]; unfold step_ok in H; lia. Qed.
Lemma stair_later : forall xs i, (0 < i < len)%nat ->
  cnt i (map Z.of_nat xs) = exactly (match xs with x :: ys => (x =? i)%nat && steps_ok len limit i ys | [] => false end).
Proof.
  induction xs as [|x xs IH]; intros i Hi; cbn beta.
  - cbn [map count_paths]. replace (s + i =? s + len)%nat with false by (symmetry; apply Nat.eqb_neq; lia). reflexivity.
  - cbn [map]. rewrite count_cons, Hout by lia. unfold stair_state. cbn [app]. fold (jmax i).
    replace (0 <? i)%nat with true by (symmetry; apply Nat.ltb_lt; lia).
    rewrite total_concat. rewrite (total_ext _ _ (fun j => if (x =? i)%nat then cnt j (map Z.of_nat xs) else O)).
    + destruct (Nat.eqb_spec x i) as [-> |Hx].
      * rewrite (next_paths (steps_ok len limit)); [|lia|intros j Hj; apply IH; lia|apply steps_ok_lt]. destruct xs; reflexivity.
      * cbn [andb]. induction (seq (i + 1) (jmax i - i)) as [|j l IHl]; [reflexivity|exact IHl].
    + intros j Hj. apply in_seq in Hj. cbn [map total fold_right]. unfold via. cbn [mk e_emit e_to].
      replace (s + i + j - i)%nat with (s + j)%nat by lia. replace (Z.of_nat i =? Z.of_nat x) with (x =? i)%nat by (destruct (x =? i)%nat eqn:E; lia).
      destruct (x =? i)%nat; lia.
Qed.
Lemma total_zero : forall A (l : list A), total (map (fun _ => O) l) = O.
Proof. intros A. induction l as [|x l IH]; [reflexivity|exact IH]. Qed.
Lemma total_mul : forall A (f : A -> nat) c l, total (map (fun x => (f x * c)%nat) l) = (total (map f l) * c)%nat.
Proof. intros A f c. induction l as [|x l IH]; [reflexivity|]. cbn [map total fold_right]. fold (total (map f l)) (total (map (fun x => (f x * c)%nat) l)). rewrite IH. lia. Qed.
Theorem stair_first : forall xs, (0 < len)%nat -> cnt 0%nat (map Z.of_nat xs) = exactly (stair_ok len limit xs).
Proof.
  intros [|x xs] Hlen; cbn beta.
  - cbn [map count_paths]. replace (s + 0 =? s + len)%nat with false by (symmetry; apply Nat.eqb_neq; lia). reflexivity.
  - cbn [map]. rewrite count_cons, Hout by lia. unfold stair_state. fold (jmax 0). change (0 <? 0)%nat with false. cbn [app andb]. rewrite total_concat.
    rewrite (total_ext _ _ (fun j => if (x <? j)%nat then cnt j (map Z.of_nat xs) else O)).
    + assert (E : total (map (fun j => if (x <? j)%nat then cnt j (map Z.of_nat xs) else O) (seq (0 + 1) (jmax 0 - 0)))
        = total (map (fun j => (cnt j (map Z.of_nat xs) * exactly (x <? match xs with [] => len | y :: _ => y end)%nat)%nat) (seq (0 + 1) (jmax 0 - 0)))).
      { apply total_ext. intros j Hj. apply in_seq in Hj. assert (Hjm : (jmax 0 <= len)%nat) by (unfold jmax; destruct (0 <? limit 0)%nat; lia).
        cbn beta. destruct (Nat.eq_dec j len) as [-> |Hne].
        - rewrite end_paths. destruct xs as [|y ys]; [|cbn [map exactly]; destruct (x <? len)%nat; reflexivity].
          destruct (x <? len)%nat; reflexivity.
        - rewrite stair_later by lia. destruct xs as [|y ys]; [cbn [exactly]; destruct (x <? j)%nat; reflexivity|].
          destruct (Nat.eqb_spec y j) as [-> |]; cbn [andb exactly]; [|destruct (x <? j)%nat; reflexivity].
          destruct (x <? j)%nat; cbn [exactly]; [lia|]. rewrite Nat.mul_0_r. reflexivity. }
      cbn beta in E. rewrite E, total_mul. rewrite (next_paths (steps_ok len limit)); [|lia|intros j Hj; apply stair_later; lia|apply steps_ok_lt].
      cbn [stair_ok]. destruct xs as [|y ys]; cbn [steps_ok]; destruct (x <? _)%nat, (step_ok _ _ _ _); cbn [andb exactly]; try lia; destruct (steps_ok len limit y ys); reflexivity.
    + intros j Hj. apply in_seq in Hj. cbn [map]. rewrite app_nil_r. rewrite total_concat. rewrite (total_ext _ _ (fun t => if (t =? x)%nat then cnt j (map Z.of_nat xs) else O)).
      * rewrite (total_single 0 (j - 0) x (fun _ => cnt j (map Z.of_nat xs))). cbn [Nat.leb andb]. replace (0 + (j - 0))%nat with j by lia. reflexivity.
      * intros t Ht. cbn [map total fold_right]. unfold via. cbn [mk e_emit e_to].
        replace (s + 0 + j - 0)%nat with (s + j)%nat by lia. replace (Z.of_nat t =? Z.of_nat x) with (t =? x)%nat by (destruct (t =? x)%nat eqn:E; lia).
        destruct (t =? x)%nat; lia.
Qed.
End NoLoop.

Section Loop.
Hypothesis Hout : forall i, (i < len)%nat -> out es (s + i) = stair_state b len true 0 (s + i) i.
Hypothesis Hend : out es (s + len) = [].
Definition good (xs : list nat) : bool := non_decreasing xs && forallb (fun x => x <? len)%nat xs.
Lemma good_cons : forall x y xs, good (x :: y :: xs) = (x <=? y)%nat && good (y :: xs).
Proof.
  intros x y xs. unfold good. change (non_decreasing (x :: y :: xs)) with ((x <=? y)%nat && non_decreasing (y :: xs)). cbn [forallb].
  destruct (x <=? y)%nat eqn:E1, (non_decreasing (y :: xs)), (y <? len)%nat eqn:E2, (x <? len)%nat eqn:E3; try reflexivity; lia.
Qed.
Lemma good_one : forall x, good [x] = (x <? len)%nat.
Proof. intros x. unfold good. cbn. apply andb_true_r. Qed.
Lemma loop_next : forall xs i, (i < len)%nat ->
  (forall j, (i < j < len)%nat -> cnt j (map Z.of_nat xs) = exactly (match xs with x :: _ => (x =? j)%nat && good xs | [] => false end)) ->
  total (map (fun j => cnt j (map Z.of_nat xs)) (seq (i + 1) (len - i))) = exactly (match xs with [] => true | y :: _ => (i <? y)%nat && good xs end).
Proof.
  intros xs i Hi Hj. destruct xs as [|y ys].
  - rewrite (total_ext _ _ (fun j => if (j =? len)%nat then 1%nat else O)).
    + rewrite total_single. replace ((i + 1 <=? len) && (len <? i + 1 + (len - i)))%nat with true by lia. reflexivity.
    + intros j Hin. apply in_seq in Hin. cbn beta. destruct (Nat.eqb_spec j len) as [-> |H]; [rewrite end_paths by exact Hend; reflexivity|rewrite Hj by lia; reflexivity].
  - rewrite (total_ext _ _ (fun j => if (j =? y)%nat then exactly (good (y :: ys)) else O)).
    + rewrite (total_single _ _ y (fun _ => exactly (good (y :: ys)))).
      destruct (good (y :: ys)) eqn:E.
      * assert (Hy : (y <? len)%nat = true) by (unfold good in E; cbn [forallb] in E; lia).
        replace ((i + 1 <=? y) && (y <? i + 1 + (len - i)))%nat with (i <? y)%nat by lia. destruct (i <? y)%nat; reflexivity.
      * rewrite andb_false_r. destruct (_ && _); reflexivity.
    + intros j Hin. apply in_seq in Hin. cbn beta. destruct (Nat.eq_dec j len) as [-> |H].
      * rewrite end_paths by exact Hend. cbn [map]. destruct (Nat.eqb_spec len y) as [-> |]; [|reflexivity].
        replace (good (y :: ys)) with false; [reflexivity|]. unfold good. cbn [forallb]. lia.
      * rewrite Hj by lia. rewrite (Nat.eqb_sym y j). destruct (j =? y)%nat; reflexivity.
Qed.
Lemma loop_later : forall xs i, (0 < i < len)%nat ->
  cnt i (map Z.of_nat xs) = exactly (match xs with x :: _ => (x =? i)%nat && good xs | [] => false end).
Proof.
  induction xs as [|x xs IH]; intros i Hi; cbn beta.
  - cbn [map count_paths]. replace (s + i =? s + len)%nat with false by (symmetry; apply Nat.eqb_neq; lia). reflexivity.
  - cbn [map]. rewrite count_cons, Hout by lia. unfold stair_state. change (0 <? 0)%nat with false. cbv iota.
    replace (0 <? i)%nat with true by (symmetry; apply Nat.ltb_lt; lia). rewrite map_app, total_app.
    rewrite total_concat. rewrite (total_ext _ _ (fun j => if (x =? i)%nat then cnt j (map Z.of_nat xs) else O)).
    + cbn [map total fold_right]. unfold via. cbn [mk e_emit e_to]. replace (Z.of_nat i =? Z.of_nat x) with (x =? i)%nat by lia.
      destruct (Nat.eqb_spec x i) as [-> |Hx].
      * rewrite loop_next; [|lia|intros j Hj; apply IH; lia]. specialize (IH i Hi). cbn beta in IH. rewrite IH. cbn [andb].
        destruct xs as [|y ys]; [rewrite good_one; replace (i <? len)%nat with true by lia; reflexivity|].
        rewrite good_cons. destruct (good (y :: ys)); rewrite ?andb_false_r, ?andb_true_r; [|reflexivity].
        destruct (Nat.eqb_spec y i) as [-> |]; destruct (i <? _)%nat eqn:E1, (i <=? _)%nat eqn:E2; cbn [exactly]; lia.
      * rewrite total_zero. reflexivity.
    + intros j Hj. apply in_seq in Hj. cbn [map total fold_right]. unfold via. cbn [mk e_emit e_to].
      replace (s + i + j - i)%nat with (s + j)%nat by lia. replace (Z.of_nat i =? Z.of_nat x) with (x =? i)%nat by (destruct (x =? i)%nat eqn:E; lia).
      destruct (x =? i)%nat; lia.
Qed.
Theorem loop_first : forall xs, (0 < len)%nat -> cnt 0%nat (map Z.of_nat xs) = exactly (nonempty xs && good xs).
Proof.
  intros xs Hlen. induction xs as [|x xs IH]; cbn beta in *.
  - cbn [map count_paths]. replace (s + 0 =? s + len)%nat with false by (symmetry; apply Nat.eqb_neq; lia). reflexivity.
  - cbn [map nonempty andb]. rewrite count_cons, Hout by lia. unfold stair_state. change (0 <? 0)%nat with false. cbv iota. rewrite map_app, total_app, total_concat.
    rewrite (total_ext _ _ (fun j => if (if (j <? len)%nat then (0 <? x) && (x <=? j) else (x <? j))%nat then cnt j (map Z.of_nat xs) else O)).
    + cbn [map total fold_right]. unfold via at 1. cbn [mk e_emit e_to]. replace (Z.of_nat 0 =? Z.of_nat x) with (x =? 0)%nat by lia. rewrite IH.
      destruct xs as [|y ys].
      * rewrite (total_ext _ _ (fun j => if (j =? len)%nat then exactly (x <? len)%nat else O)).
        -- rewrite (total_single _ _ len (fun _ => exactly (x <? len)%nat)). replace ((0 + 1 <=? len) && (len <? 0 + 1 + (len - 0)))%nat with true by lia.
           rewrite good_one. cbn [nonempty andb exactly]. destruct (x =? 0)%nat; lia.
        -- intros j Hin. apply in_seq in Hin. cbn beta. destruct (Nat.eqb_spec j len) as [-> |H].
           ++ replace (len <? len)%nat with false by lia. rewrite end_paths by exact Hend. destruct (x <? len)%nat; reflexivity.
           ++ rewrite loop_later by lia. cbn [exactly]. match goal with |- (if ?c then _ else _) = _ => destruct c; reflexivity end.
      * rewrite (total_ext _ _ (fun j => if (j =? y)%nat then exactly ((0 <? x)%nat && (x <=? y)%nat && good (y :: ys)) else O)).
        -- rewrite (total_single _ _ y (fun _ => exactly ((0 <? x)%nat && (x <=? y)%nat && good (y :: ys)))). rewrite good_cons. cbn [nonempty andb].
           destruct (good (y :: ys)) eqn:E; rewrite ?andb_false_r, ?andb_true_r.
           ++ assert (Hy : (y <? len)%nat = true) by (unfold good in E; cbn [forallb] in E; lia). cbn [exactly].
              destruct (Nat.eqb_spec x 0) as [-> |Hx].
              ** cbn [Nat.ltb Nat.leb andb exactly]. match goal with |- context [if ?c then O else O] => destruct c; reflexivity end.
              ** replace (0 <? x)%nat with true by lia. cbn [andb]. destruct (x <=? y)%nat eqn:E1; cbn [exactly]; [|match goal with |- context [if ?c then O else O] => destruct c; reflexivity end].
                 replace ((0 + 1 <=? y) && (y <? 0 + 1 + (len - 0)))%nat with true by lia. reflexivity.
           ++ cbn [exactly]. match goal with |- context [if ?c then O else O] => destruct c; destruct (x =? 0)%nat; reflexivity end.
        -- intros j Hin. apply in_seq in Hin. cbn beta. destruct (Nat.eq_dec j len) as [-> |H].
           ++ rewrite end_paths by exact Hend. cbn [map exactly]. match goal with |- (if ?c then _ else _) = _ => replace (if c then O else O) with O by (destruct c; reflexivity) end.
              destruct (Nat.eqb_spec len y) as [-> |]; [|reflexivity]. replace (good (y :: ys)) with false; [rewrite andb_false_r; reflexivity|]. unfold good. cbn [forallb]. lia.
           ++ rewrite loop_later by lia. replace (j <? len)%nat with true by lia. rewrite (Nat.eqb_sym y j). destruct (Nat.eqb_spec j y) as [-> |]; cbn [andb exactly].
              ** destruct ((0 <? x)%nat && (x <=? y)%nat); reflexivity.
              ** destruct ((0 <? x)%nat && (x <=? j)%nat); reflexivity.
    + intros j Hj. apply in_seq in Hj. cbn [andb]. rewrite map_app, total_app, total_concat.
      rewrite (total_ext _ _ (fun t => if (t =? x)%nat then (if (t =? 0)%nat && (j <? len)%nat then O else cnt j (map Z.of_nat xs)) else O)).
      * rewrite (total_single 0 (j - 0) x (fun t => if (t =? 0)%nat && (j <? len)%nat then O else cnt j (map Z.of_nat xs))). cbn [Nat.leb andb]. replace (0 + (j - 0))%nat with j by lia.
        assert (E : total (map (via es (Z.of_nat x) (map Z.of_nat xs) (s + len)) (if (j <? len)%nat then [mk (s + 0) (s + 0 + j - 0) (Z.of_nat j) b] else []))
                    = if (j <? len)%nat && (j =? x)%nat then cnt j (map Z.of_nat xs) else O).
        { destruct (j <? len)%nat; [|reflexivity]. cbn [map total fold_right andb]. unfold via. cbn [mk e_emit e_to]. replace (s + 0 + j - 0)%nat with (s + j)%nat by lia.
          replace (Z.of_nat j =? Z.of_nat x) with (j =? x)%nat by lia. destruct (j =? x)%nat; lia. }
        rewrite E. cbn beta.
        destruct (x <? j)%nat eqn:E1, (x =? 0)%nat eqn:E2, (j <? len)%nat eqn:E3, (j =? x)%nat eqn:E4, (0 <? x)%nat eqn:E5, (x <=? j)%nat eqn:E6; cbn [andb]; lia.
      * intros t Ht. rewrite (Nat.eqb_sym 0 t). cbn [andb]. destruct ((t =? 0)%nat && (j <? len)%nat); cbn [map total fold_right]; [destruct (t =? x)%nat; reflexivity|].
        unfold via. cbn [mk e_emit e_to]. replace (s + 0 + j - 0)%nat with (s + j)%nat by lia. replace (Z.of_nat t =? Z.of_nat x) with (t =? x)%nat by lia.
        destruct (t =? x)%nat; lia.
Qed.
End Loop.

(** Only positions are emitted. *)
Lemma only_emitted : forall (ok : Z -> Prop) xs q t, (forall e, In e es -> ok (e_emit e)) -> count_paths es q xs t <> O -> Forall ok xs.
Proof.
  intros ok. induction xs as [|x xs IH]; intros q t He H; [constructor|]. rewrite count_cons in H.
  assert (Hex : exists e, In e (out es q) /\ via es x xs t e <> O).
  { clear IH. induction (out es q) as [|e l IHl]; [destruct H; reflexivity|]. destruct (Nat.eq_dec (via es x xs t e) 0) as [E|E].
    - destruct IHl as (e' & I1 & I2); [|exists e'; split; [right; exact I1|exact I2]]. intros F. apply H. cbn [map total fold_right]. fold (total (map (via es x xs t) l)). lia.
    - exists e. split; [left; reflexivity|exact E]. }
  destruct Hex as (e & Hin & Hv). unfold via in Hv. destruct (Z.eqb_spec (e_emit e) x) as [<- |]; [|congruence]. constructor.
  - apply He. unfold out in Hin. apply filter_In in Hin. apply Hin.
  - eapply IH; [exact He|exact Hv].
Qed.
End Stair.

Lemma stair_emit : forall b len loop skip state i e, In e (stair_state b len loop skip state i) -> exists n, e_emit e = Z.of_nat n.
Proof.
  intros b len loop skip state i e H. unfold stair_state in H. apply in_app_or in H. destruct H as [H|H].
  - destruct loop; [|destruct H]. destruct H as [<- |[]]. cbn. eauto.
  - apply in_concat in H. destruct H as (l & Hl & He). apply in_map_iff in Hl. destruct Hl as (j & <- & _). destruct (0 <? i)%nat.
    + destruct He as [<- |[]]. cbn. eauto.
    + apply in_app_or in He. destruct He as [He|He].
      * apply in_concat in He. destruct He as (l & Hl & He). apply in_map_iff in Hl. destruct Hl as (t & <- & _).
        destruct (loop && (i =? t)%nat && (j <? len)%nat); [destruct He|]. destruct He as [<- |[]]. cbn. eauto.
      * destruct (loop && (j <? len)%nat); [|destruct He]. destruct He as [<- |[]]. cbn. eauto.
Qed.
Lemma limit_skip : forall len m sm em i, (i < len)%nat -> cur_max_skip len m sm em i = limit_at len (skip_of m) (skip_of sm) (skip_of em) i.
Proof.
  intros len m sm em i Hi. unfold cur_max_skip, limit_at, first_limit. cbn [filter].
  destruct (Nat.eqb_spec i 0) as [-> |Hne]; destruct sm as [[|sm]|], em as [[|em]|], m as [[|m]|]; cbn [truthy skip_of negb andb Nat.eqb];
    repeat match goal with |- context [(?a <=? ?b)%nat] => let E := fresh in destruct (a <=? b)%nat eqn:E; cbn [truthy skip_of negb andb Nat.eqb] end; try reflexivity; lia.
Qed.
Definition stair_edges (b len : nat) (loop : bool) (limit : nat -> nat) (s : nat) : list edge :=
  concat (map (fun i => stair_state b len loop (limit i) (s + i) i) (seq 0 len)).
Lemma stair_edges_in : forall b len loop limit s e, In e (stair_edges b len loop limit s) ->
  e_seq e = b /\ (s <= e_from e < s + len)%nat /\ (s <= e_to e <= s + len)%nat /\ exists n, e_emit e = Z.of_nat n.
Proof.
  intros b len loop limit s e H. apply in_concat in H. destruct H as (l & Hl & He). apply in_map_iff in Hl. destruct Hl as (i & <- & Hi). apply in_seq in Hi.
  pose proof (stair_emit _ _ _ _ _ _ _ He) as Hn. apply stair_in in He; [|lia]. destruct He as (E1 & E2 & E3). repeat split; try lia. exact Hn.
Qed.
Lemma stair_edges_out : forall b len loop limit s i, (i < len)%nat -> out (stair_edges b len loop limit s) (s + i) = stair_state b len loop (limit i) (s + i) i.
Proof.
  intros b len loop limit s i Hi. unfold stair_edges.
  rewrite (map_ext_in _ (fun i => if (i <? len)%nat then stair_state b len loop (limit i) (s + i) i else [])).
  - rewrite out_concat.
    + replace ((0 <=? i) && (i <? 0 + len))%nat with true by lia. replace (i <? len)%nat with true by lia. reflexivity.
    + intros j e Hin. destruct (j <? len)%nat eqn:E; [|destruct Hin]. apply stair_in in Hin; [apply Hin|lia].
  - intros j Hj. apply in_seq in Hj. replace (j <? len)%nat with true by lia. reflexivity.
Qed.
Lemma stair_edges_end : forall b len loop limit s, out (stair_edges b len loop limit s) (s + len) = [].
Proof. intros. apply out_none. intros e H. apply stair_edges_in in H. lia. Qed.

Lemma stair_laid : forall loop seqs b s f, stair_seqs loop b seqs s = Ok f ->
  exists own, laid_out b s (f_edges f) (f_start_end f) own /\ length (f_start_end f) = length seqs /\
    forall k len m sm em, nth_error seqs k = Some (len, (m, sm, em)) -> exists s', (0 < len)%nat /\
      nth_error (f_start_end f) k = Some (s', (s' + len)%nat) /\
      nth_error own k = Some (stair_edges (b + k) len loop (cur_max_skip len m sm em) s').
Proof.
  intros loop. induction seqs as [|[len [[m sm] em]] seqs IH]; intros b s f H.
  - cbn in H. injection H as <-. exists []. split; [constructor|]. split; [reflexivity|]. intros [|k] ? ? ? ? E; discriminate E.
  - cbn [stair_seqs] in H. apply bind_Ok in H. destruct H as (u & Ha & H). apply assert_Ok in Ha. apply Nat.ltb_lt in Ha.
    apply bind_Ok in H. destruct H as (r & Hrec & H). apply Ok_inj in H. subst f. cbn [f_edges f_start_end].
    destruct (IH _ _ _ Hrec) as (own & L1 & L2 & L3).
    exists (stair_edges b len loop (cur_max_skip len m sm em) s :: own). split; [|split].
    + constructor; [lia| |exact L1]. intros e Hin. apply stair_edges_in in Hin. repeat split; lia.
    + cbn [length]. rewrite L2. reflexivity.
    + intros [|k] len' m' sm' em' E; cbn [nth_error] in *.
      * injection E as <- <- <- <-. exists s. rewrite Nat.add_0_r. auto.
      * destruct (L3 k _ _ _ _ E) as (s' & F0 & F1 & F2). exists s'. replace (b + S k)%nat with (b + 1 + k)%nat by lia. auto.
Qed.
Lemma all_naturals : forall xs, Forall (fun x => exists n, x = Z.of_nat n) xs -> exists ns, xs = map Z.of_nat ns.
Proof. intros xs H. induction H as [|x xs [n ->] _ (ns & ->)]; [exists []; reflexivity|exists (n :: ns); reflexivity]. Qed.
Lemma limit_ext : forall len l1 l2 xs i, (forall j, (j < len)%nat -> l1 j = l2 j) -> (i < len)%nat -> steps_ok len l1 i xs = steps_ok len l2 i xs.
Proof.
  intros len l1 l2. induction xs as [|x xs IH]; intros i H Hi; cbn [steps_ok]; unfold step_ok; rewrite (H i Hi); [reflexivity|].
  destruct (Nat.lt_ge_cases x len) as [Hx|Hx]; [rewrite (IH x H Hx); reflexivity|].
  assert (F : forall l, steps_ok len l x xs = false) by (intros l; destruct xs; cbn [steps_ok]; unfold step_ok; lia). rewrite !F, !andb_false_r. reflexivity.
Qed.

Theorem staircase_language : forall loop seqs f, staircase loop seqs = Ok f ->
  separate f /\ length (f_start_end f) = length seqs /\
  forall k len m sm em, nth_error seqs k = Some (len, (m, sm, em)) ->
    (forall xs, paths f k xs <> O -> exists ns, xs = map Z.of_nat ns) /\
    (loop = false -> forall ns, paths f k (map Z.of_nat ns) = exactly (stair_ok len (limit_at len (skip_of m) (skip_of sm) (skip_of em)) ns)) /\
    (loop = true -> skip_of m = O -> skip_of sm = O -> skip_of em = O -> forall ns, paths f k (map Z.of_nat ns) = exactly (loop_ok len ns)).
Proof.
  intros loop seqs f H. destruct (stair_laid _ _ _ _ _ H) as (own & L1 & L2 & L3). split; [eapply laid_separate; exact L1|]. split; [exact L2|].
  intros k len m sm em E. destruct (L3 _ _ _ _ _ E) as (s & Hlen & F1 & F2). unfold paths. rewrite F1.
  assert (Hk : (k < length (f_start_end f))%nat) by (apply nth_error_Some; rewrite F1; discriminate).
  pose proof (laid_own _ _ _ _ _ L1 k Hk) as F3. rewrite F2 in F3. injection F3 as F3. unfold edges_of. fold (seq_edges (f_edges f) k). rewrite <- F3. clear F1 F2 F3.
  split; [|split].
  - intros xs Hp. apply all_naturals. eapply (only_emitted _ (fun x => exists n, x = Z.of_nat n)); [|exact Hp]. intros e Hin. apply stair_edges_in in Hin. apply Hin.
  - intros -> ns. pose proof (stair_first k len s (stair_edges k len false (cur_max_skip len m sm em) s) (cur_max_skip len m sm em)) as Q. cbn beta in Q. rewrite Nat.add_0_r in Q.
    rewrite Q; [|intros i Hi; apply stair_edges_out; exact Hi|apply stair_edges_end|exact Hlen].
    f_equal. unfold stair_ok. destruct ns as [|x ns]; [reflexivity|]. f_equal. apply limit_ext; [|exact Hlen]. intros j Hj. apply limit_skip. exact Hj.
  - intros -> M1 M2 M3 ns. pose proof (loop_first k len s (stair_edges k len true (cur_max_skip len m sm em) s)) as Q. cbn beta in Q. rewrite Nat.add_0_r in Q.
    rewrite Q; [|intros i Hi; rewrite stair_edges_out by exact Hi; rewrite limit_skip, M1, M2, M3 by exact Hi; f_equal|apply stair_edges_end|exact Hlen].
    + unfold loop_ok, good. destruct ns; reflexivity.
    + unfold limit_at, first_limit. cbn [filter]. destruct (i =? 0)%nat, (len - i <=? 0)%nat; reflexivity.
Qed.
Theorem staircase_ok : forall loop seqs, Forall (fun q => (0 < fst q)%nat) seqs <-> exists f, staircase loop seqs = Ok f.
Proof.
  intros loop seqs. unfold staircase.
  cut (forall b s, Forall (fun q => (0 < fst q)%nat) seqs <-> exists f, stair_seqs loop b seqs s = Ok f); [intros G; apply G|]. induction seqs as [|[len [[m sm] em]] seqs IH]; intros b s.
  - split; [intros _; eexists; reflexivity|constructor].
  - cbn [stair_seqs]. split.
    + intros H. inversion H as [|? ? H1 H2]; subst. cbn [fst] in H1. apply Nat.ltb_lt in H1. rewrite H1. cbn [assert_ bind].
      apply (IH (b + 1)%nat (s + len + 1)%nat) in H2. destruct H2 as (r & ->). cbn [bind]. eexists. reflexivity.
    + intros (f & H). apply bind_Ok in H. destruct H as (u & Ha & H). apply assert_Ok in Ha. apply Nat.ltb_lt in Ha.
      apply bind_Ok in H. destruct H as (r & Hrec & H). constructor; [exact Ha|]. apply (IH (b + 1)%nat (s + len + 1)%nat). eauto.
Qed.

(** ** One automaton for every sequence *)
Lemma shared_fold : forall l s, fold_left (fun s '(q, t, x) => add_edge s q t x) l s =
  {| s_states := Nat.max (s_states s) (match l with [] => O | _ => S (last_of l) end); s_edges := s_edges s ++ l |}.
Proof.
  induction l as [|[[q t] x] l IH]; intros s.
  - cbn [fold_left]. rewrite Nat.max_0_r, app_nil_r. destruct s. reflexivity.
  - cbn [fold_left]. rewrite IH. unfold add_edge. cbn [s_states s_edges]. rewrite <- app_assoc. cbn [app]. f_equal.
    unfold last_of. cbn [map fold_right]. destruct l; cbn [map fold_right]; lia.
Qed.
Lemma shared_of_eq : forall l, shared_of l = {| s_states := S (last_of l); s_edges := l |}.
Proof. intros l. unfold shared_of. rewrite shared_fold. unfold shared_new. cbn [s_states s_edges app]. f_equal. destruct l; cbn; lia. Qed.
Lemma last_of_in : forall l q t x, In (q, t, x) l -> (q <= last_of l /\ t <= last_of l)%nat.
Proof.
  induction l as [|[[q' t'] x'] l IH]; intros q t x H; [destruct H|]. unfold last_of. cbn [map fold_right]. fold (last_of l).
  destruct H as [H|H]; [injection H as -> -> ->; lia|]. apply IH in H. lia.
Qed.
Definition copy (n b : nat) (l : list (nat * nat * Z)) : list edge := map (fun '(q, t, x) => mk (q + b * n) (t + b * n) x b) l.
Lemma copy_paths : forall n b l xs q t, count_paths (copy n b l) (q + b * n) xs (t + b * n) = count_paths (map one_edge l) q xs t.
Proof.
  intros n b l. induction xs as [|x xs IH]; intros q t.
  - cbn [count_paths]. destruct (Nat.eqb_spec (q + b * n) (t + b * n)), (Nat.eqb_spec q t); try reflexivity; lia.
  - rewrite !count_cons. unfold copy at 2. generalize (eq_refl (copy n b l)). unfold copy at 1.
    assert (G : forall l', total (map (via (copy n b l) x xs (t + b * n)) (out (map (fun '(q0, t0, x0) => mk (q0 + b * n) (t0 + b * n) x0 b) l') (q + b * n)))
              = total (map (via (map one_edge l) x xs t) (out (map one_edge l') q))).
    { induction l' as [|[[q0 t0] x0] l' IHl]; [reflexivity|]. cbn [map]. change (one_edge (q0, t0, x0)) with (mk q0 t0 x0 0). rewrite !out_mk, !map_app, !total_app, IHl. f_equal.
      destruct (Nat.eqb_spec (q0 + b * n) (q + b * n)), (Nat.eqb_spec q0 q); try lia; cbn [map total fold_right]; unfold via; cbn [mk e_emit e_to]; [|reflexivity].
      rewrite IH. reflexivity. }
    intros _. apply G.
Qed.
Lemma copies_laid : forall l m b, laid_out b (b * S (last_of l)) (concat (map (fun b => copy (S (last_of l)) b l) (seq b m)))
  (map (fun b => (0 + b * S (last_of l), S (last_of l) - 1 + b * S (last_of l)))%nat (seq b m)) (map (fun b => copy (S (last_of l)) b l) (seq b m)).
Proof.
  intros l m. induction m as [|m IH]; intros b; [constructor|]. cbn [seq map concat]. apply laid_cons; [lia| |].
  - intros e Hin. apply in_map_iff in Hin. destruct Hin as ([[q t] x] & <- & Hin). apply last_of_in in Hin. cbn. lia.
  - replace (S (last_of l) - 1 + b * S (last_of l) + 1)%nat with (S b * S (last_of l))%nat by lia. replace (b + 1)%nat with (S b) by lia. apply IH.
Qed.
Theorem shared_language : forall l n f, f = get_fast_bw_fsa (shared_of l) n ->
  separate f /\ length (f_start_end f) = n /\
  forall k xs, (k < n)%nat -> paths f k xs = count_paths (map one_edge l) 0 xs (last_of l).
Proof.
  intros l n f ->. rewrite shared_of_eq. pose proof (copies_laid l n 0) as L. rewrite Nat.mul_0_l in L.
  assert (Hlen : length (f_start_end (get_fast_bw_fsa {| s_states := S (last_of l); s_edges := l |} n)) = n) by (cbn; rewrite map_length, seq_length; reflexivity).
  split; [eapply laid_separate; exact L|]. split; [exact Hlen|].
  intros k xs Hk. unfold paths.
  assert (E : nth_error (seq 0 n) k = Some k) by (rewrite nth_error_seq by exact Hk; reflexivity).
  pose proof (laid_own _ _ _ _ _ L k) as O1. rewrite map_length, seq_length in O1. specialize (O1 Hk). rewrite nth_error_map, E in O1. cbn [option_map Nat.add] in O1. injection O1 as O1.
  unfold edges_of. fold (seq_edges (f_edges (get_fast_bw_fsa {| s_states := S (last_of l); s_edges := l |} n)) k).
  change (f_edges (get_fast_bw_fsa {| s_states := S (last_of l); s_edges := l |} n)) with (concat (map (fun b => copy (S (last_of l)) b l) (seq 0 n))).
  rewrite <- O1. cbn [get_fast_bw_fsa f_start_end s_states]. rewrite nth_error_map, E. cbn [option_map].
  replace (S (last_of l) - 1)%nat with (last_of l) by lia. apply copy_paths.
Qed.
Lemma inf_loop_edges : forall l q n, add_inf_loop (shared_of l) q n = shared_of (l ++ map (fun x => (q, q, Z.of_nat x)) (seq 0 n)).
Proof.
  intros l q n. unfold add_inf_loop, shared_of. rewrite fold_left_app. generalize (fold_left (fun (s : shared) '(q0, t, x) => add_edge s q0 t x) l shared_new).
  generalize (seq 0 n) as m. induction m as [|x m IH]; intros s0; [reflexivity|]. cbn [map fold_left]. apply IH.
Qed.
Theorem ctc_ok : forall rows n_time lens blank, length lens = length rows /\ Forall (fun n => (n <= n_time)%nat) lens <-> exists f, get_ctc_fsa rows n_time lens blank = Ok f.
Proof.
  intros rows n_time lens blank. unfold get_ctc_fsa.
  assert (G : length lens = length rows -> forall b s, Forall (fun n => (n <= n_time)%nat) lens <-> exists f, ctc_seqs blank n_time b rows lens s = Ok f).
  { revert lens. induction rows as [|row rows IH]; intros lens Hl b s; destruct lens as [|n lens]; try discriminate Hl.
    - split; [intros _; eexists; reflexivity|constructor].
    - cbn [ctc_seqs]. destruct (ctc_labels blank b row n (seq 0 n) s) as [es final]. specialize (IH lens ltac:(cbn in Hl; lia) (b + 1)%nat (final + 1)%nat). split.
      + intros H. inversion H as [|? ? H1 H2]; subst. apply Nat.leb_le in H1. rewrite H1. cbn [assert_ bind]. apply IH in H2. destruct H2 as (r & ->). eexists. reflexivity.
      + intros (f & H). apply bind_Ok in H. destruct H as (u & Ha & H). apply assert_Ok in Ha. apply Nat.leb_le in Ha. apply bind_Ok in H. destruct H as (r & Hr & H).
        constructor; [exact Ha|]. apply IH. eauto. }
  destruct (Nat.eqb_spec (length lens) (length rows)) as [E|E]; cbn [assert_ bind].
  - rewrite <- (G E). tauto.
  - split; [tauto|intros (f & F); discriminate F].
Qed.
