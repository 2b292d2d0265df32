(** Proofs for the arithmetic on dims: sums, differences and products. *)
From Coq Require Import String Ascii.
From Verif Require Import Base ListLemmas DimModel DimSpec.
Local Open Scope list_scope.
Local Open Scope Z_scope.
Local Notation length := List.length.

(** ** List facts *)
Section Lists.
Context {A : Type}.
Implicit Types l : list A.
Lemma nth_split_at : forall i l x, nth_error l i = Some x -> l = firstn i l ++ x :: skipn (S i) l.
Proof.
  induction i as [|i IH]; intros [|y l] x H; try discriminate H; cbn in *.
  - injection H as ->. reflexivity.
  - f_equal. apply IH. exact H.
Qed.
Lemma removelast_last : forall l x, nth_error l (length l - 1) = Some x -> l = removelast l ++ [x].
Proof.
  intros l x H. destruct (exists_last (l := l)) as (l' & y & E).
  { intros ->. discriminate H. }
  subst l. rewrite app_length in H. cbn [length] in H. rewrite nth_error_app2 in H by lia.
  replace (length l' + 1 - 1 - length l')%nat with 0%nat in H by lia. injection H as ->. rewrite removelast_last. reflexivity.
Qed.
Lemma recent_split : forall r l x, recent r l = Some x ->
  (r = true -> l = removelast l ++ [x]) /\ (r = false -> l = x :: tl l).
Proof.
  intros r l x H. unfold recent in H. destruct r; split; intros E; try discriminate E.
  - apply removelast_last. exact H.
  - destruct l as [|y l]; [discriminate H|]. injection H as ->. reflexivity.
Qed.
Lemma recent_In : forall r l x, recent r l = Some x -> In x l.
Proof.
  intros r l x H. unfold recent in H. destruct r.
  - eapply nth_error_In; eassumption.
  - destruct l as [|y l]; [discriminate H|]. injection H as ->. left. reflexivity.
Qed.
Lemma recent_nil : forall r l, recent r l = None -> l = [].
Proof.
  intros r [|x l] H; [reflexivity|]. exfalso. unfold recent in H. destruct r; [|discriminate H].
  apply nth_error_None in H. cbn [length] in H. lia.
Qed.
Lemma Forall_set_nth : forall (P : A -> Prop) i x l, Forall P l -> P x -> Forall P (set_nth i x l).
Proof.
  intros P i x l Hl Hx. unfold set_nth. apply Forall_app. split.
  - apply Forall_forall. intros y Hy. rewrite Forall_forall in Hl. apply Hl. eapply In_firstn; eassumption.
  - constructor; [exact Hx|]. apply Forall_forall. intros y Hy. rewrite Forall_forall in Hl. apply Hl. eapply In_skipn; eassumption.
Qed.
Lemma Forall_pop_nth : forall (P : A -> Prop) i l, Forall P l -> Forall P (pop_nth i l).
Proof.
  intros P i l Hl. unfold pop_nth. rewrite Forall_forall in *. intros y Hy. apply in_app_or in Hy.
  destruct Hy as [Hy|Hy]; apply Hl; [eapply In_firstn|eapply In_skipn]; eassumption.
Qed.
Lemma In_removelast : forall (x : A) l, In x (removelast l) -> In x l.
Proof.
  intros x l. induction l as [|y l IH]; [intros []|]. destruct l as [|z l]; [intros []|].
  intros [->|H]; [left; reflexivity|right; apply IH; exact H].
Qed.
Lemma Forall_removelast : forall (P : A -> Prop) l, Forall P l -> Forall P (removelast l).
Proof. intros P l H. rewrite Forall_forall in *. intros x Hx. apply H. apply In_removelast. exact Hx. Qed.
Lemma Forall_tl : forall (P : A -> Prop) l, Forall P l -> Forall P (tl l).
Proof. intros P [|x l] H; [exact H|]. inversion H; assumption. Qed.
Lemma Forall_pop_recent : forall (P : A -> Prop) r l, Forall P l -> Forall P (pop_recent r l).
Proof. intros P [] l H; cbn; [apply Forall_removelast|apply Forall_tl]; exact H. Qed.
Lemma Forall_push : forall (P : A -> Prop) r x l, Forall P l -> P x -> Forall P (push r x l).
Proof. intros P [] x l H Hx; cbn; [apply Forall_app; split; [exact H|repeat constructor; exact Hx]|constructor; assumption]. Qed.
Lemma Forall_set_recent : forall (P : A -> Prop) r x l, Forall P l -> P x -> Forall P (set_recent r x l).
Proof.
  intros P [] x l H Hx; cbn.
  - apply Forall_app; split; [apply Forall_removelast; exact H|repeat constructor; exact Hx].
  - constructor; [exact Hx|apply Forall_tl; exact H].
Qed.
End Lists.

(** ** Computations that keep an invariant of the cache *)
Section Hoare.
Variable I : list entry -> Prop.
Definition hoare {A} (m : M A) (Q : A -> Prop) : Prop :=
  forall st, I st -> I (snd (m st)) /\ forall x, fst (m st) = Ok x -> Q x.
Lemma h_ret : forall A (x : A) (Q : A -> Prop), Q x -> hoare (ret x) Q.
Proof. intros A x Q H st Hst. split; [exact Hst|]. cbn. intros y E. injection E as <-. exact H. Qed.
Lemma h_raise : forall A e (Q : A -> Prop), hoare (raise e) Q.
Proof. intros A e Q st Hst. split; [exact Hst|]. cbn. intros y E. discriminate E. Qed.
Lemma h_bind : forall A B (m : M A) (f : A -> M B) (P : A -> Prop) (Q : B -> Prop),
  hoare m P -> (forall x, P x -> hoare (f x) Q) -> hoare (mbind m f) Q.
Proof.
  intros A B m f P Q Hm Hf st Hst. unfold mbind. destruct (Hm st Hst) as (H1 & H2).
  destruct (m st) as [[x|e] st']; cbn [fst snd] in *.
  - apply (Hf x (H2 x eq_refl) st' H1).
  - split; [exact H1|]. intros y E. discriminate E.
Qed.
Lemma h_weaken : forall A (m : M A) (P Q : A -> Prop), hoare m P -> (forall x, P x -> Q x) -> hoare m Q.
Proof. intros A m P Q Hm H st Hst. destruct (Hm st Hst) as (H1 & H2). split; [exact H1|]. intros x E. apply H, H2, E. Qed.
Lemma h_foldM : forall A B (f : B -> A -> M B) (Inv : list A -> B -> Prop) l y,
  (forall x l' y', Inv (x :: l') y' -> hoare (f y' x) (Inv l')) -> Inv l y -> hoare (foldM f l y) (Inv []).
Proof.
  intros A B f Inv l. induction l as [|x l IH]; intros y Hf Hy; cbn [foldM].
  - apply h_ret. exact Hy.
  - eapply h_bind; [apply Hf; exact Hy|]. intros y' Hy'. apply IH; assumption.
Qed.
Lemma h_mapMM : forall A B (f : A -> M B) (Q : A -> B -> Prop) l,
  (forall x, In x l -> hoare (f x) (Q x)) -> hoare (mapMM f l) (Forall2 Q l).
Proof.
  intros A B f Q l. induction l as [|x l IH]; intros Hf; cbn [mapMM].
  - apply h_ret. constructor.
  - eapply h_bind; [apply Hf; left; reflexivity|]. intros y Hy.
    eapply h_bind; [apply IH; intros z Hz; apply Hf; right; exact Hz|]. intros ys Hys. apply h_ret. constructor; assumption.
Qed.
Lemma h_allM : forall A (f : A -> M bool) (Q : A -> Prop) l,
  (forall x, In x l -> hoare (f x) (fun b => b = true -> Q x)) -> hoare (allM f l) (fun b => b = true -> Forall Q l).
Proof.
  intros A f Q l. induction l as [|x l IH]; intros Hf; cbn [allM].
  - apply h_ret. intros _. constructor.
  - eapply h_bind; [apply Hf; left; reflexivity|]. intros [] Hb.
    + eapply h_weaken; [apply IH; intros z Hz; apply Hf; right; exact Hz|]. intros b Hb2 E. constructor; auto.
    + apply h_ret. intros E. discriminate E.
Qed.
End Hoare.

(** ** Values *)
Section Values.
Variable env : nat -> Z.
Notation v := (val env).
Notation pr := (proper env).

Lemma size_val : forall d z, size d = Some z -> v d = z.
Proof.
  induction d as [id nm k s|k z0|o a IHa b IHb]; intros z H; cbn in *.
  - subst s. reflexivity.
  - injection H as <-. reflexivity.
  - destruct (size a) as [x|]; [|discriminate H]. destruct (size b) as [y|]; [|discriminate H].
    injection H as <-. rewrite (IHa x eq_refl), (IHb y eq_refl). reflexivity.
Qed.
Lemma val_norm : forall d, val_of env (norm d) = v d.
Proof. intros [| |]; reflexivity. Qed.
Lemma proper_norm : forall d, pr d -> proper_of env (norm d).
Proof. intros [| |] H; exact H || exact I. Qed.

Definition prod (t : list dim) : Z := fold_right Z.mul 1 (map v t).
Definition sum (l : list (list dim)) : Z := fold_right Z.add 0 (map prod l).
Lemma prod_app : forall s t, prod (s ++ t) = prod s * prod t.
Proof. intros s t. unfold prod. rewrite map_app. induction (map v s) as [|x l IH]; cbn [app fold_right]; [lia|]. rewrite IH. lia. Qed.
Lemma prod_cons : forall x t, prod (x :: t) = v x * prod t.
Proof. reflexivity. Qed.
Lemma sum_app : forall s t, sum (s ++ t) = sum s + sum t.
Proof. intros s t. unfold sum. rewrite map_app. induction (map prod s) as [|x l IH]; cbn [app fold_right]; [lia|]. rewrite IH. lia. Qed.
Lemma sum_cons : forall x t, sum (x :: t) = prod x + sum t.
Proof. reflexivity. Qed.
Lemma prod_nil : prod [] = 1. Proof. reflexivity. Qed.
Lemma sum_nil : sum [] = 0. Proof. reflexivity. Qed.

Lemma prod_set_nth : forall i t x y, nth_error t i = Some y -> exists p, prod t = p * v y /\ prod (set_nth i x t) = p * v x.
Proof.
  intros i t x y H. exists (prod (firstn i t) * prod (skipn (S i) t)). split.
  - rewrite (nth_split_at _ _ _ H) at 1. rewrite prod_app, prod_cons. ring.
  - unfold set_nth. rewrite prod_app, prod_cons. ring.
Qed.
Lemma prod_pop_nth : forall i t y, nth_error t i = Some y -> prod t = prod (pop_nth i t) * v y.
Proof.
  intros i t y H. rewrite (nth_split_at _ _ _ H) at 1. unfold pop_nth. rewrite !prod_app, prod_cons. ring.
Qed.
Lemma sum_recent : forall r l t, recent r l = Some t -> sum l = prod t + sum (pop_recent r l).
Proof.
  intros r l t H. destruct (recent_split _ _ _ H) as (H1 & H2). destruct r; cbn [pop_recent].
  - rewrite (H1 eq_refl) at 1. rewrite sum_app, sum_cons, sum_nil. lia.
  - rewrite (H2 eq_refl) at 1. rewrite sum_cons. lia.
Qed.
Lemma sum_set_recent : forall r l t, sum (set_recent r t l) = prod t + sum (pop_recent r l).
Proof. intros [] l t; cbn [set_recent pop_recent]; rewrite ?sum_app, ?sum_cons, ?sum_nil; lia. Qed.
Lemma sum_push : forall r l t, sum (push r t l) = prod t + sum l.
Proof. intros [] l t; cbn [push]; rewrite ?sum_app, ?sum_cons, ?sum_nil; lia. Qed.
Lemma prod_last : forall t x, recent true t = Some x -> prod t = prod (removelast t) * v x.
Proof.
  intros t x H. destruct (recent_split _ _ _ H) as (H1 & _). rewrite (H1 eq_refl) at 1.
  rewrite prod_app, prod_cons, prod_nil. lia.
Qed.
Lemma prod_from_dim : forall d, prod (mult_from_dim d) = v d.
Proof.
  intros [id nm k s|k z|[| |k r] a b]; cbn; try lia.
  destruct (z =? 1) eqn:E; cbn; lia.
Qed.
Lemma proper_from_dim : forall d, pr d -> Forall pr (mult_from_dim d).
Proof.
  intros [id nm k s|k z|[| |k r] a b] H; cbn.
  - repeat constructor.
  - destruct (z =? 1); repeat constructor.
  - constructor; [exact H|constructor].
  - destruct H as (Ha & Hb & _). constructor; [exact Ha|constructor; [exact Hb|constructor]].
  - constructor; [exact H|constructor].
Qed.
Lemma mult_const_prod : forall t, mult_is_const t = true -> mult_const_value t = prod t.
Proof.
  intros t H. unfold mult_is_const in H. rewrite forallb_forall in H. unfold mult_const_value, prod. f_equal.
  apply map_ext_in. intros d Hd. specialize (H d Hd). destruct d; try discriminate H. reflexivity.
Qed.
Lemma divide_exact : forall k a b, b <> 0 -> (b | a) -> divide k a b * b = a.
Proof. intros k a b Hb (q & ->). destruct k; cbn [divide]; [rewrite Z.div_mul by exact Hb; ring|rewrite Z.div_mul by exact Hb; ring|]. replace (- (q * b)) with (- q * b) by ring. rewrite Z.div_mul by exact Hb. ring. Qed.
Lemma exact_div : forall d right num den, is_div d Exact right = true -> div_inputs d = Some (num, den) -> pr d ->
  v d * v den = v num /\ pr num /\ pr den /\ (v den | v num) /\ 0 < v den.
Proof.
  intros d right num den Hd Hi Hp. destruct d as [| |o a b]; try discriminate Hi.
  destruct o as [| |k r]; try discriminate Hi. cbn [div_inputs] in Hi. injection Hi as <- <-.
  cbn [proper] in Hp. destruct Hp as (Ha & Hb & Hpos & Hex).
  assert (Hdvd : (v b | v a)).
  { unfold is_div, op_of in Hd. destruct (size a) as [x|] eqn:Ea; [destruct (size b) as [y|] eqn:Eb|].
    - rewrite (size_val _ _ Ea), (size_val _ _ Eb) in *. destruct (x mod y =? 0) eqn:E.
      + apply Z.mod_divide; [lia|]. apply Z.eqb_eq. exact E.
      + apply Hex. destruct k; try discriminate Hd. reflexivity.
    - apply Hex. destruct k; try discriminate Hd. reflexivity.
    - apply Hex. destruct k; try discriminate Hd. reflexivity. }
  repeat split; try assumption. cbn [val op_value]. apply divide_exact; [lia|exact Hdvd].
Qed.

Section Ops.
Variable eqd : dim -> dim -> bool.
Variable pick : list entry -> mop -> dim -> operand -> option dim.
(** the dims in use, and the kinds they have *)
Variable U : dim -> Prop.
Variable UK : option dkind -> Prop.
Hypothesis U_const : forall k z, UK k -> U (Const k z).
Hypothesis U_none : UK None.
Hypothesis U_kind : forall d, U d -> UK (kind_of d).
Hypothesis U_der : forall o a b, U (Der o a b) <-> U a /\ U b.
Definition U_of (o : operand) : Prop := match o with OInt _ => True | ODim d => U d end.
Hypothesis Heq : forall a b, U a -> U b -> eqd a b = true -> v a = v b.
Hypothesis Hpick : answers_earlier eqd pick.
(** what is required of the remembered divisions *)
Variable D : entry -> Prop.
(** a shape that sums, differences and products keep *)
Variable N : dim -> Prop.
Hypothesis N_eq : forall a b, U a -> U b -> eqd a b = true -> N b -> N a.
Hypothesis N_const : forall k z, N (Const k z).
Hypothesis N_der : forall o a b, (o = OAdd \/ o = OMul) -> (N (Der o a b) <-> N a /\ N b).
Hypothesis N_div : forall k r a b, N (Der (ODiv k r) a b) -> N a.
Definition N_of (o : operand) : Prop := match o with OInt _ => True | ODim d => N d end.

Definition good (d : dim) : Prop := proper env d /\ U d.
Definition good_of (o : operand) : Prop := proper_of env o /\ U_of o.
Notation pr := good.
Definition sound_entry (e : entry) : Prop :=
  (U (e_self e) /\ U_of (e_other e)) /\
  match e_op e with
  | CDiv _ _ => D e
  | op => v (e_res e) = meaning op (v (e_self e)) (val_of env (e_other e)) /\ pr (e_res e) /\
          (N (e_self e) -> N_of (e_other e) -> N (e_res e))
  end.
Definition sound (st : list entry) : Prop := Forall sound_entry st.
Notation hr := (hoare sound).
Definition is_cdiv (op : mop) : bool := match op with CDiv _ _ => true | _ => false end.

(** whether the shape is asked for *)
Variable flag : bool.
Definition P (d : dim) : Prop := pr d /\ (flag = true -> N d).
Definition P_of (o : operand) : Prop := good_of o /\ (flag = true -> N_of o).
Lemma P_U : forall d, P d -> U d.
Proof. intros d ((_ & H) & _). exact H. Qed.
Lemma P_const : forall k z, UK k -> P (Const k z).
Proof. intros k z H. split; [split; [exact I|apply U_const; exact H]|]. intros _. apply N_const. Qed.
Lemma P_kind : forall d, P d -> UK (kind_of d).
Proof. intros d H. apply U_kind. apply P_U. exact H. Qed.
Lemma P_add : forall a b, P (Der OAdd a b) <-> P a /\ P b.
Proof.
  intros a b. unfold P, good. cbn [proper]. rewrite U_der, (N_der OAdd a b) by (left; reflexivity). destruct flag; intuition congruence.
Qed.
Lemma P_mul : forall a b, P (Der OMul a b) <-> P a /\ P b.
Proof.
  intros a b. unfold P, good. cbn [proper]. rewrite U_der, (N_der OMul a b) by (right; reflexivity). destruct flag; intuition congruence.
Qed.
Lemma P_dim : forall d, P_of (ODim d) <-> P d.
Proof. intros d. reflexivity. Qed.
Lemma P_int : forall z, P_of (OInt z).
Proof. intros z. split; [split; exact I|]. intros _. exact I. Qed.
Lemma P_from_dim : forall d, P d -> Forall P (mult_from_dim d).
Proof.
  intros [id nm k s|k z|[| |k r] a b] H; cbn [mult_from_dim].
  - constructor; [exact H|constructor].
  - destruct (z =? 1); [constructor|]. constructor; [exact H|constructor].
  - constructor; [exact H|constructor].
  - apply P_mul in H. destruct H as (Ha & Hb). constructor; [exact Ha|constructor; [exact Hb|constructor]].
  - constructor; [exact H|constructor].
Qed.
Lemma P_exact : forall d right num den, is_div d Exact right = true -> div_inputs d = Some (num, den) -> P d ->
  v d * v den = v num /\ P num /\ U den.
Proof.
  intros d right num den H1 H2 ((H3 & H0) & H4). destruct (exact_div _ _ _ _ H1 H2 H3) as (E1 & E2 & _). split; [exact E1|].
  assert (HU : U num /\ U den). { destruct d as [| |[| |k r] a b]; try discriminate H2. cbn in H2. injection H2 as <- <-. apply U_der in H0. exact H0. }
  destruct HU as (HU1 & HU2). split; [|exact HU2]. split; [split; assumption|]. intros Hf. specialize (H4 Hf). destruct d as [| |[| |k r] a b]; try discriminate H2.
  cbn in H2. injection H2 as <- <-. apply N_div in H4. exact H4.
Qed.

Lemma operand_eq_val : forall a b, U_of a -> U_of b -> operand_eq eqd a b = true -> val_of env a = val_of env b.
Proof.
  intros [x|x] [y|y] Ha Hb H; try discriminate H; cbn in *.
  - apply Z.eqb_eq. exact H.
  - apply Heq; assumption.
Qed.
Lemma operand_eq_N : forall a b, U_of a -> U_of b -> operand_eq eqd a b = true -> N_of b -> N_of a.
Proof.
  intros [x|x] [y|y] Ha Hb H; try discriminate H; cbn in *; [intros _; exact I|]. apply N_eq; assumption.
Qed.
Lemma h_cached : forall op self o make, is_cdiv op = false -> U self -> U_of o -> (flag = true -> N self /\ N_of o) ->
  hr make (fun d => v d = meaning op (v self) (val_of env o) /\ P d) ->
  hr make (fun d => N self -> N_of o -> N d) ->
  hr (cached pick op self o make) (fun d => v d = meaning op (v self) (val_of env o) /\ P d).
Proof.
  intros op self o make Hop HU1 HU2 HN Hm Hm2 st Hst. unfold cached. destruct (pick st op self o) as [r|] eqn:E.
  - split; [exact Hst|]. cbn. intros x Ex. injection Ex as <-.
    destruct (Hpick _ _ _ _ _ E) as (e & He & E1 & E2 & E3 & E4). unfold sound in Hst. rewrite Forall_forall in Hst.
    specialize (Hst e He). unfold sound_entry in Hst. destruct Hst as ((HU3 & HU4) & Hst). rewrite E1, E4 in Hst.
    rewrite (Heq _ _ HU3 HU1 E2), (operand_eq_val _ _ HU4 HU2 E3) in Hst.
    assert (Hst' : v r = meaning op (v self) (val_of env o) /\ pr r /\ (N (e_self e) -> N_of (e_other e) -> N r))
      by (destruct op; try exact Hst; discriminate Hop).
    destruct Hst' as (Q1 & Q2 & Q3). split; [exact Q1|]. split; [exact Q2|]. intros Hf. destruct (HN Hf) as (N1 & N2).
    apply Q3; [eapply (N_eq _ self); assumption|eapply (operand_eq_N _ o); assumption].
  - destruct (Hm st Hst) as (H1 & H2). destruct (Hm2 st Hst) as (_ & H3). destruct (make st) as [[r|e] st']; cbn [fst snd] in *.
    + specialize (H2 r eq_refl). specialize (H3 r eq_refl). split.
      * constructor; [|exact H1]. unfold sound_entry. cbn. split; [split; assumption|]. destruct H2 as (H2 & (H4 & H5)).
        destruct op; try discriminate Hop; (split; [exact H2|split; [exact H4|exact H3]]).
      * intros x Ex. injection Ex as <-. exact H2.
    + split; [exact H1|]. intros x Ex. discriminate Ex.
Qed.
Lemma N_norm : forall d, N d -> N_of (norm d).
Proof. intros [| |] H; exact H || exact I. Qed.
Lemma N_of_norm : forall d, N_of (norm d) -> N d.
Proof. intros [| k z|] H; try exact H. apply N_const. Qed.
Lemma U_norm : forall d, U d -> U_of (norm d).
Proof. intros [| |] H; exact H || exact I. Qed.

Lemma h_bin_op : forall mul a b, P a -> P b ->
  hr (bin_op pick mul a b) (fun d => v d = (if mul then v a * v b else v a + v b) /\ P d).
Proof.
  intros mul a b Ha Hb. unfold bin_op.
  assert (HP : P (Der (if mul then OMul else OAdd) a b)) by (destruct mul; [apply P_mul|apply P_add]; split; assumption).
  assert (HN : N a -> N b -> N (Der (if mul then OMul else OAdd) a b)).
  { intros H1 H2. destruct mul; (rewrite N_der; [split; assumption|]); [right|left]; reflexivity. }
  assert (HPN : flag = true -> N a /\ N b) by (destruct Ha as (_ & Ha), Hb as (_ & Hb); intros Hf; split; auto).
  destruct (is_const a && negb (is_const b)).
  - eapply h_weaken; [apply h_cached|].
    + destruct mul; reflexivity.
    + apply P_U; exact Hb.
    + apply U_norm; apply P_U; exact Ha.
    + intros Hf. destruct (HPN Hf) as (N1 & N2). split; [exact N2|apply N_norm; exact N1].
    + apply h_ret. rewrite val_norm. split; [|exact HP]. destruct mul; cbn; lia.
    + apply h_ret. intros H1 H2. apply HN; [apply N_of_norm; exact H2|exact H1].
    + intros d (H1 & H2). rewrite val_norm in H1. split; [|exact H2]. rewrite H1. destruct mul; cbn; lia.
  - eapply h_weaken; [apply h_cached|].
    + destruct mul; reflexivity.
    + apply P_U; exact Ha.
    + apply U_norm; apply P_U; exact Hb.
    + intros Hf. destruct (HPN Hf) as (N1 & N2). split; [exact N1|apply N_norm; exact N2].
    + apply h_ret. rewrite val_norm. split; [|exact HP]. destruct mul; cbn; lia.
    + apply h_ret. intros H1 H2. apply HN; [exact H1|apply N_of_norm; exact H2].
    + intros d (H1 & H2). rewrite val_norm in H1. split; [|exact H2]. rewrite H1. destruct mul; cbn; lia.
Qed.

Lemma h_mult_as_dim : forall t, Forall P t -> hr (mult_as_dim pick t) (fun d => v d = prod t /\ P d).
Proof.
  intros [|d t] Ht; cbn [mult_as_dim].
  - apply h_ret. split; [reflexivity|apply P_const; exact U_none].
  - inversion Ht as [|? ? Hd Ht']; subst. eapply h_weaken.
    + apply h_foldM with (Inv := fun l d' => v d' * prod l = v d * prod t /\ P d' /\ Forall P l).
      * intros x l' y (H1 & H2 & H3). inversion H3; subst. eapply h_weaken; [apply h_bin_op; assumption|].
        cbn [val op_value meaning val_of]. intros z (Hz1 & Hz2). rewrite prod_cons in H1. split; [|split; assumption]. rewrite Hz1. lia.
      * split; [reflexivity|split; assumption].
    + cbn [val op_value meaning val_of]. intros x (H1 & H2 & _). rewrite prod_nil in H1. split; [rewrite prod_cons; lia|exact H2].
Qed.

Lemma mult_eq_prod : forall s t, Forall U s -> Forall U t -> mult_eq eqd s t = true -> prod s = prod t.
Proof.
  intros s t Hs Ht H. unfold mult_eq in H. apply andb_true_iff in H. destruct H as (H1 & H2). apply Nat.eqb_eq in H1.
  revert t Ht H1 H2. induction s as [|x s IH]; intros [|y t] Ht H1 H2; try discriminate H1; [reflexivity|].
  inversion Hs; inversion Ht; subst.
  cbn [length combine forallb fst snd] in *. apply andb_true_iff in H2. destruct H2 as (Hxy & H2). rewrite !prod_cons, (Heq x y) by assumption. f_equal.
  apply IH; [assumption|assumption|lia|exact H2].
Qed.

(** the operators used inside *)
Variable rec : mop -> dim -> operand -> M dim.
Hypothesis Hrec : forall op a o, is_cdiv op = false -> P a -> P_of o ->
  hr (rec op a o) (fun d => v d = meaning op (v a) (val_of env o) /\ P d).

Lemma h_extend_one_mul : forall terms other right, Forall P terms -> P other ->
  hr (extend_one eqd pick rec terms other MMul right) (fun t => prod t = prod terms * v other /\ Forall P t).
Proof.
  intros terms other right Ht Ho. unfold extend_one.
  assert (Hrest : hr (ret (if right then terms ++ [other] else other :: terms)) (fun t => prod t = prod terms * v other /\ Forall P t)).
  { apply h_ret. destruct right; rewrite ?prod_app, ?prod_cons, ?prod_nil; split; try ring.
    - apply Forall_app; split; [exact Ht|constructor; [exact Ho|constructor]].
    - constructor; assumption. }
  destruct (simplify_idx eqd terms other MMul right) as [i|]; [|exact Hrest].
  destruct (nth_error terms i) as [term|] eqn:Ei; [|apply h_raise].
  assert (Hterm : P term). { rewrite Forall_forall in Ht. apply Ht. eapply nth_error_In; eassumption. }
  destruct (exact_by eqd right term other) eqn:E1.
  - unfold exact_by in E1. apply andb_true_iff in E1. destruct E1 as (E1 & E2).
    destruct (div_inputs term) as [[x b]|] eqn:Ed; [|discriminate E2].
    destruct (P_exact _ _ _ _ E1 Ed Hterm) as (H1 & Hx & Hu). apply h_ret.
    destruct (prod_set_nth i terms x term Ei) as (p & P1 & P2). split.
    + rewrite P1, P2, <- H1, (Heq _ _ Hu (P_U _ Ho) E2). ring.
    + apply Forall_set_nth; assumption.
  - destruct (exact_by eqd (negb right) other term) eqn:E2.
    + unfold exact_by in E2. apply andb_true_iff in E2. destruct E2 as (E2 & E3).
      destruct (div_inputs other) as [[x b]|] eqn:Ed; [|discriminate E3].
      destruct (P_exact _ _ _ _ E2 Ed Ho) as (H1 & Hx & Hu). apply h_ret.
      destruct (prod_set_nth i terms x term Ei) as (p & P1 & P2). split.
      * rewrite P1, P2, <- H1, (Heq _ _ Hu (P_U _ Hterm) E3). ring.
      * apply Forall_set_nth; assumption.
    + destruct term as [id nm k s|tk a|o a b]; try exact Hrest. destruct other as [id nm k s|ok b|o a' b]; try exact Hrest.
      destruct (a * b =? 1) eqn:E3.
      * apply h_ret. split; [|apply Forall_pop_nth; exact Ht]. pose proof (prod_pop_nth _ _ _ Ei) as P. rewrite P. cbn in *.
        assert (a * b = 1) by lia. rewrite <- Z.mul_assoc, H. ring.
      * apply h_ret. split; [|apply Forall_set_nth; [exact Ht|apply P_const; apply (P_kind _ Hterm)]].
        destruct (prod_set_nth i terms (Const tk (a * b)) _ Ei) as (p & P1 & P2). rewrite P1, P2. cbn. ring.
Qed.

Lemma h_mult_extend_mul : forall other right terms, Forall P terms -> P other ->
  hr (mult_extend eqd pick rec other MMul right terms) (fun t => prod t = prod terms * v other /\ Forall P t).
Proof.
  assert (Hsimple : forall other right terms, Forall P terms -> P other -> is_const_of other 1 = false ->
    hr (match terms with [] => ret [other] | _ :: _ => extend_one eqd pick rec terms other MMul right end)
       (fun t => prod t = prod terms * v other /\ Forall P t)).
  { intros other right [|t0 terms] Ht Ho _.
    - apply h_ret. rewrite prod_cons, !prod_nil. split; [ring|constructor; [exact Ho|constructor]].
    - apply h_extend_one_mul; assumption. }
  induction other as [id nm k s|k z|o a IHa b IHb]; intros right terms Ht Ho.
  - apply (Hsimple (Var id nm k s) right terms Ht Ho eq_refl).
  - cbn [mult_extend]. destruct (is_const_of (Const k z) 1) eqn:E.
    + apply h_ret. cbn in E. cbn. split; [lia|exact Ht].
    + apply (Hsimple (Const k z) right terms Ht Ho E).
  - destruct o as [| |dk r].
    + apply (Hsimple (Der OAdd a b) right terms Ht Ho eq_refl).
    + destruct terms as [|t0 terms].
      * cbn [mult_extend is_const_of]. apply h_ret. rewrite prod_cons, !prod_nil. split; [ring|constructor; [exact Ho|constructor]].
      * cbn [mult_extend is_const_of]. apply P_mul in Ho; destruct Ho as (Ha & Hb). destruct right.
        -- eapply h_bind; [apply IHa; assumption|]. intros t (Q1 & Q2). eapply h_weaken; [apply IHb; assumption|].
           cbn [val op_value meaning val_of]. intros t' (Q3 & Q4). split; [|exact Q4]. rewrite Q3, Q1. ring.
        -- eapply h_bind; [apply IHb; assumption|]. intros t (Q1 & Q2). eapply h_weaken; [apply IHa; assumption|].
           cbn [val op_value meaning val_of]. intros t' (Q3 & Q4). split; [|exact Q4]. rewrite Q3, Q1. ring.
    + apply (Hsimple (Der (ODiv dk r) a b) right terms Ht Ho eq_refl).
Qed.

Lemma h_can_simplify_mul : forall other right terms, Forall P terms -> P other ->
  hr (can_simplify eqd pick rec other MMul right terms) (fun _ => True).
Proof.
  induction other as [id nm k s|k z|o a IHa b IHb]; intros right terms Ht Ho; try (apply h_ret; exact I).
  destruct o as [| |dk r]; try (apply h_ret; exact I).
  cbn [can_simplify]. apply P_mul in Ho; destruct Ho as (Ha & Hb). destruct right.
  - eapply h_bind; [apply IHa; assumption|]. intros [] _; [|apply h_ret; exact I].
    eapply h_bind; [apply h_mult_extend_mul; assumption|]. intros t (_ & Q).
    eapply h_bind; [apply IHb; assumption|]. intros [] _; [|apply h_ret; exact I].
    eapply h_bind; [apply h_mult_extend_mul; assumption|]. intros t' _. apply h_ret. exact I.
  - eapply h_bind; [apply IHb; assumption|]. intros [] _; [|apply h_ret; exact I].
    eapply h_bind; [apply h_mult_extend_mul; assumption|]. intros t (_ & Q).
    eapply h_bind; [apply IHa; assumption|]. intros [] _; [|apply h_ret; exact I].
    eapply h_bind; [apply h_mult_extend_mul; assumption|]. intros t' _. apply h_ret. exact I.
Qed.

Lemma h_negative : forall t, Forall P t -> hr (negative eqd pick rec t) (fun t' => prod t' = - prod t /\ Forall P t').
Proof.
  intros t Ht. unfold negative.
  assert (Hg : hr (mult_extend eqd pick rec (Const None (-1)) MMul false t) (fun t' => prod t' = - prod t /\ Forall P t')).
  { eapply h_weaken; [apply h_mult_extend_mul; [exact Ht|apply P_const; exact U_none]|]. intros t' (Q & Q2). split; [|exact Q2]. rewrite Q. cbn [val]. ring. }
  destruct t as [|[id nm k s|k z|o a b] t']; try exact Hg. destruct (z =? -1) eqn:E; [|exact Hg].
  apply h_ret. inversion Ht; subst. split; [|assumption]. rewrite prod_cons. cbn [val]. lia.
Qed.

Lemma h_from_dim_factors : forall l, Forall P l -> hr (from_dim_factors eqd pick rec l) (fun t => prod t = prod l /\ Forall P t).
Proof.
  intros l Hl. unfold from_dim_factors. eapply h_weaken.
  - apply h_foldM with (Inv := fun r t => prod t * prod r = prod l /\ Forall P t /\ Forall P r).
    + intros x l' t (Q1 & Q2 & Q3). inversion Q3; subst. eapply h_weaken; [apply h_mult_extend_mul; assumption|].
      cbn [val op_value meaning val_of]. intros t' (Q4 & Q5). rewrite prod_cons in Q1. split; [rewrite Q4; lia|split; assumption].
    + rewrite prod_nil. split; [ring|]. split; [constructor|exact Hl].
  - cbn [val op_value meaning val_of]. intros t (Q1 & Q2 & _). rewrite prod_nil in Q1. split; [lia|exact Q2].
Qed.

Definition prs (l : list (list dim)) : Prop := Forall (Forall P) l.

Lemma h_lin_as_dim : forall l, prs l -> hr (lin_as_dim pick l) (fun d => v d = sum l /\ P d).
Proof.
  intros [|t l] Hl; cbn [lin_as_dim].
  - apply h_ret. split; [reflexivity|apply P_const; exact U_none].
  - inversion Hl as [|? ? Ht Hl']; subst. eapply h_bind; [apply h_mult_as_dim; exact Ht|]. intros d (Q1 & Q2).
    eapply h_weaken.
    + apply h_foldM with (Inv := fun r d' => v d' + sum r = sum (t :: l) /\ P d' /\ prs r).
      * intros x l' d' (R1 & R2 & R3). inversion R3; subst. eapply h_bind; [apply h_mult_as_dim; assumption|].
        intros d2 (S1 & S2). eapply h_weaken; [apply h_bin_op; assumption|]. cbn [val op_value meaning val_of]. intros d3 (U1 & U2).
        rewrite sum_cons in R1. split; [rewrite U1, S1; lia|split; assumption].
      * rewrite sum_cons, Q1. split; [reflexivity|split; assumption].
    + cbn [val op_value meaning val_of]. intros x (R1 & R2 & _). rewrite sum_nil in R1. split; [lia|exact R2].
Qed.

Lemma h_merge_terms : forall right r term x y, Forall P r -> Forall P term ->
  recent true r = Some x -> recent true term = Some y -> v x = v y ->
  hr (merge_terms eqd pick rec right r term y) (fun t => prod t = prod r + prod term /\ Forall P t).
Proof.
  intros right r term x y Hr Ht Ex Ey Exy. unfold merge_terms.
  eapply h_bind; [apply h_from_dim_factors; apply Forall_removelast; exact Hr|]. intros ta (A1 & A2).
  eapply h_bind; [apply h_mult_as_dim; exact A2|]. intros a (A3 & A4).
  eapply h_bind; [apply h_from_dim_factors; apply Forall_removelast; exact Ht|]. intros tb (B1 & B2).
  eapply h_bind; [apply h_mult_as_dim; exact B2|]. intros b (B3 & B4).
  assert (Hs : hr (match is_const a, is_const b, size a, size b with
           | true, false, Some x, _ => if right then rec (CAdd true) b (OInt x) else rec (CAdd false) b (OInt x)
           | false, true, _, Some y => if right then rec (CAdd false) a (OInt y) else rec (CAdd true) a (OInt y)
           | _, _, _, _ => if right then rec (CAdd false) a (ODim b) else rec (CAdd false) b (ODim a)
           end) (fun s => v s = v a + v b /\ P s)).
  { assert (Hd : hr (if right then rec (CAdd false) a (ODim b) else rec (CAdd false) b (ODim a)) (fun s => v s = v a + v b /\ P s)).
    { destruct right; (eapply h_weaken; [apply Hrec; [reflexivity|assumption|assumption]|]); cbn [val op_value meaning val_of]; intros s (Q1 & Q2); (split; [lia|exact Q2]). }
    destruct (is_const a), (is_const b); try exact Hd.
    - destruct (size a) as [z|] eqn:Ez; [|exact Hd]. apply size_val in Ez. cbv iota.
      destruct (size b); cbv iota; destruct right; (eapply h_weaken; [apply Hrec; [reflexivity|assumption|apply P_int]|]); cbn [val op_value meaning val_of]; intros s (Q1 & Q2); (split; [lia|exact Q2]).
    - destruct (size a) as [za|], (size b) as [z|] eqn:Ez; try exact Hd; apply size_val in Ez; cbv iota;
      destruct right; (eapply h_weaken; [apply Hrec; [reflexivity|assumption|apply P_int]|]); cbn [val op_value meaning val_of]; intros s (Q1 & Q2); (split; [lia|exact Q2]). }
  eapply h_bind; [exact Hs|]. intros s (S1 & S2).
  assert (Hy : P y). { rewrite Forall_forall in Ht. apply Ht. eapply recent_In; eassumption. }
  eapply h_weaken; [apply h_mult_extend_mul; [apply P_from_dim; exact S2|exact Hy]|]. intros t (Q1 & Q2). split; [|exact Q2].
  rewrite Q1, prod_from_dim, S1, A3, A1, B3, B1, (prod_last _ _ Ex), (prod_last _ _ Ey), Exy. ring.
Qed.

Lemma h_add_one : forall sub right other l, prs l -> P other ->
  hr (add_one eqd pick rec sub right other l) (fun l' => sum l' = sum l + (if sub then - v other else v other) /\ prs l').
Proof.
  intros sub right other l Hl Ho. unfold add_one.
  pose proof (P_from_dim other Ho) as Ht0. pose proof (prod_from_dim other) as Hp0.
  eapply h_bind; [apply h_negative; exact Ht0|]. intros neg0 (N1 & N2).
  set (term0 := mult_from_dim other) in *.
  assert (E : exists term neg, (if sub then (neg0, term0) else (term0, neg0)) = (term, neg) /\
    prod term = (if sub then - v other else v other) /\ prod neg = - prod term /\ Forall P term /\ Forall P neg).
  { destruct sub; eexists _, _; (split; [reflexivity|]); repeat split; try assumption; lia. }
  destruct E as (term & neg & -> & T1 & T2 & T3 & T4). rewrite <- T1.
  destruct (recent right l) as [r|] eqn:Er.
  2:{ apply h_ret. rewrite sum_push. split; [lia|]. apply Forall_push; assumption. }
  pose proof (sum_recent _ _ _ Er) as Hs. pose proof (recent_In _ _ _ Er) as Hin.
  assert (Hr : Forall P r). { unfold prs in Hl. rewrite Forall_forall in Hl. apply Hl. exact Hin. }
  assert (Hpush : hr (ret (push right term l)) (fun l' => sum l' = sum l + prod term /\ prs l')).
  { apply h_ret. rewrite sum_push. split; [lia|]. apply Forall_push; assumption. }
  destruct (mult_eq eqd r neg) eqn:E1.
  { apply h_ret. apply mult_eq_prod in E1; [|eapply Forall_impl; [|exact Hr]; exact P_U|eapply Forall_impl; [|exact T4]; exact P_U]. split; [lia|]. apply Forall_pop_recent. exact Hl. }
  destruct (mult_is_const r && mult_is_const term) eqn:E2.
  { apply andb_true_iff in E2. destruct E2 as (E2 & E3). apply h_ret. rewrite sum_set_recent, prod_from_dim. cbn [val].
    rewrite (mult_const_prod _ E2), (mult_const_prod _ E3). split; [lia|]. apply Forall_set_recent; [exact Hl|].
    apply P_from_dim. apply P_const. apply P_kind. exact Ho. }
  destruct (recent true r) as [x|] eqn:Ex; [|exact Hpush]. destruct (recent true term) as [y|] eqn:Ey; [|exact Hpush].
  destruct (eqd x y) eqn:Exy; [|exact Hpush].
  eapply h_bind; [eapply h_merge_terms; [exact Hr|exact T3|exact Ex|exact Ey|apply Heq; [| |exact Exy]]|].
  { apply P_U. rewrite Forall_forall in Hr. apply Hr. eapply recent_In; exact Ex. }
  { apply P_U. rewrite Forall_forall in T3. apply T3. eapply recent_In; exact Ey. }
  intros m (M1 & M2). apply h_ret. rewrite sum_set_recent. split; [lia|]. apply Forall_set_recent; assumption.
Qed.

Lemma h_lin_add : forall sub right other l, prs l -> P other ->
  hr (lin_add eqd pick rec sub right other l) (fun l' => sum l' = sum l + (if sub then - v other else v other) /\ prs l').
Proof.
  induction other as [id nm k s|k z|o a IHa b IHb]; intros l Hl Ho; cbn [lin_add is_const_of].
  - apply h_add_one; assumption.
  - destruct (z =? 0) eqn:E.
    + apply h_ret. cbn [val]. split; [destruct sub; lia|exact Hl].
    + apply h_add_one; assumption.
  - destruct o as [| |dk r].
    + apply P_add in Ho; destruct Ho as (Ha & Hb). destruct right.
      * eapply h_bind; [apply IHa; assumption|]. intros l1 (Q1 & Q2). eapply h_weaken; [apply IHb; assumption|].
        cbn [val op_value meaning val_of]. intros l2 (Q3 & Q4). split; [|exact Q4]. rewrite Q3, Q1. destruct sub; lia.
      * eapply h_bind; [apply IHb; assumption|]. intros l1 (Q1 & Q2). eapply h_weaken; [apply IHa; assumption|].
        cbn [val op_value meaning val_of]. intros l2 (Q3 & Q4). split; [|exact Q4]. rewrite Q3, Q1. destruct sub; lia.
    + apply h_add_one; assumption.
    + apply h_add_one; assumption.
Qed.
Lemma h_lin_from_dim : forall d, P d -> hr (lin_from_dim eqd pick rec d) (fun l => sum l = v d /\ prs l).
Proof.
  intros d Hd. unfold lin_from_dim. eapply h_weaken; [apply h_lin_add; [constructor|exact Hd]|].
  intros l (Q1 & Q2). rewrite sum_nil in Q1. split; [lia|exact Q2].
Qed.
Lemma make_dim_val : forall l o, v (make_dim l o) = val_of env o.
Proof. intros l [z|d]; reflexivity. Qed.
Lemma representative_In : forall l d, representative l = Some d -> In d l.
Proof.
  intros l d H. unfold representative in H. destruct (find is_dynamic_seq l) eqn:E1.
  { injection H as ->. apply find_some in E1. apply E1. }
  match type of H with match find ?f l with _ => _ end = _ => destruct (find f l) eqn:E2 end.
  { injection H as ->. apply find_some in E2. apply E2. }
  destruct l; [discriminate H|]. injection H as ->. left. reflexivity.
Qed.
Lemma make_dim_proper : forall l o, prs l -> P_of o -> P (make_dim l o).
Proof.
  intros l [z|d] Hl H; [|exact H]. apply P_const. destruct (lin_representative l) as [d|] eqn:E; [|exact U_none].
  apply P_kind. apply representative_In in E. apply in_flat_map in E. destruct E as (t & Ht & Hd).
  destruct (representative t) as [x|] eqn:E; [|destruct Hd]. destruct Hd as [<- |[]]. apply representative_In in E.
  unfold prs in Hl. rewrite Forall_forall in Hl. specialize (Hl t Ht). rewrite Forall_forall in Hl. apply Hl. exact E.
Qed.

Lemma sum_scale : forall l l' z, Forall2 (fun t t' => prod t' = prod t * z /\ Forall P t') l l' -> sum l' = sum l * z /\ prs l'.
Proof.
  intros l l' z H. induction H as [|t t' l l' (H1 & H2) H IH].
  - split; [rewrite sum_nil; ring|constructor].
  - destruct IH as (IH1 & IH2). rewrite !sum_cons, H1, IH1. split; [ring|constructor; assumption].
Qed.
Lemma h_lin_mul : forall l o right, prs l -> P_of o ->
  hr (lin_muldiv eqd pick rec l o MMul right) (fun l' => sum l' = sum l * val_of env o /\ prs l').
Proof.
  intros l o right Hl Ho. unfold lin_muldiv. pose proof (make_dim_val l o) as Ev. pose proof (make_dim_proper l o Hl Ho) as Hp.
  set (other := make_dim l o) in *.
  eapply h_bind with (P := fun x : list (list dim) * dim * bool => sum (fst (fst x)) * v (snd (fst x)) = sum l * val_of env o /\ prs (fst (fst x)) /\ P (snd (fst x))).
  - assert (H0 : forall r : bool, hr (ret (l, other, r)) (fun x : list (list dim) * dim * bool => sum (fst (fst x)) * v (snd (fst x)) = sum l * val_of env o /\ prs (fst (fst x)) /\ P (snd (fst x)))).
    { intros r. apply h_ret. cbn [fst snd]. rewrite Ev. split; [reflexivity|split; assumption]. }
    destruct right; [|apply H0]. eapply h_bind.
    + apply h_allM with (Q := fun _ => True). intros t Hin. eapply h_weaken; [apply h_can_simplify_mul; [|exact Hp]|intros; exact I].
      unfold prs in Hl. rewrite Forall_forall in Hl. apply Hl. exact Hin.
    + intros [] _; [apply H0|]. eapply h_bind; [apply h_lin_from_dim; exact Hp|]. intros l' (Q1 & Q2).
      eapply h_bind; [apply h_lin_as_dim; exact Hl|]. intros d (Q3 & Q4). apply h_ret. cbn [fst snd]. rewrite Q1, Q3, Ev. split; [ring|split; assumption].
  - intros ((l1, other1), r) (Q1 & Q2 & Q3). cbn [fst snd] in *. destruct (is_const_of other1 1) eqn:E.
    + apply h_ret. destruct other1 as [| k1 z1|]; try discriminate E. cbn [is_const_of] in E. cbn [val] in Q1. split; [|exact Q2]. assert (z1 = 1) by lia. subst z1. lia.
    + eapply h_bind; [apply h_ret with (Q := fun x => x = None); reflexivity|]. intros x ->. eapply h_weaken.
      * apply h_mapMM. intros t Hin. apply h_mult_extend_mul; [|exact Q3]. unfold prs in Q2. rewrite Forall_forall in Q2. apply Q2. exact Hin.
      * intros l2 H2. apply sum_scale in H2. destruct H2 as (H2 & H3). split; [lia|exact H3].
Qed.

Lemma h_compute : forall op self o, is_cdiv op = false -> P self -> P_of o ->
  hr (compute eqd pick rec op self o) (fun d => v d = meaning op (v self) (val_of env o) /\ P d).
Proof.
  intros op self o Hop Hs Ho. unfold compute. eapply h_bind; [apply h_lin_from_dim; exact Hs|]. intros l (Q1 & Q2).
  eapply h_bind with (P := fun l' => sum l' = meaning op (v self) (val_of env o) /\ prs l').
  - destruct op as [lf|lf|lf|k lf]; [| | |discriminate Hop]; cbn [meaning].
    + eapply h_weaken; [apply h_lin_add; [exact Q2|apply make_dim_proper; [exact Q2|exact Ho]]|]. intros l' (Q3 & Q4). rewrite make_dim_val in Q3. split; [lia|exact Q4].
    + eapply h_weaken; [apply h_lin_add; [exact Q2|apply make_dim_proper; [exact Q2|exact Ho]]|]. intros l' (Q3 & Q4). rewrite make_dim_val in Q3. split; [lia|exact Q4].
    + eapply h_weaken; [apply h_lin_mul; [exact Q2|exact Ho]|]. intros l' (Q3 & Q4). split; [rewrite Q3, Q1; reflexivity|exact Q4].
  - intros l' (Q3 & Q4). eapply h_weaken; [apply h_lin_as_dim; exact Q4|]. intros d (Q5 & Q6). split; [lia|exact Q6].
Qed.
End Ops.

Section Tie.
Variable eqd : dim -> dim -> bool.
Variable pick : list entry -> mop -> dim -> operand -> option dim.
Variable U : dim -> Prop.
Variable UK : option dkind -> Prop.
Hypothesis U_const : forall k z, UK k -> U (Const k z).
Hypothesis U_none : UK None.
Hypothesis U_kind : forall d, U d -> UK (kind_of d).
Hypothesis U_der : forall o a b, U (Der o a b) <-> U a /\ U b.
Hypothesis Heq : forall a b, U a -> U b -> eqd a b = true -> v a = v b.
Hypothesis Hpick : answers_earlier eqd pick.
Variable D : entry -> Prop.
Variable N : dim -> Prop.
Hypothesis N_eq : forall a b, U a -> U b -> eqd a b = true -> N b -> N a.
Hypothesis N_const : forall k z, N (Const k z).
Hypothesis N_der : forall o a b, (o = OAdd \/ o = OMul) -> (N (Der o a b) <-> N a /\ N b).
Hypothesis N_div : forall k r a b, N (Der (ODiv k r) a b) -> N a.
Theorem dim_op_arith : forall n op self o flag,
  is_cdiv op = false -> P U N flag self -> P_of U N flag o ->
  hoare (sound U D N) (dim_op eqd pick n op self o) (fun d => v d = meaning op (v self) (val_of env o) /\ P U N flag d).
Proof.
  intros n. induction n as [|n IH]; intros op self o flag Hop Hs Ho; cbn [dim_op].
  - apply h_raise.
  - assert (Hc : forall fl, P U N fl self -> P_of U N fl o ->
      hoare (sound U D N) (compute eqd pick (dim_op eqd pick n) op self o) (fun d => v d = meaning op (v self) (val_of env o) /\ P U N fl d)).
    { intros fl H1 H2. apply h_compute with (UK := UK); try assumption. intros op' a o' Hop' Ha Ho'. apply IH; assumption. }
    apply h_cached with (eqd := eqd); try assumption.
    + apply Hs.
    + apply Ho.
    + intros Hf. destruct Hs as (_ & Hs), Ho as (_ & Ho). split; auto.
    + apply Hc; assumption.
    + intros st Hst. destruct (Hc flag Hs Ho st Hst) as (H1 & _). split; [exact H1|]. intros d Ed Hn1 Hn2.
      destruct (Hc true) with (st := st) as (_ & H2); [destruct Hs; split; auto|destruct Ho; split; auto|exact Hst|].
      destruct (H2 d Ed) as (_ & _ & H3). apply H3. reflexivity.
Qed.
End Tie.
End Values.
