(** List facts that several proof files use. *)
From Verif Require Import Base.

Lemma bind_Ok {A B} (x : res A) (f : A -> res B) b :
  bind x f = Ok b <-> exists a, x = Ok a /\ f a = Ok b.
Proof. destruct x; cbn; split; intros H; [eauto| |discriminate|destruct H as (?&[=]&?)].
  destruct H as (?&[= ->]&?); auto. Qed.

Lemma Ok_inj {A} (a b : A) : Ok a = Ok b -> a = b.
Proof. congruence. Qed.

Lemma assert_Ok c u : assert_ c = Ok u <-> c = true.
Proof. destruct c, u; cbn; split; congruence. Qed.

Lemma skipn_skipn' {A} (l : list A) a b : skipn a (skipn b l) = skipn (a + b) l.
Proof. revert l; induction b as [|b IH]; intros l; [now rewrite Nat.add_0_r|].
  rewrite Nat.add_succ_r. destruct l; cbn; [now rewrite skipn_nil|apply IH]. Qed.

Lemma pyslice_all {A} (l : list A) n : length l <= n -> pyslice l 0 n = l.
Proof. intros H. unfold pyslice. rewrite Nat.sub_0_r. cbn. apply firstn_all2; auto. Qed.

Lemma pyslice_split {A} (l : list A) a b c :
  a <= b -> b <= c -> pyslice l a c = pyslice l a b ++ pyslice l b c.
Proof.
  intros Hab Hbc. unfold pyslice.
  replace (c - a) with ((b - a) + (c - b)) by lia.
  rewrite <- (firstn_skipn (b - a) (skipn a l)) at 1.
  rewrite firstn_app.
  rewrite firstn_firstn. rewrite Nat.min_r by lia.
  f_equal. rewrite firstn_length.
  rewrite skipn_skipn'. replace (b - a + a) with b by lia.
  destruct (Nat.le_gt_cases (b - a) (length (skipn a l))) as [H|H].
  - rewrite Nat.min_l by lia. f_equal. lia.
  - rewrite skipn_length in H. rewrite (skipn_all2 (n:=b)) by lia. rewrite !firstn_nil. reflexivity.
Qed.

Lemma pyslice_nil {A} (l : list A) a : pyslice l a a = [].
Proof. unfold pyslice. rewrite Nat.sub_diag. reflexivity. Qed.

Lemma pyslice_length {A} (l : list A) a b :
  b <= length l -> length (pyslice l a b) = b - a.
Proof. intros H. unfold pyslice. rewrite firstn_length, skipn_length. lia. Qed.

(** Cutting a list at the points [f 0 <= f 1 <= ... <= f n] loses nothing. *)
Lemma concat_slices {A} (l : list A) (f : nat -> nat) n :
  (forall i, i < n -> f i <= f (S i)) ->
  concat (map (fun i => pyslice l (f i) (f (S i))) (seq 0 n)) = pyslice l (f 0) (f n).
Proof.
  induction n as [|n IH]; intros Hm.
  - cbn. now rewrite pyslice_nil.
  - rewrite seq_S, map_app, concat_app, IH by (intros; apply Hm; lia).
    cbn. rewrite app_nil_r. symmetry. apply pyslice_split; [|apply Hm; lia].
    clear IH. induction n as [|m IHm]; [lia|].
    transitivity (f m); [apply IHm; intros; apply Hm; lia|]. apply Hm; lia.
Qed.

Lemma mapM_Ok_Forall2 {A B} (f : A -> res B) l ys :
  mapM f l = Ok ys <-> Forall2 (fun x y => f x = Ok y) l ys.
Proof.
  revert ys; induction l as [|x l IH]; cbn; intros ys; split; intros H.
  - injection H as <-. constructor.
  - inversion H; reflexivity.
  - apply bind_Ok in H as (y&Hy&H). apply bind_Ok in H as (ys'&Hys&[= <-]).
    constructor; [auto|]. now apply IH.
  - inversion H as [|? y ? ys' Hy Hr]; subst. rewrite Hy. cbn.
    apply IH in Hr. rewrite Hr. reflexivity.
Qed.

Lemma mapM_ok_map {A B} (f : A -> res B) (g : A -> B) l :
  (forall x, In x l -> f x = Ok (g x)) -> mapM f l = Ok (map g l).
Proof.
  induction l as [|x l IH]; cbn; intros H; [reflexivity|].
  rewrite H by (now left). cbn. rewrite IH; [reflexivity|]. intros; apply H; now right.
Qed.

Lemma NoDup_map_inj {A B} (f : A -> B) l :
  (forall x y, In x l -> In y l -> f x = f y -> x = y) -> NoDup l -> NoDup (map f l).
Proof.
  induction l as [|x l IH]; cbn; intros Hinj H; [constructor|].
  inversion H as [|? ? Hx Hl]; subst. constructor.
  - intros Hin. apply in_map_iff in Hin as (y&Hy&Hin). apply Hx.
    rewrite <- (Hinj y x); auto.
  - apply IH; auto.
Qed.

Lemma Forall2_len {A B} (R : A -> B -> Prop) l1 l2 : Forall2 R l1 l2 -> length l1 = length l2.
Proof. induction 1; cbn; congruence. Qed.
Lemma Forall2_nth {A B} (R : A -> B -> Prop) l1 l2 i x y :
  Forall2 R l1 l2 -> nth_error l1 i = Some x -> nth_error l2 i = Some y -> R x y.
Proof.
  intros H. revert i. induction H as [|a b l1 l2 Hab H IH]; intros [|i]; cbn; intros H1 H2; try discriminate.
  - congruence.
  - eauto.
Qed.
Lemma nth_error_seq a n i : i < n -> nth_error (seq a n) i = Some (a + i).
Proof. intros H. rewrite (nth_error_nth' _ 0) by now rewrite seq_length. now rewrite seq_nth. Qed.
Lemma In_firstn {A} (x : A) n l : In x (firstn n l) -> In x l.
Proof. intros H. rewrite <- (firstn_skipn n l). apply in_or_app. now left. Qed.
Lemma In_skipn {A} (x : A) n l : In x (skipn n l) -> In x l.
Proof. intros H. rewrite <- (firstn_skipn n l). apply in_or_app. now right. Qed.
Lemma In_pyslice {A} (x : A) l a b : In x (pyslice l a b) -> In x l.
Proof. intros H. apply In_firstn, In_skipn in H. exact H. Qed.
Lemma Permutation_eq {A} (l1 l2 : list A) : l1 = l2 -> Permutation l1 l2.
Proof. intros ->. reflexivity. Qed.
Lemma Forall2_impl' {A B} (R S : A -> B -> Prop) l1 l2 :
  (forall a b, R a b -> S a b) -> Forall2 R l1 l2 -> Forall2 S l1 l2.
Proof. intros H. induction 1; constructor; auto. Qed.
Lemma Permutation_concat' {A} (l1 l2 : list (list A)) : Permutation l1 l2 -> Permutation (concat l1) (concat l2).
Proof.
  induction 1 as [|x l l' H IH|x y l|l l' l'' H IH H' IH']; cbn; [reflexivity|now apply Permutation_app_head| |etransitivity; eauto].
  rewrite !app_assoc. apply Permutation_app_tail, Permutation_app_comm.
Qed.

Lemma nth_error_firstn' {A} (l : list A) n i : nth_error (firstn n l) i = if i <? n then nth_error l i else None.
Proof.
  revert l i. induction n as [|n IH]; intros l i; [destruct i; reflexivity|].
  destruct l as [|x l].
  - cbn [firstn]. destruct (i <? S n); destruct i; reflexivity.
  - destruct i as [|i]; [reflexivity|]. exact (IH l i).
Qed.
Lemma nth_error_skipn' {A} (l : list A) n i : nth_error (skipn n l) i = nth_error l (n + i).
Proof. revert l. induction n as [|n IH]; intros l; [reflexivity|]. destruct l as [|x l]; [destruct i; reflexivity|]. cbn. apply IH. Qed.
Lemma filter_all {A} (f : A -> bool) l : (forall x, In x l -> f x = true) -> filter f l = l.
Proof. induction l as [|x l IH]; intros H; cbn; [reflexivity|]. rewrite (H x (or_introl eq_refl)), IH; [reflexivity|]. intros; apply H; now right. Qed.
Lemma nth_error_ext {A} (l l' : list A) : (forall i, nth_error l i = nth_error l' i) -> l = l'.
Proof.
  revert l'. induction l as [|x l IH]; intros [|y l'] H; [reflexivity|discriminate (H 0)|discriminate (H 0)|].
  pose proof (H 0) as H0. injection H0 as ->. f_equal. apply IH. intros i. exact (H (S i)).
Qed.
Lemma NoDup_app_l {A} (l l' : list A) : NoDup (l ++ l') -> NoDup l.
Proof. induction l as [|x l IH]; cbn; intros H; [constructor|]. inversion H; subst. constructor; [|now apply IH]. intros Hx. apply H2, in_or_app. now left. Qed.
Lemma NoDup_app_r {A} (l l' : list A) : NoDup (l ++ l') -> NoDup l'.
Proof. induction l as [|x l IH]; cbn; intros H; [exact H|]. inversion H; subst. now apply IH. Qed.
Lemma NoDup_disj {A} (l l' : list A) : NoDup (l ++ l') -> forall x, In x l -> In x l' -> False.
Proof.
  induction l as [|y l IH]; cbn; intros H x Hx Hx'; [contradiction|]. inversion H; subst. destruct Hx as [->|Hx]; [|now apply (IH H3 x)].
  apply H2, in_or_app. now right.
Qed.
Lemma NoDup_app_remove_middle {A} (l l' : list A) x : NoDup (l ++ x :: l') -> NoDup (l ++ l').
Proof. apply NoDup_remove_1. Qed.
Lemma NoDup_app_intro2 {A} (l l' : list A) : NoDup l -> NoDup l' -> (forall x, In x l -> In x l' -> False) -> NoDup (l ++ l').
Proof.
  intros H. induction H as [|x l Hx H IH]; intros H' Hd; cbn; [exact H'|]. constructor.
  - rewrite in_app_iff. intros [Hi|Hi]; [now apply Hx|]. apply (Hd x); [now left|exact Hi].
  - apply IH; [exact H'|]. intros y Hy. apply Hd. now right.
Qed.
