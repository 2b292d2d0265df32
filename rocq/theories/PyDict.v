(** Python dictionaries: an association list in insertion order, without duplicate keys. *)
From Coq Require Import String.
From Verif Require Import Base.

(** Keys are compared with python [==]; we only use key types where that is decidable equality. *)
Class EqB (K : Type) := { keqb : K -> K -> bool; keqb_eq : forall a b, keqb a b = true <-> a = b }.

#[global] Program Instance EqB_string : EqB string := {| keqb := String.eqb |}.
Next Obligation. apply String.eqb_eq. Qed.
#[global] Program Instance EqB_nat : EqB nat := {| keqb := Nat.eqb |}.
Next Obligation. apply Nat.eqb_eq. Qed.
#[global] Program Instance EqB_Z : EqB Z := {| keqb := Z.eqb |}.
Next Obligation. apply Z.eqb_eq. Qed.

Section Dict.
  Context {K V : Type} {E : EqB K}.
  Definition dict := list (K * V).

  (** python [d.get(k)], with [None] for a missing key *)
  Fixpoint dget (d : dict) (k : K) : option V :=
    match d with
    | [] => None
    | (k', v) :: d' => if keqb k' k then Some v else dget d' k
    end.

  (** python [d[k] = v]: an existing key keeps its position, a new one goes to the end *)
  Fixpoint dset (d : dict) (k : K) (v : V) : dict :=
    match d with
    | [] => [(k, v)]
    | (k', v') :: d' => if keqb k' k then (k', v) :: d' else (k', v') :: dset d' k v
    end.

  (** python [d.pop(k, None)] *)
  Fixpoint ddel (d : dict) (k : K) : dict :=
    match d with
    | [] => []
    | (k', v') :: d' => if keqb k' k then d' else (k', v') :: ddel d' k
    end.

  Definition dhas (d : dict) (k : K) : bool := match dget d k with Some _ => true | None => false end.
  Definition dkeys (d : dict) : list K := map fst d.
  Definition dvals (d : dict) : list V := map snd d.
  (** a real python dict has no duplicate keys *)
  Definition dict_ok (d : dict) : Prop := NoDup (dkeys d).

  Lemma keqb_refl k : keqb k k = true.
  Proof. now apply keqb_eq. Qed.
  Lemma keqb_neq a b : keqb a b = false <-> a <> b.
  Proof. rewrite <- keqb_eq. destruct (keqb a b); split; congruence. Qed.
  Lemma keqb_sym a b : keqb a b = keqb b a.
  Proof. destruct (keqb a b) eqn:H1, (keqb b a) eqn:H2; auto.
    - apply keqb_eq in H1. subst. now rewrite keqb_refl in H2.
    - apply keqb_eq in H2. subst. now rewrite keqb_refl in H1. Qed.
  Lemma key_dec (a b : K) : {a = b} + {a <> b}.
  Proof. destruct (keqb a b) eqn:H; [left; now apply keqb_eq|right; now apply keqb_neq]. Defined.

  Lemma dget_dset d k v k' : dget (dset d k v) k' = if keqb k k' then Some v else dget d k'.
  Proof.
    induction d as [|(a, w) d IH]; cbn; [reflexivity|].
    destruct (keqb a k) eqn:Hak; cbn.
    - apply keqb_eq in Hak. subst a. destruct (keqb k k'); auto.
    - destruct (keqb a k') eqn:Hak'; auto.
      apply keqb_eq in Hak'. subst a. rewrite keqb_sym in Hak. now rewrite Hak.
  Qed.
  Lemma dget_dset_eq d k v : dget (dset d k v) k = Some v.
  Proof. now rewrite dget_dset, keqb_refl. Qed.
  Lemma dget_dset_neq d k v k' : k <> k' -> dget (dset d k v) k' = dget d k'.
  Proof. intros H. apply keqb_neq in H. now rewrite dget_dset, H. Qed.

  Lemma dget_In d k v : dget d k = Some v -> In (k, v) d.
  Proof. induction d as [|(a, w) d IH]; cbn; [discriminate|].
    destruct (keqb a k) eqn:H; [|auto]. apply keqb_eq in H. intros [= ->]. subst. now left. Qed.
  Lemma dget_keys d k : dget d k <> None <-> In k (dkeys d).
  Proof.
    induction d as [|(a, w) d IH]; cbn; [tauto|].
    destruct (keqb a k) eqn:H.
    - apply keqb_eq in H. subst. split; [now left|discriminate].
    - apply keqb_neq in H. rewrite IH. tauto.
  Qed.
  Lemma dget_None d k : dget d k = None <-> ~ In k (dkeys d).
  Proof. rewrite <- dget_keys. destruct (dget d k); split; intros H.
    - discriminate. - exfalso; apply H; discriminate. - auto. - auto. Qed.
  Lemma dhas_keys d k : dhas d k = true <-> In k (dkeys d).
  Proof. unfold dhas. rewrite <- dget_keys. destruct (dget d k); split; congruence. Qed.
  Lemma In_dget d k v : dict_ok d -> In (k, v) d -> dget d k = Some v.
  Proof.
    unfold dict_ok. induction d as [|(a, w) d IH]; cbn; intros Hn; [tauto|].
    inversion Hn as [|? ? Ha Hd]; subst. intros [[= -> ->]|Hin]; [now rewrite keqb_refl|].
    destruct (keqb a k) eqn:H; [|auto]. apply keqb_eq in H. subst. exfalso. apply Ha.
    change k with (fst (k, v)). now apply in_map.
  Qed.

  Lemma dkeys_dset d k v : dkeys (dset d k v) = if dhas d k then dkeys d else dkeys d ++ [k].
  Proof.
    induction d as [|(a, w) d IH]; [reflexivity|]. unfold dhas in *. cbn.
    destruct (keqb a k) eqn:H; cbn; [reflexivity|]. unfold dkeys in *. rewrite IH. now destruct (dget d k).
  Qed.
  Lemma dict_ok_dset d k v : dict_ok d -> dict_ok (dset d k v).
  Proof.
    unfold dict_ok. rewrite dkeys_dset. intros H. destruct (dhas d k) eqn:Hk; [auto|].
    apply Permutation_NoDup with (l := k :: dkeys d); [apply Permutation_cons_append|].
    constructor; auto. rewrite <- dhas_keys. congruence.
  Qed.

  Lemma dget_ddel d k k' : dict_ok d -> dget (ddel d k) k' = if keqb k k' then None else dget d k'.
  Proof.
    unfold dict_ok. induction d as [|(a, w) d IH]; cbn; intros Hn.
    - now destruct (keqb k k').
    - inversion Hn as [|? ? Ha Hd]; subst. destruct (keqb a k) eqn:H.
      + apply keqb_eq in H. subst a. destruct (keqb k k') eqn:H'; auto. apply keqb_eq in H'. subst. now apply dget_None.
      + cbn. destruct (keqb a k') eqn:H'.
        * apply keqb_eq in H'. subst. rewrite keqb_sym in H. now rewrite H.
        * auto.
  Qed.
  Lemma In_ddel d k x : In x (ddel d k) -> In x d.
  Proof. induction d as [|(a, w) d IH]; cbn; [tauto|]. destruct (keqb a k); cbn; tauto. Qed.
  Lemma dict_ok_ddel d k : dict_ok d -> dict_ok (ddel d k).
  Proof.
    unfold dict_ok. induction d as [|(a, w) d IH]; cbn; intros Hn; auto.
    inversion Hn as [|? ? Ha Hd]; subst. destruct (keqb a k); auto. cbn. constructor; auto.
    intros Hin. apply Ha. unfold dkeys in *. apply in_map_iff in Hin as (y&<-&Hin). apply in_map. eapply In_ddel; eauto.
  Qed.
  Lemma dkeys_ddel_len d k : In k (dkeys d) -> S (length (ddel d k)) = length d.
  Proof.
    induction d as [|(a, w) d IH]; cbn; [tauto|]. intros H. destruct (keqb a k) eqn:Ha; cbn; [reflexivity|].
    f_equal. apply IH. destruct H as [->|H]; auto. now rewrite keqb_refl in Ha.
  Qed.
  Lemma dset_length d k v : length (dset d k v) = if dhas d k then length d else S (length d).
  Proof.
    assert (H := f_equal (@length K) (dkeys_dset d k v)). unfold dkeys in H. rewrite map_length in H. rewrite H.
    destruct (dhas d k); [|rewrite app_length]; rewrite map_length; cbn; lia.
  Qed.
End Dict.
Arguments dict K V : clear implicits.
