From Coq Require Import List ZArith Lia Bool.
From Verif Require Import Base ListLemmas ArchiveModel ArchiveSpec.
Import ListNotations.
Local Open Scope Z_scope.

(* ---- bytes ---- *)

Lemma name_eqb_eq a b : name_eqb a b = true <-> a = b.
Proof.
  revert b. induction a as [|x a IH]; intros [|y b]; cbn [name_eqb]; try (split; [discriminate|discriminate]).
  - split; reflexivity.
  - rewrite andb_true_iff, Z.eqb_eq, IH. split; [intros [-> ->]; reflexivity | intros H; injection H; auto].
Qed.

Lemma name_eqb_refl a : name_eqb a a = true.
Proof. apply name_eqb_eq. reflexivity. Qed.

Lemma name_eqb_neq a b : name_eqb a b = false <-> a <> b.
Proof.
  rewrite <- name_eqb_eq. destruct (name_eqb a b); split; intros; try discriminate; try reflexivity.
  exfalso; auto.
Qed.

Lemma bytes_dec (a b : bytes) : a = b \/ a <> b.
Proof. destruct (name_eqb a b) eqn:E; [left; apply name_eqb_eq | right; apply name_eqb_neq]; auto. Qed.

Lemma le_bytes_len n z : length (le_bytes n z) = n.
Proof. revert z. induction n as [|n IH]; intros z; cbn [le_bytes length]; [|rewrite IH]; reflexivity. Qed.

Lemma pow8 n : 2 ^ (8 * Z.of_nat (S n)) = 256 * 2 ^ (8 * Z.of_nat n).
Proof.
  replace (8 * Z.of_nat (S n)) with (8 + 8 * Z.of_nat n) by lia.
  rewrite Z.pow_add_r by lia. reflexivity.
Qed.

Lemma le_value_bytes n z : le_value (le_bytes n z) = z mod 2 ^ (8 * Z.of_nat n).
Proof.
  revert z. induction n as [|n IH]; intros z; cbn [le_bytes le_value].
  - change (2 ^ (8 * Z.of_nat 0)) with 1. rewrite Z.mod_1_r. reflexivity.
  - rewrite IH, pow8.
    rewrite (Z.rem_mul_r z 256 (2 ^ (8 * Z.of_nat n))).
    + reflexivity.
    + lia.
    + apply Z.pow_pos_nonneg; lia.
Qed.

Lemma read_n_app n b f : length b = n -> read_n n (b ++ f) = Ok (b, f).
Proof.
  intros H. unfold read_n. rewrite app_length, H.
  replace (Nat.ltb (n + length f) n) with false by (symmetry; apply Nat.ltb_ge; lia).
  subst n. rewrite firstn_app, skipn_app, Nat.sub_diag, firstn_all, skipn_all. cbn [firstn skipn app].
  rewrite app_nil_r. reflexivity.
Qed.

Lemma pack_unsigned_ok n z b :
  pack_unsigned n z = Ok b -> length b = n /\ forall f, read_unsigned n (b ++ f) = Ok (z, f).
Proof.
  unfold pack_unsigned. destruct (_ && _) eqn:E; [|discriminate].
  apply andb_true_iff in E as [E1 E2]. apply Z.leb_le in E1. apply Z.ltb_lt in E2.
  intros H. apply Ok_inj in H. subst b. split; [apply le_bytes_len|]. intros f.
  unfold read_unsigned. rewrite read_n_app by apply le_bytes_len. cbn [bind].
  rewrite le_value_bytes, Z.mod_small by lia. reflexivity.
Qed.

Lemma pow_half n : (0 < n)%nat -> 2 ^ (8 * Z.of_nat n) = 2 * 2 ^ (8 * Z.of_nat n - 1).
Proof.
  intros H. replace (8 * Z.of_nat n) with (1 + (8 * Z.of_nat n - 1)) at 1 by lia.
  rewrite Z.pow_add_r by lia. reflexivity.
Qed.

Lemma pack_signed_ok n z b :
  (0 < n)%nat -> pack_signed n z = Ok b ->
  length b = n /\ forall f, read_signed n (b ++ f) = Ok (z, f).
Proof.
  intros Hn. unfold pack_signed. destruct (_ && _) eqn:E; [|discriminate].
  apply andb_true_iff in E as [E1 E2]. apply Z.leb_le in E1. apply Z.ltb_lt in E2.
  intros H. apply Ok_inj in H. subst b. split; [apply le_bytes_len|]. intros f.
  unfold read_signed. rewrite read_n_app by apply le_bytes_len. cbn [bind].
  rewrite le_value_bytes. pose proof (pow_half n Hn) as P. set (h := 2 ^ (8 * Z.of_nat n - 1)) in *.
  rewrite P. destruct (Z_le_gt_dec 0 z) as [Hz|Hz].
  - rewrite Z.mod_small by lia. destruct (Z.ltb_spec z h); [reflexivity|lia].
  - replace (z mod (2 * h)) with (z + 2 * h).
    + destruct (Z.ltb_spec (z + 2 * h) h); [lia|]. f_equal. f_equal. lia.
    + rewrite <- (Z.mod_small (z + 2 * h) (2 * h)) by lia.
      replace (z + 2 * h) with (z + 1 * (2 * h)) at 1 by lia. rewrite Z.mod_add by lia. reflexivity.
Qed.

(* a number written as signed and not negative is the same read as unsigned *)
Lemma pack_signed_unsigned n z b :
  (0 < n)%nat -> 0 <= z -> pack_signed n z = Ok b -> pack_unsigned n z = Ok b.
Proof.
  intros Hn Hz. unfold pack_signed, pack_unsigned. pose proof (pow_half n Hn) as P.
  set (h := 2 ^ (8 * Z.of_nat n - 1)) in *. rewrite P.
  destruct (_ && _) eqn:E; [|discriminate].
  apply andb_true_iff in E as [E1 E2]. apply Z.leb_le in E1. apply Z.ltb_lt in E2.
  replace (0 <=? z) with true by (symmetry; apply Z.leb_le; lia).
  replace (z <? 2 * h) with true by (symmetry; apply Z.ltb_lt; lia). auto.
Qed.

Lemma u32_U32 z b : 0 <= z -> write_u32 z = Ok b -> length b = 4%nat /\ forall f, read_U32 (b ++ f) = Ok (z, f).
Proof. intros H E. apply pack_unsigned_ok. apply pack_signed_unsigned; auto; lia. Qed.

Lemma u32_u32 z b : write_u32 z = Ok b -> length b = 4%nat /\ forall f, read_u32 (b ++ f) = Ok (z, f).
Proof. intros E. apply pack_signed_ok; auto; lia. Qed.

Lemma u64_u64 z b : write_u64 z = Ok b -> length b = 8%nat /\ forall f, read_u64 (b ++ f) = Ok (z, f).
Proof. intros E. apply pack_signed_ok; auto; lia. Qed.

Lemma read_str_app b f : read_str (zlen b) (b ++ f) = Ok (b, f).
Proof.
  unfold read_str, zlen. destruct (Z.ltb_spec (Z.of_nat (length b)) 0); [lia|].
  rewrite Nat2Z.id. apply read_n_app. reflexivity.
Qed.

Lemma zlen_app {A} (a b : list A) : zlen (a ++ b) = zlen a + zlen b.
Proof. unfold zlen. rewrite app_length. lia. Qed.

Lemma seek_app a b : seek (a ++ b) (zlen a) = Ok b.
Proof.
  unfold seek, zlen. destruct (Z.ltb_spec (Z.of_nat (length a)) 0); [lia|].
  rewrite Nat2Z.id, skipn_app, skipn_all, Nat.sub_diag. reflexivity.
Qed.

(* ---- the dict ---- *)

Lemma lookup_update {A} n m (v : A) t :
  lookup n (update m v t) = if name_eqb n m then Some v else lookup n t.
Proof.
  induction t as [|[k w] t IH]; cbn [update lookup].
  - reflexivity.
  - destruct (name_eqb m k) eqn:E; cbn [lookup].
    + apply name_eqb_eq in E. subst k. destruct (name_eqb n m); reflexivity.
    + rewrite IH. destruct (name_eqb n k) eqn:E2; [|reflexivity].
      apply name_eqb_eq in E2. subst k.
      destruct (name_eqb n m) eqn:E3; [|reflexivity].
      apply name_eqb_eq in E3. subst. rewrite name_eqb_refl in E. discriminate.
Qed.

Lemma lookup_In {A} n (t : list (bytes * A)) : In n (map fst t) <-> exists v, lookup n t = Some v.
Proof.
  induction t as [|[k w] t IH]; cbn [map fst lookup In].
  - split; [intros [] | intros [v H]; discriminate].
  - destruct (name_eqb n k) eqn:E.
    + apply name_eqb_eq in E. subst. split; [intros _; exists w; reflexivity | auto].
    + apply name_eqb_neq in E. rewrite <- IH. split; [intros [H|H]; [congruence|auto] | auto].
Qed.

Lemma lookup_None {A} n (t : list (bytes * A)) : lookup n t = None <-> ~ In n (map fst t).
Proof.
  rewrite lookup_In. destruct (lookup n t) as [v|].
  - split; [discriminate | intros H; exfalso; apply H; exists v; reflexivity].
  - split; [intros _ [v H]; discriminate | reflexivity].
Qed.

Lemma lookup_pair {A} n (v : A) t : NoDup (map fst t) -> (lookup n t = Some v <-> In (n, v) t).
Proof.
  induction t as [|[k w] t IH]; cbn [map fst lookup]; intros H.
  - split; [discriminate | intros []].
  - inversion H as [|? ? Hk Ht]; subst. destruct (name_eqb n k) eqn:E.
    + apply name_eqb_eq in E. subst k. split.
      * intros E. injection E as ->. left. reflexivity.
      * intros [E|E]; [injection E as ->; reflexivity|].
        exfalso. apply Hk. apply in_map_iff. exists (n, v). auto.
    + apply name_eqb_neq in E. rewrite IH by assumption. split; [right; auto|].
      intros [E2|E2]; [injection E2; congruence | auto].
Qed.

Lemma update_keys {A} n (v : A) t :
  map fst (update n v t) = if is_some (lookup n t) then map fst t else map fst t ++ [n].
Proof.
  induction t as [|[k w] t IH]; cbn [update lookup map fst].
  - reflexivity.
  - destruct (name_eqb n k) eqn:E; cbn [map fst is_some]; [reflexivity|].
    rewrite IH. destruct (is_some (lookup n t)); reflexivity.
Qed.

Lemma update_new {A} n (v : A) t : lookup n t = None -> update n v t = t ++ [(n, v)].
Proof.
  induction t as [|[k w] t IH]; cbn [update lookup]; intros H; [reflexivity|].
  destruct (name_eqb n k); [discriminate|]. rewrite IH by assumption. reflexivity.
Qed.

Lemma update_In {A} n (v : A) t x : In x (update n v t) -> x = (n, v) \/ In x t.
Proof.
  induction t as [|[k w] t IH]; cbn [update].
  - intros [<-|[]]. auto.
  - destruct (name_eqb n k) eqn:E; cbn [In].
    + apply name_eqb_eq in E. subst k. intros [<-|H]; auto.
    + intros [<-|H]; auto. destruct (IH H); auto.
Qed.

Lemma update_NoDup {A} n (v : A) t : NoDup (map fst t) -> NoDup (map fst (update n v t)).
Proof.
  intros H. rewrite update_keys. destruct (lookup n t) as [w|] eqn:E; cbn [is_some]; [exact H|].
  apply lookup_None in E. apply NoDup_app_intro2; auto.
  - repeat constructor. intros [].
  - intros x Hx [<-|[]]. auto.
Qed.

Lemma first_occurrences_nil : first_occurrences [] [].
Proof.
  split; [constructor|]. split; [tauto|]. intros a b [].
Qed.

Lemma first_occurrences_snoc {A} l (t : list (bytes * A)) n v :
  first_occurrences l (map fst t) -> first_occurrences (l ++ [n]) (map fst (update n v t)).
Proof.
  intros (Hd & Hi & Ho). split; [apply update_NoDup; exact Hd|].
  assert (Hmem : forall m, In m (map fst (update n v t)) <-> In m (l ++ [n])).
  { intros m. rewrite lookup_In. rewrite lookup_update. rewrite in_app_iff. cbn [In].
    destruct (name_eqb m n) eqn:E.
    - apply name_eqb_eq in E. subst. split; eauto.
    - apply name_eqb_neq in E. rewrite <- lookup_In, Hi. split; [auto|]. intros [H|[H|[]]]; [auto|congruence]. }
  split; [exact Hmem|].
  intros a b Ha Hb (r1 & r2 & r3 & E). rewrite update_keys in E, Ha, Hb.
  destruct (lookup n t) as [w|] eqn:L; cbn [is_some] in E, Ha, Hb.
  - destruct (Ho a b Ha Hb (ex_intro _ r1 (ex_intro _ r2 (ex_intro _ r3 E)))) as (l1 & l2 & El & H1 & H2).
    exists l1, (l2 ++ [n]). rewrite El, <- app_assoc. auto.
  - apply lookup_None in L.
    destruct (bytes_dec b n) as [Hbn|Hbn].
    + subst b.
      assert (Ha' : In a (map fst t)).
      { destruct r3 as [|x r3 _] using rev_ind.
        - replace (r1 ++ a :: r2 ++ [n]) with ((r1 ++ a :: r2) ++ [n]) in E
            by (rewrite <- app_assoc; reflexivity).
          apply app_inj_tail in E as [E _]. rewrite E. apply in_elt.
        - exfalso. apply L.
          replace (r1 ++ a :: r2 ++ n :: r3 ++ [x]) with ((r1 ++ a :: r2 ++ n :: r3) ++ [x]) in E
            by (rewrite <- !app_assoc; cbn [app]; rewrite <- !app_assoc; reflexivity).
          apply app_inj_tail in E as [E _]. rewrite E. apply in_or_app. right. right. apply in_elt. }
      apply Hi in Ha' as Hal.
      assert (X : exists l1 l2, l = l1 ++ a :: l2 /\ ~ In a l1).
      { clear -Hal. induction l as [|x l IH]; [destruct Hal|].
        destruct (bytes_dec x a) as [->|Hx].
        - exists [], l. split; [reflexivity|intros []].
        - destruct Hal as [->|Hal]; [congruence|]. destruct (IH Hal) as (l1 & l2 & -> & H).
          exists (x :: l1), l2. split; [reflexivity|]. intros [H2|H2]; auto. }
      destruct X as (l1 & l2 & El & H1). exists l1, (l2 ++ [n]). rewrite El, <- app_assoc.
      repeat split; auto. intros H. apply L. apply Hi. rewrite El. apply in_or_app. auto.
    + assert (Hb' : In b (map fst t)).
      { apply in_app_or in Hb as [Hb|[Hb|[]]]; [auto|congruence]. }
      assert (X : exists r3', r3 = r3' ++ [n] /\ map fst t = r1 ++ a :: r2 ++ b :: r3').
      { destruct r3 as [|x r3 _] using rev_ind.
        - exfalso. replace (r1 ++ a :: r2 ++ [b]) with ((r1 ++ a :: r2) ++ [b]) in E
            by (rewrite <- app_assoc; reflexivity).
          apply app_inj_tail in E as [_ E]. congruence.
        - replace (r1 ++ a :: r2 ++ b :: r3 ++ [x]) with ((r1 ++ a :: r2 ++ b :: r3) ++ [x]) in E
            by (rewrite <- !app_assoc; cbn [app]; rewrite <- !app_assoc; reflexivity).
          apply app_inj_tail in E as [E E2]. subst x. exists r3. auto. }
      destruct X as (r3' & _ & Et).
      assert (Ha' : In a (map fst t)) by (rewrite Et; apply in_elt).
      destruct (Ho a b Ha' Hb' (ex_intro _ r1 (ex_intro _ r2 (ex_intro _ r3' Et)))) as (l1 & l2 & El & H1 & H2).
      exists l1, (l2 ++ [n]). rewrite El, <- app_assoc. auto.
Qed.

(* ---- what the writer leaves in the file ---- *)

(* the bytes of one entry in the archive hold a content *)
Definition holds (c : content) (size : Z) (b : bytes) : Prop :=
  0 <= size < 2 ^ 31 /\ (size = 0 -> c = Str []) /\
  exists x y z p, write_u32 size = Ok x /\ write_u32 0 = Ok y /\ write_u32 0 = Ok z /\ b = x ++ y ++ z ++ p /\
    forall na rest, raw_read na size (type_of c) (p ++ rest) = Ok c.

Definition inv (w : writer) (log : list (bytes * content)) : Prop :=
  first_occurrences (map fst log) (map fst (w_ft w)) /\
  Forall (fun p => fi_name (snd p) = fst p /\ fi_comp (snd p) = 0) (w_ft w) /\
  forall n c, latest n c log ->
    exists fi pre b post, lookup n (w_ft w) = Some fi /\ w_out w = pre ++ b ++ post /\ fi_pos fi = zlen pre /\
      holds c (fi_size fi) b.

Lemma latest_snoc n c log m d :
  latest n c (log ++ [(m, d)]) -> (n = m /\ c = d) \/ (n <> m /\ latest n c log).
Proof.
  intros (l1 & l2 & E & H). destruct l2 as [|x l2 _] using rev_ind.
  - apply app_inj_tail in E as [_ E]. injection E as -> ->. auto.
  - right. replace (l1 ++ (n, c) :: l2 ++ [x]) with ((l1 ++ (n, c) :: l2) ++ [x]) in E
      by (rewrite <- app_assoc; reflexivity).
    apply app_inj_tail in E as [E <-]. rewrite map_app, in_app_iff in H. cbn [map fst In] in H.
    split; [intros ->; apply H; auto|]. exists l1, l2. auto.
Qed.

Lemma inv_put w log n c pre b post fi :
  inv w log -> fi_pos fi = zlen (w_out w ++ pre) -> fi_name fi = n -> fi_comp fi = 0 -> holds c (fi_size fi) b ->
  inv {| w_out := w_out w ++ pre ++ b ++ post; w_ft := update n fi (w_ft w) |} (log ++ [(n, c)]).
Proof.
  intros (H1 & H2 & H3) Hp Hn Hc Hh. split; [|split]; cbn [w_out w_ft].
  - rewrite map_app. cbn [map fst]. apply first_occurrences_snoc. exact H1.
  - apply Forall_forall. intros x Hx. apply update_In in Hx as [->|Hx]; [cbn [fst snd]; auto|].
    rewrite Forall_forall in H2. auto.
  - intros m d L. apply latest_snoc in L as [[-> ->]|[Hne L]].
    + exists fi, (w_out w ++ pre), b, post. rewrite lookup_update, name_eqb_refl.
      rewrite <- app_assoc. auto.
    + destruct (H3 m d L) as (fi' & pre' & b' & post' & L1 & L2 & L3 & L4).
      exists fi', pre', b', (post' ++ pre ++ b ++ post).
      rewrite lookup_update. apply name_eqb_neq in Hne. rewrite Hne.
      rewrite L2, <- !app_assoc. auto.
Qed.

Lemma seq_writes_cons b l r :
  seq_writes (b :: l) = Ok r -> exists x y, b = Ok x /\ seq_writes l = Ok y /\ r = x ++ y.
Proof.
  cbn [seq_writes]. intros H. apply bind_Ok in H as (x & Hx & H). apply bind_Ok in H as (y & Hy & H).
  apply Ok_inj in H. eauto 6.
Qed.

Lemma seq_writes_nil r : seq_writes [] = Ok r -> r = [].
Proof. cbn [seq_writes]. intros H. apply Ok_inj in H. auto. Qed.

Lemma write_u32_range z b : write_u32 z = Ok b -> - 2 ^ 31 <= z < 2 ^ 31.
Proof.
  unfold write_u32, pack_signed. destruct (_ && _) eqn:E; [|discriminate]. intros _.
  apply andb_true_iff in E as [E1 E2]. apply Z.leb_le in E1. apply Z.ltb_lt in E2.
  change (8 * Z.of_nat 4 - 1) with 31 in *. lia.
Qed.

Lemma add_attributes_inv w log n data w' :
  inv w log -> add_attributes w n data = Ok w' ->
  inv w' (log ++ [(attribs_name n, Str data)]) /\
  exists o, w_out w' = o ++ le_bytes 4 end_recovery_tag.
Proof.
  intros Hi. unfold add_attributes. cbv zeta.
  change (n ++ dot_attribs) with (attribs_name n). intros H.
  apply bind_Ok in H as (a & Ha & H). apply bind_Ok in H as (b & Hb & H). apply bind_Ok in H as (c & Hc & H).
  apply Ok_inj in H. subst w'.
  apply seq_writes_cons in Hc as (x & y & Hx & Hc & ->).
  apply seq_writes_cons in Hc as (x0 & y0 & Hx0 & Hc & ->).
  apply seq_writes_cons in Hc as (x1 & y1 & Hx1 & Hc & ->).
  apply seq_writes_cons in Hc as (x2 & y2 & Hx2 & Hc & ->).
  apply seq_writes_cons in Hc as (x3 & y3 & Hx3 & Hc & ->).
  apply seq_writes_nil in Hc. subst y3. apply Ok_inj in Hx2. subst x2.
  assert (Hx3' : x3 = le_bytes 4 end_recovery_tag).
  { vm_compute in Hx3. apply Ok_inj in Hx3. subst x3. reflexivity. }
  split; [|cbn [w_out put]; exists ((w_out w ++ a ++ b ++ attribs_name n) ++ x ++ x0 ++ x1 ++ data);
           rewrite app_nil_r, Hx3', <- !app_assoc; reflexivity].
  cbn [w_out w_ft put].
  replace ((w_out w ++ a ++ b ++ attribs_name n) ++ x ++ x0 ++ x1 ++ data ++ x3 ++ [])
    with (w_out w ++ (a ++ b ++ attribs_name n) ++ (x ++ x0 ++ x1 ++ data) ++ x3)
    by (rewrite <- !app_assoc, app_nil_r; reflexivity).
  apply inv_put; auto; cbn [fi_pos fi_size].
  pose proof (write_u32_range _ _ Hx) as R.
  split; [unfold zlen in *; lia|].
  split; [destruct data; [reflexivity|unfold zlen; cbn [length]; lia]|].
  exists x, x0, x1, data. repeat split; auto.
  intros na rest. cbn [type_of raw_read]. rewrite read_str_app. reflexivity.
Qed.

Lemma read_v_app b (l : list Z) x rest :
  seq_writes (map (pack_unsigned b) l) = Ok x -> read_v b (length l) (x ++ rest) = (l, rest).
Proof.
  revert x. induction l as [|z l IH]; cbn [map]; intros x H.
  - apply seq_writes_nil in H. subst. reflexivity.
  - apply seq_writes_cons in H as (u & v & Hu & Hv & ->). cbn [length read_v].
    apply pack_unsigned_ok in Hu as [_ Hu]. rewrite <- app_assoc, Hu, (IH v Hv). reflexivity.
Qed.

Lemma read_rows_app fs ts e rest :
  length fs = length ts ->
  seq_writes (map (fun p => write_row (fst p) (snd p)) (combine fs ts)) = Ok e ->
  read_rows (length fs) (e ++ rest) = Ok (map (fun t => [fst t; snd t]) ts, fs).
Proof.
  revert ts e. induction fs as [|f fs IH]; intros [|t ts] e Hl H; cbn [length] in Hl; try discriminate.
  - reflexivity.
  - cbn [combine map fst snd] in H. apply seq_writes_cons in H as (u & v & Hu & Hv & ->).
    cbn [length read_rows]. unfold write_row in Hu.
    apply bind_Ok in Hu as (x & Hx & Hu). apply bind_Ok in Hu as (xs & Hxs & Hu).
    apply bind_Ok in Hu as (y & Hy & Hu). apply bind_Ok in Hu as (z & Hz & Hu).
    apply Ok_inj in Hu. subst u.
    assert (0 <= zlen f) by (unfold zlen; lia).
    destruct (u32_U32 _ _ H Hx) as [_ E]. rewrite <- !app_assoc, E. cbn [bind].
    unfold zlen. rewrite Nat2Z.id. rewrite (read_v_app 4 f xs _ Hxs).
    assert (Hyz : seq_writes (map (pack_unsigned 8) [fst t; snd t]) = Ok (y ++ z)).
    { cbn [map seq_writes]. unfold write_f64 in Hy, Hz. rewrite Hy, Hz. cbn [bind]. rewrite app_nil_r. reflexivity. }
    change 2%nat with (length [fst t; snd t]). rewrite (app_assoc y z), (read_v_app 8 _ _ _ Hyz).
    rewrite (IH ts v); [reflexivity|lia|exact Hv].
Qed.

Lemma last_rev {A} (l : list A) d t r : rev l = t :: r -> last l d = t.
Proof.
  intros H. rewrite <- (rev_involutive l), H. cbn [rev]. apply last_last.
Qed.

Lemma add_feature_inv attr one w log e w' :
  inv w log -> add_feature_cache attr one w (e_name e) (e_features e) (e_times e) = Ok w' ->
  inv w' (log ++ files_of attr one e) /\ exists o, w_out w' = o ++ le_bytes 4 end_recovery_tag.
Proof.
  intros Hi. unfold add_feature_cache. cbv zeta. intros H.
  apply bind_Ok in H as (a & Ha & H). apply bind_Ok in H as (b & Hb & H).
  apply bind_Ok in H as ([[dim size] dur] & Hd & H). apply bind_Ok in H as (c & Hc & H).
  apply bind_Ok in H as ([] & Hl & H). apply bind_Ok in H as (d & Hdd & H).
  apply bind_Ok in H as (r & Hr & H). apply bind_Ok in H as (g & Hg & H).
  apply assert_Ok in Hl. apply Nat.eqb_eq in Hl.
  assert (Hdim : dim = entry_dim e /\ dur = entry_duration one e /\ 0 < size).
  { unfold entry_dim, entry_duration. destruct (e_features e) as [|f0 fs].
    - apply Ok_inj in Hd. apply pair_equal_spec in Hd as [Hd <-]. apply pair_equal_spec in Hd as [<- <-].
      repeat split; lia.
    - destruct (rev (e_times e)) as [|t tr] eqn:Er; [discriminate|].
      apply Ok_inj in Hd. apply pair_equal_spec in Hd as [Hd <-]. apply pair_equal_spec in Hd as [<- <-].
      rewrite (last_rev _ (0, 0) _ _ Er). repeat split. unfold zlen. nia. }
  destruct Hdim as (-> & -> & Hs).
  apply seq_writes_cons in Hc as (x & y & Hx & Hc & ->).
  apply seq_writes_cons in Hc as (x0 & y0 & Hx0 & Hc & ->).
  apply seq_writes_cons in Hc as (x1 & y1 & Hx1 & Hc & ->).
  apply seq_writes_cons in Hc as (x2 & y2 & Hx2 & Hc & ->).
  apply seq_writes_cons in Hc as (x3 & y3 & Hx3 & Hc & ->).
  apply seq_writes_nil in Hc. subst y3. apply Ok_inj in Hx3. subst x3.
  unfold files_of. change (log ++ ?a :: ?l) with (log ++ [a] ++ l). rewrite app_assoc.
  refine (add_attributes_inv _ _ _ _ _ _ H). clear H w'.
  cbn [w_out w_ft put].
  match goal with |- inv {| w_out := ?o; w_ft := _ |} _ =>
    replace o with (w_out w ++ (a ++ b ++ e_name e) ++ (x ++ x0 ++ x1 ++ x2 ++ vector_f32 ++ d ++ r) ++ g)
      by (rewrite <- !app_assoc, app_nil_l; reflexivity) end.
  apply inv_put; auto; cbn [fi_pos fi_size].
  pose proof (write_u32_range _ _ Hx) as R.
  split; [lia|]. split; [lia|].
  exists x, x0, x1, (x2 ++ vector_f32 ++ d ++ r). repeat split; auto.
  intros na rest. cbn [type_of raw_read].
  destruct (u32_U32 10 _ ltac:(lia) Hx2) as [_ E2]. rewrite <- !app_assoc, E2. cbn [bind].
  change 10 with (zlen vector_f32). rewrite read_str_app. cbn [bind].
  rewrite name_eqb_refl. cbn [assert_ bind].
  assert (Hz : 0 <= zlen (e_features e)) by (unfold zlen; lia).
  destruct (u32_U32 _ _ Hz Hdd) as [_ E3]. rewrite E3. cbn [bind].
  unfold zlen. rewrite Nat2Z.id. rewrite (read_rows_app _ _ _ _ Hl Hr). reflexivity.
Qed.

Lemma add_all_inv attr one es w log w' :
  inv w log -> add_all attr one w es = Ok w' ->
  inv w' (log ++ files attr one es) /\
  (es = [] /\ w' = w \/ exists o, w_out w' = o ++ le_bytes 4 end_recovery_tag).
Proof.
  revert w log. induction es as [|e es IH]; cbn [add_all]; intros w log Hi H.
  - apply Ok_inj in H. subst w'. unfold files. cbn [flat_map]. rewrite app_nil_r. auto.
  - apply bind_Ok in H as (w1 & H1 & H). apply (add_feature_inv _ _ _ _ _ _ Hi) in H1 as [H1 Ho].
    destruct (IH _ _ H1 H) as [H2 H3]. unfold files in *. cbn [flat_map]. rewrite app_assoc.
    split; [exact H2|]. right. destruct H3 as [[-> ->]|H3]; auto.
Qed.

Lemma inv_new w : new_archive = Ok w -> inv w [] /\ w = {| w_out := cache_header ++ [1]; w_ft := [] |}.
Proof.
  intros H. vm_compute in H. apply Ok_inj in H. subst w. split; [|reflexivity].
  split; [apply first_occurrences_nil|]. split; [constructor|].
  intros n c (l1 & l2 & E & _). destruct l1; discriminate.
Qed.

Lemma add_all_prefix attr one es w w' : add_all attr one w es = Ok w' -> exists r, w_out w' = w_out w ++ r.
Proof.
  revert w. induction es as [|e es IH]; cbn [add_all]; intros w H.
  - apply Ok_inj in H. subst. exists []. rewrite app_nil_r. reflexivity.
  - apply bind_Ok in H as (w1 & H1 & H). destruct (IH _ H) as [r Hr]. rewrite Hr.
    unfold add_feature_cache, add_attributes in H1. cbv zeta in H1.
    repeat match type of H1 with
    | bind _ _ = Ok _ =>
      let q := fresh in apply bind_Ok in H1 as (q & ? & H1); try (match type of q with (_ * _ * _)%type => destruct q as [[? ?] ?] end)
    end.
    apply Ok_inj in H1. subst w1. cbn [w_out put]. rewrite <- !app_assoc. eexists. reflexivity.
Qed.

(* ---- the table ---- *)

Lemma read_infos_app l ft e rest :
  Forall (fun p : bytes * finfo => fi_name (snd p) = fst p) l -> NoDup (map fst (ft ++ l)) ->
  seq_writes (map (fun p => write_info (snd p)) l) = Ok e ->
  read_infos (length l) ft (e ++ rest) = Ok (ft ++ l).
Proof.
  revert ft e. induction l as [|[n fi] l IH]; cbn [map]; intros ft e Hn Hd H.
  - cbn [length read_infos]. rewrite app_nil_r. reflexivity.
  - apply seq_writes_cons in H as (u & v & Hu & Hv & ->). cbn [snd] in Hu.
    inversion Hn as [|? ? Hn1 Hn2]; subst. cbn [fst snd] in Hn1. subst n.
    unfold write_info in Hu.
    apply seq_writes_cons in Hu as (x & y & Hx & Hu & ->).
    apply seq_writes_cons in Hu as (x0 & y0 & Hx0 & Hu & ->).
    apply seq_writes_cons in Hu as (x1 & y1 & Hx1 & Hu & ->).
    apply seq_writes_cons in Hu as (x2 & y2 & Hx2 & Hu & ->).
    apply seq_writes_cons in Hu as (x3 & y3 & Hx3 & Hu & ->).
    apply seq_writes_nil in Hu. subst y3. apply Ok_inj in Hx0. subst x0.
    cbn [length read_infos].
    rewrite <- !app_assoc.
    rewrite (proj2 (u32_u32 _ _ Hx)). cbn [bind]. rewrite read_str_app. cbn [bind].
    rewrite (proj2 (u64_u64 _ _ Hx1)). cbn [bind].
    rewrite (proj2 (u32_u32 _ _ Hx2)). cbn [bind].
    rewrite (proj2 (u32_u32 _ _ Hx3)). cbn [bind app].
    replace {| fi_name := fi_name fi; fi_pos := fi_pos fi; fi_size := fi_size fi; fi_comp := fi_comp fi |} with fi
      by (destruct fi; reflexivity).
    rewrite update_new.
    + rewrite (IH (ft ++ [(fi_name fi, fi)])).
      * rewrite <- app_assoc. reflexivity.
      * exact Hn2.
      * rewrite <- app_assoc. exact Hd.
      * exact Hv.
    + apply lookup_None. intros Hin. rewrite map_app in Hd. cbn [map fst] in Hd.
      eapply NoDup_disj; [exact Hd|exact Hin|left; reflexivity].
Qed.

Lemma finalize_table w log file :
  inv w log -> finalize w = Ok file -> read_file_info_table file = Ok (w_ft w) /\ exists r, file = w_out w ++ r.
Proof.
  intros (H1 & H2 & _) H. unfold finalize in H. cbv zeta in H.
  apply bind_Ok in H as (n & Hn & H). apply bind_Ok in H as (e & He & H).
  apply bind_Ok in H as (z & Hz & H). apply bind_Ok in H as (p & Hp & H).
  apply Ok_inj in H. split; [|eexists; symmetry; exact H]. unfold read_file_info_table.
  destruct (u64_u64 _ _ Hp) as [Lp Rp]. destruct (u64_u64 _ _ Hz) as [Lz Rz].
  assert (L8 : (8 <= length file)%nat) by (rewrite <- H, !app_length; lia).
  replace (Nat.ltb (length file) 8) with false by (symmetry; apply Nat.ltb_ge; lia).
  assert (Es : skipn (length file - 8) file = p).
  { rewrite <- H. rewrite !app_assoc. set (q := (((w_out w ++ n) ++ e) ++ z)).
    rewrite app_length, Lp. replace (length q + 8 - 8)%nat with (length q) by lia.
    rewrite skipn_app, skipn_all, Nat.sub_diag. reflexivity. }
  rewrite Es, <- (app_nil_r p), Rp. cbn [bind]. rewrite <- H, seek_app. cbn [bind].
  rewrite (proj2 (u32_u32 _ _ Hn)). cbn [bind].
  destruct (Z.leb_spec (zlen (w_ft w)) 0) as [Hle|Hle].
  - unfold zlen in Hle. destruct (w_ft w); [reflexivity|cbn [length] in Hle; lia].
  - unfold zlen. rewrite Nat2Z.id. rewrite (read_infos_app (w_ft w) [] e).
    + reflexivity.
    + rewrite Forall_forall in *. intros x Hx. apply (H2 x Hx).
    + exact (proj1 H1).
    + exact He.
Qed.

Lemma archive_parts attr one es file :
  write_archive attr one es = Ok file ->
  exists w a, inv w (files attr one es) /\ open_archive file = Ok a /\ a_file a = file /\ a_ft a = w_ft w /\
    a_short a = short_names (map fst (w_ft w)) /\ exists r, file = w_out w ++ r.
Proof.
  unfold write_archive, write_entries. intros H. apply bind_Ok in H as (w & Hw & H).
  apply bind_Ok in Hw as (w0 & H0 & Hw). apply inv_new in H0 as [I0 ->].
  destruct (add_all_prefix _ _ _ _ _ Hw) as [r0 Hr0]. cbn [w_out] in Hr0.
  apply (add_all_inv _ _ _ _ _ _ I0) in Hw as [I _]. cbn [app] in I.
  destruct (finalize_table _ _ _ I H) as [T [r Hr]].
  exists w. eexists. split; [exact I|]. unfold open_archive.
  assert (Ef : file = cache_header ++ [1] ++ r0 ++ r) by (rewrite Hr, Hr0, <- !app_assoc; reflexivity).
  rewrite Ef at 1. rewrite read_str_app. cbn [bind]. rewrite name_eqb_refl. cbn [assert_ bind].
  assert (Hc : read_char ([1] ++ r0 ++ r) = Ok (1, r0 ++ r)) by reflexivity.
  rewrite Hc. cbn [bind Z.eqb negb]. rewrite T. cbn [bind].
  split; [reflexivity|]. cbn [a_file a_ft a_short]. repeat split. exists r. exact Hr.
Qed.

Lemma lookup_has a n : has_entry a n = true <-> In n (map fst (a_ft a)).
Proof.
  unfold has_entry. rewrite lookup_In. destruct (lookup n (a_ft a)) as [v|]; cbn [is_some].
  - split; eauto.
  - split; [discriminate | intros [v H]; discriminate].
Qed.

Lemma read_own na a n typ fi :
  lookup n (a_ft a) = Some fi ->
  read_entry na a n typ =
    (let* f := seek (a_file a) (fi_pos fi) in
     let* (size, f) := read_U32 f in
     let* (comp, f) := read_U32 f in
     let* (_, f) := read_U32 f in
     if size =? 0 then Ok None
     else if 0 <? comp then Err NotImplementedError
     else let* c := raw_read na (fi_size fi) typ f in Ok (Some c)).
Proof.
  intros H. unfold read_entry, resolve. unfold has_entry. rewrite H. cbn [is_some]. rewrite H. reflexivity.
Qed.

Lemma holds_read na a n fi c pre b post :
  lookup n (a_ft a) = Some fi -> a_file a = pre ++ b ++ post -> fi_pos fi = zlen pre -> holds c (fi_size fi) b ->
  c <> Str [] ->
  read_entry na a n (type_of c) = Ok (Some c).
Proof.
  intros L F P (R & H0 & x & y & z & p & Hx & Hy & Hz & -> & Hr) Hc.
  assert (Hs : fi_size fi <> 0) by auto.
  rewrite (read_own _ _ _ _ _ L), F, P, seek_app. cbn [bind]. rewrite <- !app_assoc.
  rewrite (proj2 (u32_U32 _ _ (proj1 R) Hx)). cbn [bind].
  rewrite (proj2 (u32_U32 _ _ (Z.le_refl 0) Hy)). cbn [bind].
  rewrite (proj2 (u32_U32 _ _ (Z.le_refl 0) Hz)). cbn [bind].
  apply Z.eqb_neq in Hs. rewrite Hs. cbn [Z.ltb Z.compare]. rewrite Hr. reflexivity.
Qed.


(* ---- short names ---- *)

Lemma fold_keys {A B} (key : A -> bytes) (val : A -> B) l m n :
  In n (map fst (fold_left (fun m x => update (key x) (val x) m) l m)) <-> In n (map fst m) \/ In n (map key l).
Proof.
  revert m. induction l as [|x l IH]; cbn [fold_left map In]; intros m.
  - tauto.
  - rewrite IH, lookup_In, lookup_update. destruct (name_eqb n (key x)) eqn:E.
    + apply name_eqb_eq in E. subst. split; [tauto|]. intros _. left. eexists; reflexivity.
    + apply name_eqb_neq in E. rewrite <- lookup_In. split; [tauto|]. intros [H|[H|H]]; auto. congruence.
Qed.

Lemma fold_NoDup {A B} (key : A -> bytes) (val : A -> B) l m :
  NoDup (map fst m) -> NoDup (map fst (fold_left (fun m x => update (key x) (val x) m) l m)).
Proof.
  revert m. induction l as [|x l IH]; cbn [fold_left]; intros m H; [exact H|].
  apply IH. apply update_NoDup. exact H.
Qed.

Lemma fold_lookup_other {A B} (key : A -> bytes) (val : A -> B) l m n :
  ~ In n (map key l) -> lookup n (fold_left (fun m x => update (key x) (val x) m) l m) = lookup n m.
Proof.
  revert m. induction l as [|x l IH]; cbn [fold_left map In]; intros m H; [reflexivity|].
  rewrite IH by tauto. rewrite lookup_update.
  destruct (name_eqb n (key x)) eqn:E; [|reflexivity]. apply name_eqb_eq in E. subst. tauto.
Qed.

Lemma fold_lookup {A B} (key : A -> bytes) (val : A -> B) l m x :
  NoDup (map key l) -> In x l ->
  lookup (key x) (fold_left (fun m x => update (key x) (val x) m) l m) = Some (val x).
Proof.
  revert m. induction l as [|y l IH]; cbn [fold_left map]; intros m Hd Hin; [destruct Hin|].
  inversion Hd as [|? ? Hy Hl]; subst. destruct Hin as [->|Hin].
  - rewrite fold_lookup_other by exact Hy. rewrite lookup_update, name_eqb_refl. reflexivity.
  - apply IH; assumption.
Qed.

Lemma short_unique names n :
  unique_basenames names -> In n names -> lookup (basename n) (short_names names) = Some n.
Proof.
  intros Hu Hin. unfold short_names. set (m := fold_left _ names []).
  assert (L : lookup (basename n) m = Some n).
  { apply (fold_lookup basename (fun x => x)); assumption. }
  replace (Nat.ltb (length m) (length names)) with false; [exact L|]. symmetry. apply Nat.ltb_ge.
  rewrite <- (map_length fst m), <- (map_length basename names).
  apply NoDup_incl_length; [exact Hu|]. intros x Hx. apply (fold_keys basename (fun x => x)). auto.
Qed.

Lemma short_none names s :
  ~ unique_basenames names \/ ~ In s (map basename names) -> lookup s (short_names names) = None.
Proof.
  unfold short_names. set (m := fold_left _ names []). intros H.
  destruct (Nat.ltb (length m) (length names)) eqn:E; [reflexivity|]. apply Nat.ltb_ge in E.
  destruct H as [H|H].
  - exfalso. apply H. unfold unique_basenames.
    apply (@NoDup_incl_NoDup _ (map fst m)).
    + apply (fold_NoDup basename (fun x => x)). constructor.
    + rewrite !map_length. exact E.
    + intros x Hx. apply (fold_keys basename (fun x => x)) in Hx as [[]|Hx]. exact Hx.
  - apply lookup_None. intros Hs. apply (fold_keys basename (fun x => x)) in Hs as [[]|Hs]. auto.
Qed.

Lemma open_short file a : open_archive file = Ok a -> a_short a = short_names (map fst (a_ft a)).
Proof.
  unfold open_archive. intros H. apply bind_Ok in H as ([h f] & _ & H). apply bind_Ok in H as (u & _ & H).
  apply bind_Ok in H as ([flag f2] & _ & H). apply bind_Ok in H as (ft & _ & H).
  apply Ok_inj in H. subst a. reflexivity.
Qed.

(* ---- an archive which was not finalized ---- *)

Lemma le_value_app a b : le_value (a ++ b) = le_value a + 256 ^ Z.of_nat (length a) * le_value b.
Proof.
  induction a as [|x a IH]; cbn [app le_value length].
  - change (256 ^ Z.of_nat 0) with 1. lia.
  - rewrite IH. replace (Z.of_nat (S (length a))) with (1 + Z.of_nat (length a)) by lia.
    rewrite Z.pow_add_r by lia. change (256 ^ 1) with 256. ring.
Qed.

Lemma le_value_range a : Forall (fun b => 0 <= b < 256) a -> 0 <= le_value a < 256 ^ Z.of_nat (length a).
Proof.
  induction 1 as [|x a Hx _ IH]; cbn [le_value length].
  - change (256 ^ Z.of_nat 0) with 1. lia.
  - replace (Z.of_nat (S (length a))) with (1 + Z.of_nat (length a)) by lia.
    rewrite Z.pow_add_r by lia. change (256 ^ 1) with 256. lia.
Qed.

Lemma far_table file v :
  (8 <= length file)%nat -> read_u64 (skipn (length file - 8) file) = Ok (v, []) -> zlen file <= v ->
  exists e, read_file_info_table file = Err e.
Proof.
  intros H8 Hr Hv. unfold read_file_info_table.
  replace (Nat.ltb (length file) 8) with false by (symmetry; apply Nat.ltb_ge; lia).
  rewrite Hr. cbn [bind]. unfold seek. destruct (Z.ltb_spec v 0); [unfold zlen in Hv; lia|]. cbn [bind].
  rewrite skipn_all2 by (unfold zlen in Hv; lia). cbn. eauto.
Qed.

Lemma unfinished attr one es w :
  write_entries attr one es = Ok w -> Forall (fun b => 0 <= b < 256) (w_out w) -> zlen (w_out w) < 2 ^ 62 ->
  exists e, open_archive (w_out w) = Err e.
Proof.
  unfold write_entries. intros H Hb Hl. apply bind_Ok in H as (w0 & H0 & H). apply inv_new in H0 as [I0 ->].
  destruct (add_all_prefix _ _ _ _ _ H) as [r0 Hr0]. cbn [w_out] in Hr0.
  apply (add_all_inv _ _ _ _ _ _ I0) in H as [_ H].
  assert (T : exists e, read_file_info_table (w_out w) = Err e).
  { destruct H as [[_ ->]|[o Ho]].
    - eapply far_table; [cbn; lia|vm_compute; reflexivity|vm_compute; discriminate].
    - assert (Lo : (5 <= length o)%nat).
      { assert (L : length (w_out w) = (9 + length r0)%nat) by (rewrite Hr0, !app_length; reflexivity).
        rewrite Ho, app_length, le_bytes_len in L. lia. }
      set (q := skipn (length o - 4) o).
      assert (Lq : length q = 4%nat) by (unfold q; rewrite skipn_length; lia).
      assert (Es : skipn (length (w_out w) - 8) (w_out w) = q ++ le_bytes 4 end_recovery_tag).
      { rewrite Ho, app_length, le_bytes_len. replace (length o + 4 - 8)%nat with (length o - 4)%nat by lia.
        rewrite skipn_app. replace (length o - 4 - length o)%nat with 0%nat by lia. reflexivity. }
      assert (Hq : Forall (fun b => 0 <= b < 256) q).
      { apply Forall_forall. intros x Hx. unfold q in Hx. apply In_skipn in Hx. rewrite Forall_forall in Hb.
        apply Hb. rewrite Ho. apply in_or_app. auto. }
      apply le_value_range in Hq as R. rewrite Lq in R. change (256 ^ Z.of_nat 4) with 4294967296 in R.
      apply (far_table (w_out w) (le_value q + 4294967296 * end_recovery_tag)).
      + rewrite Ho, app_length, le_bytes_len. lia.
      + rewrite Es. unfold read_u64, read_signed. rewrite <- (app_nil_r (q ++ _)).
        rewrite read_n_app by (rewrite app_length, Lq, le_bytes_len; reflexivity). cbn [bind].
        rewrite le_value_app, Lq, le_value_bytes. change (256 ^ Z.of_nat 4) with 4294967296.
        change (end_recovery_tag mod 2 ^ (8 * Z.of_nat 4)) with end_recovery_tag.
        change (2 ^ (8 * Z.of_nat 8 - 1)) with 9223372036854775808.
        unfold end_recovery_tag.
        destruct (Z.ltb_spec (le_value q + 4294967296 * 1437226410) 9223372036854775808); [reflexivity|lia].
      + change (2 ^ 62) with 4611686018427387904 in Hl. unfold end_recovery_tag. lia. }
  destruct T as [e T]. exists e. unfold open_archive.
  rewrite Hr0 at 1. rewrite <- app_assoc, read_str_app. cbn [bind]. rewrite name_eqb_refl. cbn [assert_ bind].
  assert (Hc : read_char ([1] ++ r0) = Ok (1, r0)) by reflexivity.
  rewrite Hc. cbn [bind Z.eqb negb]. rewrite T. reflexivity.
Qed.

(* ---- alignments ---- *)

Lemma le_bytes_spec n z : map (byte_of z) (seq 0 n) = le_bytes n z.
Proof.
  revert z. induction n as [|n IH]; intros z; [reflexivity|].
  cbn [seq map le_bytes]. f_equal.
  - unfold byte_of. change (256 ^ Z.of_nat 0) with 1. rewrite Z.div_1_r. reflexivity.
  - rewrite <- IH, <- seq_shift, map_map. apply map_ext. intros i. unfold byte_of.
    replace (Z.of_nat (S i)) with (1 + Z.of_nat i) by lia. rewrite Z.pow_add_r by lia. change (256 ^ 1) with 256.
    rewrite Z.div_div by (try lia; apply Z.pow_pos_nonneg; lia). reflexivity.
Qed.

Lemma u32_len z : length (u32 z) = 4%nat.
Proof. reflexivity. Qed.

Lemma read_U32_u32 z f : 0 <= z < 2 ^ 32 -> read_U32 (u32 z ++ f) = Ok (z, f).
Proof.
  intros H. unfold u32. rewrite le_bytes_spec. unfold read_U32, read_unsigned.
  rewrite read_n_app by apply le_bytes_len. cbn [bind]. rewrite le_value_bytes.
  change (8 * Z.of_nat 4) with 32. rewrite Z.mod_small by lia. reflexivity.
Qed.

Lemma read_S16_u16 z f : 0 <= z < 2 ^ 16 -> read_S16 (u16 z ++ f) = Ok (z, f).
Proof.
  intros H. unfold u16. rewrite le_bytes_spec. unfold read_S16, read_unsigned.
  rewrite read_n_app by apply le_bytes_len. cbn [bind]. rewrite le_value_bytes.
  change (8 * Z.of_nat 2) with 16. rewrite Z.mod_small by lia. reflexivity.
Qed.

Lemma read_u32_u32 z f : 0 <= z < 2 ^ 31 -> read_u32 (u32 z ++ f) = Ok (z, f).
Proof.
  intros H. unfold u32. rewrite le_bytes_spec. unfold read_u32, read_signed.
  rewrite read_n_app by apply le_bytes_len. cbn [bind]. rewrite le_value_bytes.
  change (8 * Z.of_nat 4 - 1) with 31. change (8 * Z.of_nat 4) with 32.
  change (2 ^ 31) with 2147483648 in *. change (2 ^ 32) with 4294967296.
  rewrite Z.mod_small by lia. destruct (Z.ltb_spec z 2147483648); [reflexivity|lia].
Qed.

Lemma read_u32_any z f : exists v, read_u32 (u32 z ++ f) = Ok (v, f).
Proof.
  unfold u32. rewrite le_bytes_spec. unfold read_u32, read_signed.
  rewrite read_n_app by apply le_bytes_len. cbn [bind]. eauto.
Qed.

Lemma read_char_u8 z f : 0 <= z < 256 -> read_char (u8 z ++ f) = Ok (if z <? 128 then z else z - 256, f).
Proof.
  intros H. unfold u8, read_char, read_signed. rewrite read_n_app by reflexivity. cbn [bind le_value].
  unfold byte_of. change (256 ^ Z.of_nat 0) with 1. rewrite Z.div_1_r, Z.mod_small by lia.
  change (2 ^ (8 * Z.of_nat 1 - 1)) with 128. change (2 ^ (8 * Z.of_nat 1)) with 256.
  rewrite Z.mul_0_r, Z.add_0_r. reflexivity.
Qed.

Lemma state_loop k st n a j :
  0 <= a < n -> n <= 2 ^ 26 -> 0 <= j < Z.of_nat k -> get_state_loop k st n (a + j * 2 ^ 26) = (a, st + j).
Proof.
  revert st j. change (2 ^ 26) with 67108864. induction k as [|k IH]; intros st j Ha Hn Hj; [lia|].
  cbn [get_state_loop]. destruct (Z.leb_spec n (a + j * 67108864)) as [H|H].
  - replace (a + j * 67108864 - 2 ^ 26) with (a + (j - 1) * 67108864)
      by (change (2 ^ 26) with 67108864; lia).
    rewrite IH by lia. f_equal. lia.
  - f_equal; lia.
Qed.

Lemma get_state_ok n l : n <= 2 ^ 26 -> label_ok n l -> get_state n (label_code l) = Ok (fst l, snd l).
Proof.
  intros Hn [Ha Hs]. unfold get_state.
  replace (0 <? n) with true by (symmetry; apply Z.ltb_lt; lia). cbn [assert_ bind].
  unfold label_code. rewrite state_loop by (cbn [Z.of_nat Pos.of_succ_nat Pos.succ]; lia).
  replace (0 <=? fst l) with true by (symmetry; apply Z.leb_le; lia). reflexivity.
Qed.

Lemma label_code_range n l : n <= 2 ^ 26 -> label_ok n l -> 0 <= label_code l < 2 ^ 31.
Proof.
  intros Hn [Ha Hs]. unfold label_code. change (2 ^ 26) with 67108864 in *. change (2 ^ 31) with 2147483648. lia.
Qed.

Lemma mix_state_ok raw n l : n <= 2 ^ 26 -> label_ok n l ->
  mix_state raw n (label_code l) = Ok (if raw then (label_code l, None) else (fst l, Some (snd l))).
Proof.
  intros Hn Hl. unfold mix_state. destruct raw; [reflexivity|]. rewrite get_state_ok by assumption. reflexivity.
Qed.

Lemma literals_ok raw na l time f :
  na <= 2 ^ 26 -> Forall (label_ok na) l ->
  rle_literals raw na (length l) time (flat_map (fun x => u32 (label_code x)) l ++ f) =
    Ok (map (shown raw) (map (fun p => (time + Z.of_nat (fst p), snd p)) (combine (seq 0 (length l)) l)),
        time + Z.of_nat (length l), f).
Proof.
  intros Hn. revert time. induction l as [|x l IH]; intros time H.
  - cbn. rewrite Z.add_0_r. reflexivity.
  - inversion H as [|? ? Hx Hl]; subst. cbn [length flat_map rle_literals].
    rewrite <- app_assoc, read_u32_u32 by (apply (label_code_range na); assumption). cbn [bind].
    rewrite (mix_state_ok raw na x Hn Hx).
    rewrite IH by exact Hl.
    replace (map (fun p : nat * label => (time + 1 + Z.of_nat (fst p), snd p)) (combine (seq 0 (length l)) l))
      with (map (fun p : nat * label => (time + Z.of_nat (fst p), snd p)) (combine (seq 1 (length l)) l)).
    + replace (time + 1 + Z.of_nat (length l)) with (time + Z.of_nat (S (length l))) by lia.
      cbn [seq combine map fst snd]. unfold shown at 2. cbn [fst snd].
      replace (time + Z.of_nat 0) with time by lia.
      destruct raw; reflexivity.
    + rewrite <- seq_shift. clear. generalize (seq 0 (length l)) as s. intros s. revert s.
      induction l as [|x l IH]; intros [|i s]; cbn [map combine]; try reflexivity.
      rewrite IH. f_equal. cbn [fst snd]. f_equal. lia.
Qed.

Lemma flat_app_fuel {A} (f : A -> bytes) x l : flat_map f (x :: l) = f x ++ flat_map f l.
Proof. reflexivity. Qed.

Lemma rle_ok_read raw na items size time acc fuel rest :
  na <= 2 ^ 26 -> Forall (rle_ok na) items -> size = zlen acc + zlen (rle_frames time items) ->
  (length (flat_map rle_bytes items) < fuel)%nat ->
  read_rle fuel raw na size time acc (flat_map rle_bytes items ++ rest) =
    Ok (acc ++ map (shown raw) (rle_frames time items)).
Proof.
  intros Hn. revert time acc fuel. induction items as [|it items IH]; intros time acc fuel Hok Hs Hf.
  - destruct fuel as [|fuel]; [lia|]. cbn [read_rle rle_frames map] in *.
    destruct (Z.ltb_spec (zlen acc) size) as [H|H]; [unfold zlen in *; cbn [length] in Hs; lia|].
    rewrite app_nil_r. reflexivity.
  - destruct fuel as [|fuel]; [lia|]. cbn [read_rle].
    inversion Hok as [|? ? Hi Hr]; subst. rewrite flat_app_fuel in *. rewrite app_length in Hf.
    destruct (Z.ltb_spec (zlen acc) (zlen acc + zlen (rle_frames time (it :: items)))) as [H|H].
    2:{ destruct (rle_frames time (it :: items)) as [|y ys].
        - cbn [map]. rewrite app_nil_r. reflexivity.
        - unfold zlen in H. cbn [length] in H. lia. }
    destruct it as [l|n l|t]; cbn [rle_ok rle_bytes rle_frames] in *.
    + destruct Hi as [Hl Hlab]. rewrite <- !app_assoc, read_char_u8 by lia. cbn [bind].
      destruct (Z.ltb_spec (Z.of_nat (length l)) 128); [|lia].
      destruct (Z.ltb_spec 0 (Z.of_nat (length l))); [|lia].
      rewrite Nat2Z.id, literals_ok by assumption. cbn [bind].
      rewrite IH.
      * rewrite map_app, <- app_assoc. reflexivity.
      * exact Hr.
      * rewrite !zlen_app. unfold zlen. rewrite !map_length. lia.
      * rewrite app_length in Hf. cbn [length u8] in Hf. lia.
    + destruct Hi as [Hl Hlab]. rewrite <- !app_assoc, read_char_u8 by lia. cbn [bind].
      destruct (Z.ltb_spec (256 - Z.of_nat n) 128); [lia|].
      destruct (Z.ltb_spec 0 (256 - Z.of_nat n - 256)); [lia|].
      destruct (Z.ltb_spec (256 - Z.of_nat n - 256) 0); [|lia].
      rewrite read_u32_u32 by (apply (label_code_range na); assumption). cbn [bind].
      rewrite (mix_state_ok raw na l Hn Hlab).
      replace (time - (256 - Z.of_nat n - 256)) with (time + Z.of_nat n) by lia.
      replace (Z.to_nat (- (256 - Z.of_nat n - 256))) with n by lia.
      assert (E : forall m s, (if raw then (label_code l, None) else (fst l, Some (snd l))) = (m, s) ->
                  rle_run n time m s = map (shown raw) (map (fun i => (time + Z.of_nat i, l)) (seq 0 n))).
      { intros m s E. unfold rle_run. rewrite map_map. apply map_ext. intros i. unfold shown. cbn [fst snd].
        destruct raw; apply pair_equal_spec in E as [<- <-]; reflexivity. }
      destruct (if raw then (label_code l, None) else (fst l, Some (snd l))) as [m s].
      cbn [bind]. rewrite (E m s eq_refl). rewrite IH.
      * rewrite map_app, <- app_assoc. reflexivity.
      * exact Hr.
      * rewrite !zlen_app. unfold zlen. rewrite !map_length. lia.
      * rewrite app_length in Hf. cbn [length u8] in Hf. lia.
    + rewrite <- !app_assoc, read_char_u8 by lia. cbn [bind Z.ltb Z.compare].
      rewrite read_u32_u32 by exact Hi. cbn [bind]. rewrite IH; auto.
      rewrite app_length in Hf. cbn [length u8] in Hf. lia.
Qed.

(* packed numbers *)
Definition packed_facts (b : Z) : bool :=
  (Z.land b 128 =? 0) && negb (Z.land (128 + b) 128 =? 0) && (Z.land (128 + b) 127 =? b).

Lemma packed_byte b : 0 <= b < 128 ->
  Z.land b 128 =? 0 = true /\ Z.land (128 + b) 128 =? 0 = false /\ Z.land (128 + b) 127 = b.
Proof.
  intros H. assert (A : forallb packed_facts (map Z.of_nat (seq 0 128)) = true) by (vm_compute; reflexivity).
  rewrite forallb_forall in A. assert (I : In b (map Z.of_nat (seq 0 128))).
  { apply in_map_iff. exists (Z.to_nat b). split; [lia|]. apply in_seq. lia. }
  apply A in I. unfold packed_facts in I. apply andb_true_iff in I as [I I3]. apply andb_true_iff in I as [I1 I2].
  apply negb_true_iff in I2. apply Z.eqb_eq in I3. auto.
Qed.

Lemma packed_lor b z : 0 <= b < 128 -> b + 128 * z = Z.lor b (Z.shiftl z 7).
Proof.
  intros H. rewrite Z.shiftl_mul_pow2 by lia. change (2 ^ 7) with 128. rewrite (Z.mul_comm z).
  assert (L : Z.land b (128 * z) = 0).
  { replace (128 * z) with (Z.shiftl z 7) by (rewrite Z.shiftl_mul_pow2 by lia; lia).
    apply Z.bits_inj'. intros n Hn. rewrite Z.land_spec, Z.bits_0. destruct (Z_lt_ge_dec n 7) as [Hlt|Hge].
    - rewrite Z.shiftl_spec_low by lia. apply andb_false_r.
    - replace (Z.testbit b n) with false; [reflexivity|]. symmetry.
      rewrite <- (Z.mod_small b (2 ^ 7)) by (change (2 ^ 7) with 128; lia).
      apply Z.mod_pow2_bits_high. lia. }
  rewrite Z.add_nocarry_lxor by exact L. apply Z.lxor_lor. exact L.
Qed.

Lemma packed_from z l f s r : 0 <= s -> packed z l ->
  read_packed_from s r (l ++ f) = Ok (Z.lor r (Z.shiftl z s), f).
Proof.
  intros Hs H. revert s r Hs. induction H as [b Hb|b z l Hb _ IH]; intros s r Hs; cbn [app read_packed_from];
    destruct (packed_byte b Hb) as (P1 & P2 & P3).
  - rewrite P1. reflexivity.
  - rewrite P2, P3, IH by lia. f_equal. f_equal. rewrite packed_lor by exact Hb.
    rewrite Z.shiftl_lor, Z.shiftl_shiftl, (Z.add_comm 7 s) by lia. rewrite Z.lor_assoc. reflexivity.
Qed.

Lemma packed_ok z l f : packed z l -> read_packed_U32 (l ++ f) = Ok (z, f).
Proof.
  intros H. unfold read_packed_U32. rewrite (packed_from z) by (auto; lia). rewrite Z.shiftl_0_r. reflexivity.
Qed.

Lemma packed_len z l : packed z l -> (1 <= length l)%nat.
Proof. intros []; cbn [length]; lia. Qed.

Lemma items_ok na version t items bs f :
  na <= 2 ^ 26 -> Forall (fun p => label_ok na (fst p) /\ weight_ok version (snd p)) items ->
  Forall2 item_enc items bs ->
  weighted_items (length items) na version t (concat bs ++ f) =
    Ok (map (fun p => (t, fst (fst p), Some (snd (fst p)), snd p)) items, f).
Proof.
  intros Hn Hok H. induction H as [|[l w] b items bs Hb _ IH]; [reflexivity|].
  inversion Hok as [|? ? [Hl Hw] Hr]; subst. inversion Hb as [l' w' c Hc]; subst. cbn [fst snd] in *.
  cbn [length concat weighted_items]. rewrite <- !app_assoc, (packed_ok _ _ _ Hc). cbn [bind].
  rewrite (get_state_ok na l Hn Hl). cbn [bind].
  specialize (IH Hr). destruct w as [|x|x]; cbn [weight_ok weight_bytes] in *; [destruct Hw| |].
  - destruct Hw as [-> Hx]. cbn [Z.eqb Pos.eqb]. rewrite read_S16_u16 by exact Hx. cbn [bind].
    rewrite IH. reflexivity.
  - destruct Hw as [-> Hx]. cbn [Z.eqb Pos.eqb]. unfold read_f32. fold read_U32.
    rewrite read_U32_u32 by exact Hx. cbn [bind]. rewrite IH. reflexivity.
Qed.

Lemma weighted_ok na version fs bs size t acc fuel rest :
  na <= 2 ^ 26 -> Forall (frame_ok na version) fs -> Forall2 frame_enc fs bs ->
  Forall (fun f => fr_time f = None) fs ->
  size = zlen acc + zlen (weighted_frames t fs) -> (length (concat bs) < fuel)%nat ->
  read_weighted fuel na version size t acc (concat bs ++ rest) = Ok (acc ++ weighted_frames t fs).
Proof.
  intros Hn Hok H. revert t acc fuel. induction H as [|fr b fs bs Hb Hbs IH]; intros t acc fuel Ht Hs Hf.
  - destruct fuel as [|fuel]; [lia|]. cbn [read_weighted weighted_frames] in *.
    destruct (Z.ltb_spec (zlen acc) size) as [H|H]; [unfold zlen in *; cbn [length] in Hs; lia|].
    rewrite app_nil_r. reflexivity.
  - destruct fuel as [|fuel]; [lia|]. cbn [read_weighted].
    inversion Hok as [|? ? Hi Hr]; subst. inversion Ht as [|? ? Ht1 Ht2]; subst.
    destruct (Z.ltb_spec (zlen acc) (zlen acc + zlen (weighted_frames t (fr :: fs)))) as [H|H].
    2:{ destruct (weighted_frames t (fr :: fs)) as [|y ys].
        - rewrite app_nil_r. reflexivity.
        - unfold zlen in H. cbn [length] in H. lia. }
    inversion Hb as [items c cs Hc Hcs|? items c d cs]; subst; [|discriminate].
    cbn [concat] in *. rewrite <- !app_assoc, (packed_ok _ _ _ Hc). cbn [bind].
    replace (Z.land (2 * Z.of_nat (length items)) 1 =? 0) with true.
    2:{ symmetry. change 1 with (Z.ones 1). rewrite Z.land_ones by lia. change (2 ^ 1) with 2.
        rewrite Z.mul_comm, Z.mod_mul by lia. reflexivity. }
    cbn [bind].
    replace (Z.to_nat ((2 * Z.of_nat (length items) + 1) / 2)) with (length items).
    2:{ rewrite Z.add_comm, Z.mul_comm, Z.div_add by lia. change (1 / 2) with 0. lia. }
    rewrite (items_ok na version t items cs _ Hn Hi Hcs). cbn [bind].
    rewrite IH; auto.
    + cbn [weighted_frames fr_time fr_items]. rewrite <- app_assoc. reflexivity.
    + cbn [weighted_frames fr_time fr_items] in *. rewrite !zlen_app. lia.
    + apply packed_len in Hc. rewrite !app_length in Hf. lia.
Qed.

Lemma stored_read na a name payload typ :
  stored a name payload ->
  (forall rest size, raw_read na size typ (payload ++ rest) = raw_read na 0 typ (payload ++ rest)) ->
  exists rest, read_entry na a name typ = (let* c := raw_read na 0 typ (payload ++ rest) in Ok (Some c)).
Proof.
  intros (Hd & fi & pre & size & check & rest & Hin & Hp & Hs & Hc & Hf) Hz. exists rest.
  apply lookup_pair in Hin; [|exact Hd].
  rewrite (read_own _ _ _ _ _ Hin), Hf, Hp. change (Z.of_nat (length pre)) with (zlen pre). rewrite seek_app. cbn [bind].
  rewrite read_U32_u32 by lia. cbn [bind]. rewrite read_U32_u32 by lia. cbn [bind].
  rewrite read_U32_u32 by lia. cbn [bind].
  destruct (Z.eqb_spec size 0); [lia|]. cbn [Z.ltb Z.compare]. rewrite Hz. reflexivity.
Qed.

Lemma align_header (raw : bool) na (flag : Z) alph f :
  raw_read na 0 (if raw then TAlignRaw else TAlign) (align_magic ++ u32 flag ++ rle_magic alph ++ f) =
    (let* (size, f) := read_U32 f in
     if size <? 2 ^ 31 then
       let* l := read_rle (S (length f)) raw na size 0 [] f in Ok (Align l)
     else
       let version := Z.land size (2 ^ 31 - 1) in
       let* _ := assert_ (version <=? 2) in
       let* (size, f) := read_packed_U32 f in
       let* l := read_weighted (S (length f)) na version size 0 [] f in Ok (Align l)).
Proof.
  assert (G : forall typ, typ = TAlign \/ typ = TAlignRaw ->
     raw_read na 0 typ (align_magic ++ u32 flag ++ rle_magic alph ++ f) =
    (let* (size, f) := read_U32 f in
     if size <? 2 ^ 31 then
       let* l := read_rle (S (length f)) (match typ with TAlignRaw => true | _ => false end) na size 0 [] f in Ok (Align l)
     else
       let version := Z.land size (2 ^ 31 - 1) in
       let* _ := assert_ (version <=? 2) in
       let* (size, f) := read_packed_U32 f in
       let* l := read_weighted (S (length f)) na version size 0 [] f in Ok (Align l))).
  { intros typ Ht. unfold align_magic. rewrite <- !app_assoc.
    assert (E1 : forall g, read_U32 (u32 14 ++ g) = Ok (14, g)) by (intros; apply read_U32_u32; lia).
    assert (E2 : forall g, read_str 14 (flow_alignment ++ g) = Ok (flow_alignment, g))
      by (intros g; exact (read_str_app flow_alignment g)).
    assert (E3 : forall g, read_str 8 (rle_magic alph ++ g) = Ok (rle_magic alph, g))
      by (intros g; destruct alph; [exact (read_str_app aalphrle g)|exact (read_str_app alignrle g)]).
    destruct (read_u32_any flag (rle_magic alph ++ f)) as [v Ev].
    assert (E4 : name_eqb (rle_magic alph) alignrle || name_eqb (rle_magic alph) aalphrle = true)
      by (destruct alph; reflexivity).
    change [102; 108; 111; 119; 45; 97; 108; 105; 103; 110; 109; 101; 110; 116] with flow_alignment.
    destruct Ht as [-> | ->]; unfold raw_read; cbv beta iota zeta; rewrite E1; cbn [bind];
      rewrite E2; cbn [bind]; rewrite name_eqb_refl; cbn [assert_ bind]; rewrite Ev; cbn [bind];
      rewrite E3; cbn [bind]; rewrite E4; reflexivity. }
  rewrite G by (destruct raw; auto). destruct raw; reflexivity.
Qed.

(* ---- bundles ---- *)

Lemma open_bundle_snoc l a : open_bundle (l ++ [a]) = add_archive (open_bundle l) a.
Proof. unfold open_bundle. rewrite fold_left_app. reflexivity. Qed.

Lemma fold_same {B} (v : B) l m n :
  In n l -> lookup n (fold_left (fun m x => update x v m) l m) = Some v.
Proof.
  revert m. induction l as [|x l IH]; cbn [fold_left]; intros m H; [destruct H|].
  destruct (in_dec (list_eq_dec Z.eq_dec) n l) as [Hin|Hin]; [apply IH; exact Hin|].
  rewrite (fold_lookup_other (fun x => x) (fun _ => v)) by (rewrite map_id; exact Hin).
  destruct H as [->|H]; [|contradiction]. rewrite lookup_update, name_eqb_refl. reflexivity.
Qed.

Lemma add_archive_files b a n :
  lookup n (b_files (add_archive b a)) = if has_entry a n then Some a else lookup n (b_files b).
Proof.
  unfold add_archive. cbn [b_files]. destruct (has_entry a n) eqn:E.
  - apply lookup_has in E. apply fold_same. exact E.
  - apply (fold_lookup_other (fun x => x) (fun _ => a)). rewrite map_id. intros H. apply lookup_has in H. congruence.
Qed.

Lemma bundle_last l n a :
  last_with n a l -> lookup n (b_files (open_bundle l)) = Some a.
Proof.
  intros (l1 & l2 & -> & Hin & Hnot). induction l2 as [|b l2 IH] using rev_ind.
  - rewrite open_bundle_snoc, add_archive_files. apply lookup_has in Hin. rewrite Hin. reflexivity.
  - rewrite app_comm_cons, app_assoc, open_bundle_snoc, add_archive_files.
    destruct (has_entry b n) eqn:E.
    + exfalso. apply lookup_has in E. apply (Hnot b); [apply in_or_app; right; left; reflexivity|exact E].
    + apply IH. intros b' Hb'. apply Hnot. apply in_or_app. auto.
Qed.

Lemma bundle_no l n :
  (forall a, In a l -> ~ In n (map fst (a_ft a))) -> lookup n (b_files (open_bundle l)) = None.
Proof.
  induction l as [|a l IH] using rev_ind; intros H; [reflexivity|].
  rewrite open_bundle_snoc, add_archive_files. destruct (has_entry a n) eqn:E.
  - exfalso. apply lookup_has in E. apply (H a); [apply in_or_app; right; left; reflexivity|exact E].
  - apply IH. intros b Hb. apply H. apply in_or_app. auto.
Qed.

Lemma fold_first {B} (v : B) l names m :
  first_occurrences l (map fst m) ->
  first_occurrences (l ++ names) (map fst (fold_left (fun m x => update x v m) names m)).
Proof.
  revert l m. induction names as [|x names IH]; cbn [fold_left]; intros l m H.
  - rewrite app_nil_r. exact H.
  - change (x :: names) with ([x] ++ names). rewrite app_assoc. apply IH. apply first_occurrences_snoc. exact H.
Qed.

Lemma bundle_names l : first_occurrences (flat_map file_list l) (bundle_list (open_bundle l)).
Proof.
  induction l as [|a l IH] using rev_ind; [apply first_occurrences_nil|].
  rewrite open_bundle_snoc, flat_map_app. cbn [flat_map]. rewrite app_nil_r.
  unfold bundle_list, add_archive. cbn [b_files]. apply fold_first. exact IH.
Qed.

Lemma fold_pairs m0 l n :
  lookup n (fold_left (fun m (p : bytes * bytes) => update (fst p) (snd p) m) l m0) =
    match lookup n (rev l) with Some v => Some v | None => lookup n m0 end.
Proof.
  induction l as [|[k v] l IH] using rev_ind; [reflexivity|].
  rewrite fold_left_app, rev_app_distr. cbn [fold_left rev app lookup fst snd]. rewrite lookup_update.
  destruct (name_eqb n k); [reflexivity|exact IH].
Qed.

Lemma lookup_rev {A} n (l : list (bytes * A)) : NoDup (map fst l) -> lookup n (rev l) = lookup n l.
Proof.
  intros H. assert (H' : NoDup (map fst (rev l))) by (rewrite map_rev; apply NoDup_rev; exact H).
  destruct (lookup n l) as [v|] eqn:E.
  - apply lookup_pair; [exact H'|]. apply in_rev. rewrite rev_involutive. apply lookup_pair in E; auto.
  - apply lookup_None. rewrite map_rev, <- in_rev. apply lookup_None. exact E.
Qed.

Lemma short_NoDup names : NoDup (map fst (short_names names)).
Proof.
  unfold short_names. destruct (Nat.ltb _ _); [constructor|].
  apply (fold_NoDup basename (fun x => x)). constructor.
Qed.

Lemma bundle_short l1 a l2 n s :
  (forall b, In b (l1 ++ a :: l2) -> a_short b = short_names (map fst (a_ft b))) ->
  unique_basenames (map fst (a_ft a)) -> In n (map fst (a_ft a)) -> basename n = s ->
  (forall b, In b l2 -> ~ In s (map basename (map fst (a_ft b)))) ->
  lookup s (b_short (open_bundle (l1 ++ a :: l2))) = Some n.
Proof.
  intros Hs Hu Hin Hb Hn. induction l2 as [|b l2 IH] using rev_ind.
  - rewrite open_bundle_snoc. unfold add_archive. cbn [b_short]. rewrite fold_pairs.
    rewrite (Hs a) by (apply in_elt). rewrite lookup_rev by apply short_NoDup.
    rewrite <- Hb, short_unique by assumption. reflexivity.
  - rewrite app_comm_cons, app_assoc, open_bundle_snoc. unfold add_archive. cbn [b_short]. rewrite fold_pairs.
    rewrite (Hs b) by (apply in_or_app; right; right; apply in_or_app; right; left; reflexivity).
    rewrite lookup_rev by apply short_NoDup.
    rewrite short_none by (right; apply Hn; apply in_or_app; right; left; reflexivity).
    apply IH.
    + intros c Hc. apply Hs. apply in_app_or in Hc as [Hc|[Hc|Hc]]; apply in_or_app; cbn [In]; auto.
      right. right. apply in_or_app. auto.
    + intros c Hc. apply Hn. apply in_or_app. auto.
Qed.
