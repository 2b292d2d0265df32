From Coq Require Import Ring.
From Verif Require Import Base ListLemmas ConvModel ConvSpec ConvProofs AttnModel AttnSpec.
From Verif Require PadOpsModel PadOpsProofs.
Local Open Scope nat_scope.

Section Attention.
Context {X Q K : Type}.
Variables (fq : X -> Q) (fk : X -> K) (fv : X -> Z) (energy : nat -> nat -> Q -> K -> Z) (softmax : list (option Z) -> list Z).
Hypothesis Hsm : softmax_contract softmax.

Lemma weighted_sum_eq ws vs : weighted_sum ws vs = sum_products ws vs.
Proof. unfold weighted_sum. revert vs. induction ws as [|w ws IH]; intros [|v vs]; cbn [combine map fold_right sum_products fst snd]; try reflexivity. rewrite IH. reflexivity. Qed.
Lemma sum_products_app a b c d : length a = length c -> sum_products (a ++ b) (c ++ d) = (sum_products a c + sum_products b d)%Z.
Proof. revert c. induction a as [|x a IH]; intros [|y c] H; try discriminate; cbn [app sum_products]; [reflexivity|]. rewrite IH by (injection H; auto). lia. Qed.
Lemma sum_products_zero k vs : sum_products (repeat 0%Z k) vs = 0%Z.
Proof. revert vs. induction k as [|k IH]; intros [|v vs]; cbn; try reflexivity. rewrite IH. reflexivity. Qed.
Lemma energies_eq t q frames s : map (fun sk => energy t (fst sk) q (snd sk)) (combine (seq s (length (map fk frames))) (map fk frames)) = energies fk energy t s q frames.
Proof. revert s. induction frames as [|x frames IH]; intros s; [reflexivity|]. cbn [map length seq combine energies fst snd]. rewrite IH. reflexivity. Qed.
Lemma energies_len t s q frames : length (energies fk energy t s q frames) = length frames.
Proof. revert s. induction frames; intros; cbn; auto. Qed.
Lemma mask_split {T} s n (a b : list T) : length a = n -> map (fun ie => if fst ie <? s + n then Some (snd ie) else None) (combine (seq s (length (a ++ b))) (a ++ b)) = map Some a ++ repeat None (length b).
Proof.
  revert s n. induction a as [|x a IH]; intros s n Hn; cbn [length] in Hn; subst n.
  - cbn [app map]. rewrite Nat.add_0_r. assert (H : forall l u, s <= u -> map (fun ie : nat * T => if fst ie <? s then Some (snd ie) else None) (combine (seq u (length l)) l) = repeat None (length l)).
    { intros l. induction l as [|y l IHl]; intros u Hu; [reflexivity|]. cbn [length seq combine map fst snd repeat]. rewrite (proj2 (Nat.ltb_ge u s) Hu), IHl by lia. reflexivity. }
    apply H. lia.
  - cbn [app length seq combine map fst snd]. rewrite (proj2 (Nat.ltb_lt s (s + S (length a)))) by lia. f_equal. rewrite <- (IH (S s) (length a) eq_refl). apply map_ext. intros [i y]. cbn [fst snd]. replace (S s + length a) with (s + S (length a)) by lia. reflexivity.
Qed.
Lemma dot_plain t x frames : dot_attention energy softmax t (fq x) (map fk frames) (map fv frames) None = attend fq fk fv energy softmax t x frames.
Proof. unfold dot_attention, masked_softmax, attend. rewrite energies_eq, weighted_sum_eq. reflexivity. Qed.
Lemma dot_masked t x frames kj vj : frames <> [] -> dot_attention energy softmax t (fq x) (map fk frames ++ kj) (map fv frames ++ vj) (Some (length frames)) = attend fq fk fv energy softmax t x frames.
Proof.
  intros Hne. rewrite <- dot_plain. unfold dot_attention, masked_softmax. rewrite app_length, seq_app, PadOpsProofs.combine_app'. 2:{ rewrite seq_length. reflexivity. }
  rewrite map_app, energies_eq. rewrite (mask_split 0 (length frames)) by apply energies_len. destruct Hsm as [Hl Hp]. rewrite Hp.
  2:{ intros E. apply (f_equal (@length _)) in E. rewrite energies_len in E. destruct frames; [congruence|discriminate]. }
  rewrite !weighted_sum_eq, sum_products_app by (rewrite Hl, !map_length, energies_len; reflexivity). rewrite sum_products_zero. lia.
Qed.

Lemma past_eq rest before x :
  map (fun tx => dot_attention energy softmax (fst tx) (fq (snd tx)) (map fk (before ++ x ++ rest)) (map fv (before ++ x ++ rest)) (Some (fst tx + 1))) (combine (seq (length before) (length x)) x) = attend_past fq fk fv energy softmax before x.
Proof.
  revert before. induction x as [|y x IH]; intros before; [reflexivity|]. cbn [length seq combine map fst snd attend_past]. f_equal.
  - replace (before ++ (y :: x) ++ rest) with ((before ++ [y]) ++ (x ++ rest)) by (rewrite <- app_assoc; reflexivity). rewrite !(map_app _ (before ++ [y])).
    replace (length before + 1) with (length (before ++ [y])) by (rewrite app_length; reflexivity). apply dot_masked. destruct before; discriminate.
  - specialize (IH (before ++ [y])). rewrite app_length in IH. cbn [length] in IH. rewrite Nat.add_1_r in IH. rewrite <- IH. rewrite <- app_assoc. reflexivity.
Qed.
Lemma past_len before x : length (attend_past fq fk fv energy softmax before x) = length x.
Proof. revert before. induction x; intros; cbn; auto. Qed.
Lemma causal_row x junk : let row := x ++ junk in exists j, map (fun tx => dot_attention energy softmax (fst tx) (fq (snd tx)) (map fk row) (map fv row) (Some (fst tx + 1))) (combine (seq 0 (length row)) row) = attend_past fq fk fv energy softmax [] x ++ j.
Proof.
  intros row. unfold row at 3 4. rewrite app_length, seq_app, PadOpsProofs.combine_app', map_app by (rewrite seq_length; reflexivity). eexists. f_equal. apply (past_eq junk []).
Qed.
Lemma batch_rows a (rows xs : list (list X)) : batch_of a rows xs -> Forall2 (fun x row => exists junk, row = x ++ junk) xs rows.
Proof.
  destruct a as [n|lens]; cbn; intros H.
  - destruct H as [_ ->]. induction xs; constructor; [exists []; symmetry; apply app_nil_r|assumption].
  - destruct H as [_ H]. induction H as [|x row xs rows [Hj _] H IH]; constructor; auto.
Qed.
Lemma padded_map_frames {T U} (f : T -> U) xs lens rows : padded xs lens rows -> padded (map (map f) xs) lens (map (map f) rows).
Proof.
  intros [El H]. split; [rewrite map_map; rewrite El; apply map_ext; intros x; rewrite map_length; reflexivity|].
  clear El. induction H as [|x row xs rows [(j & Ej) Hl] H IH]; cbn [map]; constructor; auto. split; [exists (map f j); rewrite Ej, map_app; reflexivity|rewrite map_length; exact Hl].
Qed.
Lemma causal_sequence_ok a rows xs st : batch_of a rows xs -> match st with Some s => accum_axis s = Static 0 | None => True end ->
  exists out st', causal_sequence fq fk fv energy softmax a rows st = Ok (out, st') /\ results_for xs (attend_past fq fk fv energy softmax []) out /\ holds fk fv st' xs.
Proof.
  intros Hb Hst. unfold causal_sequence. assert (E : match st with Some s => match accum_axis s with Static 0 => false | _ => true end | None => false end = false) by (destruct st as [s|]; [rewrite Hst|]; reflexivity).
  rewrite E. eexists _, _. split; [reflexivity|]. split.
  - pose proof (batch_rows a rows xs Hb) as H. unfold results_for. clear Hb. induction H as [|x row xs rows (j & ->) H IH]; cbn [map]; constructor; [apply causal_row|exact IH].
  - unfold holds. cbn [accum_axis k_accum v_accum]. destruct a as [n|lens]; cbn in Hb.
    + destruct Hb as [Hl ->]. auto.
    + split; apply padded_map_frames; exact Hb.
Qed.

Lemma self_attention_ok a rows xs : batch_of a rows xs -> results_for xs (attend_all fq fk fv energy softmax) (self_attention fq fk fv energy softmax a rows).
Proof.
  intros Hb. pose proof (batch_rows a rows xs Hb) as HR. unfold results_for, self_attention.
  assert (Hlen : forall i x row, nth_error xs i = Some x -> nth_error rows i = Some row -> sizes_for_mask a i = None /\ row = x \/ sizes_for_mask a i = Some (length x)).
  { intros i x row Hx Hr. destruct a as [n|lens]; cbn in *; [left; split; [reflexivity|]; destruct Hb as [_ ->]; congruence|]. right. destruct Hb as [-> _]. rewrite nth_error_map, Hx. reflexivity. }
  clear Hb. assert (G : forall u, (forall i x row, nth_error xs i = Some x -> nth_error rows i = Some row -> sizes_for_mask a (u + i) = None /\ row = x \/ sizes_for_mask a (u + i) = Some (length x)) ->
    Forall2 (fun x o => exists junk, o = attend_all fq fk fv energy softmax x ++ junk) xs
      (map (fun br => map (fun tx => dot_attention energy softmax (fst tx) (fq (snd tx)) (map fk (snd br)) (map fv (snd br)) (sizes_for_mask a (fst br))) (combine (seq 0 (length (snd br))) (snd br))) (combine (seq u (length rows)) rows))); [|apply (G 0), Hlen].
  clear Hlen. induction HR as [|x row xs rows (j & Ej) HR IH]; intros u Hlen; [constructor|]. cbn [length seq combine map fst snd]. constructor.
  - specialize (Hlen 0 x row eq_refl eq_refl). rewrite Nat.add_0_r in Hlen. destruct Hlen as [[-> ->]| ->].
    + exists []. rewrite app_nil_r. apply map_ext. intros [t y]. cbn [fst snd]. apply dot_plain.
    + rewrite Ej. unfold attend_all. rewrite app_length, seq_app, PadOpsProofs.combine_app', map_app by (rewrite seq_length; reflexivity). eexists. f_equal. apply map_ext_in. intros [t y] Hin. cbn [fst snd].
      rewrite !map_app. apply dot_masked. apply in_combine_r in Hin. destruct x; [destruct Hin|discriminate].
  - apply IH. intros i x' row' Hx Hr. specialize (Hlen (S i) x' row' Hx Hr). rewrite Nat.add_succ_r in Hlen. exact Hlen.
Qed.

Definition next (xs : list (list X)) (ys : list X) : list (list X) := map (fun xy => fst xy ++ [snd xy]) (combine xs ys).
Lemma map_next {U} (f : X -> U) xs ys : map (map f) (next xs ys) = map (fun vx => snd vx ++ [fst vx]) (combine (map f ys) (map (map f) xs)).
Proof. unfold next. revert ys. induction xs as [|x xs IH]; intros [|y ys]; cbn [map combine]; try reflexivity. cbn [fst snd]. rewrite map_app, IH. reflexivity. Qed.
Lemma next_lens xs ys : length ys = length xs -> map (@length X) (next xs ys) = map (fun n => n + 1) (map (@length X) xs).
Proof. unfold next. revert ys. induction xs as [|x xs IH]; intros [|y ys] H; try discriminate; cbn [map combine fst snd]; [reflexivity|]. rewrite app_length, IH by (injection H; auto). reflexivity. Qed.
Lemma concat_static {U} (f : X -> U) n xs ys : length ys = length xs -> cum_concat (Static n) (map (map f) xs) (map f ys) = Ok (map (map f) (next xs ys)).
Proof.
  intros H. destruct ys as [|y ys]; [destruct xs; [reflexivity|discriminate]|]. rewrite map_next. cbn [cum_concat map]. reflexivity.
Qed.
Lemma concat_dynamic {U} (f : X -> U) lens xs ys rows : padded (map (map f) xs) lens rows -> length ys = length xs ->
  exists out, cum_concat (Dynamic lens) rows (map f ys) = Ok out /\ padded (map (map f) (next xs ys)) (map (fun n => n + 1) lens) out.
Proof.
  intros Hp H. destruct ys as [|y ys].
  - destruct xs; [|discriminate]. destruct Hp as [-> HF]. exists rows. split; [reflexivity|]. cbn in *. inversion HF. split; [reflexivity|constructor].
  - destruct (PadOpsProofs.pad_tensor_ok (f y) true (map f (y :: ys)) (map (map f) xs) lens rows Hp) as (ol & out & E & Hpo); [rewrite !map_length; exact H|reflexivity|].
    exists out. cbn [cum_concat map]. cbn [map] in E. rewrite E. cbn [bind]. split; [reflexivity|]. rewrite <- map_next in Hpo. assert (Eo : ol = map (fun n => n + 1) lens); [|rewrite <- Eo; exact Hpo].
    destruct Hpo as [-> _]. destruct Hp as [-> _]. rewrite !map_map. transitivity (map (@length X) (next xs (y :: ys))); [apply map_ext; intros; apply map_length|].
    rewrite next_lens by exact H. rewrite !map_map. apply map_ext. intros x. rewrite map_length. reflexivity.
Qed.
Lemma concat_rows {U} (f : X -> U) a xs ys rows : match a with Static n => Forall (fun x => length x = n) xs /\ rows = map (map f) xs | Dynamic lens => padded (map (map f) xs) lens rows end -> length ys = length xs ->
  exists out, cum_concat a rows (map f ys) = Ok out /\ match axis_plus_1 a with Static n => Forall (fun x => length x = n) (next xs ys) /\ out = map (map f) (next xs ys) | Dynamic lens => padded (map (map f) (next xs ys)) lens out end.
Proof.
  intros Hh H. destruct a as [n|lens]; cbn [axis_plus_1].
  - destruct Hh as [Hl ->]. eexists. split; [apply concat_static, H|]. split; [|reflexivity]. unfold next. clear H. revert ys. induction Hl as [|x xs Hx Hl IH]; intros [|y ys]; cbn; constructor; [rewrite app_length, Hx; reflexivity|apply IH].
  - apply concat_dynamic; assumption.
Qed.
Lemma next_nth xs ys b x y : nth_error xs b = Some x -> nth_error ys b = Some y -> nth_error (next xs ys) b = Some (x ++ [y]).
Proof. intros Hx Hy. unfold next. rewrite nth_error_map, PadOpsProofs.nth_error_combine, Hx, Hy. reflexivity. Qed.

Lemma map_seq_eq {A B} (f : nat * A -> B) (g : nat -> A -> B) u (l : list A) : (forall i x, nth_error l i = Some x -> f (u + i, x) = g (u + i) x) -> map f (combine (seq u (length l)) l) = map (fun ix => g (fst ix) (snd ix)) (combine (seq u (length l)) l).
Proof.
  revert u. induction l as [|x l IH]; intros u H; [reflexivity|]. cbn [length seq combine map fst snd]. f_equal; [specialize (H 0 x eq_refl); rewrite Nat.add_0_r in H; exact H|]. apply IH. intros i y Hi. specialize (H (S i) y Hi). rewrite Nat.add_succ_r in H. exact H.
Qed.
Lemma step_rows {A B C} (f : nat * A -> C) (g : B -> A -> C) (xs : list B) (ys : list A) : length ys = length xs ->
  (forall b x y, nth_error xs b = Some x -> nth_error ys b = Some y -> f (b, y) = g x y) -> map f (combine (seq 0 (length ys)) ys) = map (fun xy => g (fst xy) (snd xy)) (combine xs ys).
Proof.
  intros Hl H. assert (G : forall u, (forall b x y, nth_error xs b = Some x -> nth_error ys b = Some y -> f (u + b, y) = g x y) -> map f (combine (seq u (length ys)) ys) = map (fun xy => g (fst xy) (snd xy)) (combine xs ys)); [|apply (G 0), H].
  clear H. revert ys Hl. induction xs as [|x xs IH]; intros [|y ys] Hl u H; try discriminate; [reflexivity|]. cbn [length seq combine map fst snd]. f_equal; [rewrite <- (H 0 x y eq_refl eq_refl), Nat.add_0_r; reflexivity|].
  apply IH; [injection Hl; auto|]. intros b x' y' Hx Hy. rewrite <- (H (S b) x' y' Hx Hy), Nat.add_succ_r. reflexivity.
Qed.
Lemma holds_split st xs : holds fk fv st xs <->
  match accum_axis st with Static n => Forall (fun x => length x = n) xs /\ k_accum st = map (map fk) xs | Dynamic lens => padded (map (map fk) xs) lens (k_accum st) end /\
  match accum_axis st with Static n => Forall (fun x => length x = n) xs /\ v_accum st = map (map fv) xs | Dynamic lens => padded (map (map fv) xs) lens (v_accum st) end.
Proof. unfold holds. destruct (accum_axis st); tauto. Qed.
Lemma padded_row {T U} (f : T -> U) (xs : list (list T)) lens rows b x : padded (map (map f) xs) lens rows -> nth_error xs b = Some x ->
  exists j, nth b rows [] = map f x ++ j /\ nth_error lens b = Some (length x).
Proof.
  intros Hp Hx. assert (Hx' : nth_error (map (map f) xs) b = Some (map f x)) by (rewrite nth_error_map, Hx; reflexivity).
  destruct (PadOpsProofs.padded_len _ _ _ Hp) as [H1 H2]. destruct (nth_error rows b) as [row|] eqn:Er.
  2:{ apply nth_error_None in Er. assert (b < length (map (map f) xs)) by (apply nth_error_Some; congruence). lia. }
  destruct (PadOpsProofs.padded_nth _ _ _ _ _ _ Hp Hx' Er) as (En & (j & Ej) & _). exists j. rewrite (nth_error_nth _ _ [] Er). split; [exact Ej|]. rewrite En, map_length. reflexivity.
Qed.
Lemma causal_step_ok st xs ys : holds fk fv st xs -> length ys = length xs ->
  exists st', causal_step fq fk fv energy softmax ys st = Ok (map (fun xy => attend fq fk fv energy softmax (length (fst xy)) (snd xy) (fst xy ++ [snd xy])) (combine xs ys), st') /\ holds fk fv st' (next xs ys).
Proof.
  intros Hh Hl. apply holds_split in Hh as [Hk Hv]. unfold causal_step.
  destruct (concat_rows fk (accum_axis st) xs ys (k_accum st) Hk Hl) as (ks & Ek & Hks). destruct (concat_rows fv (accum_axis st) xs ys (v_accum st) Hv Hl) as (vs & Ev & Hvs). rewrite Ek, Ev. cbn [bind].
  eexists. split.
  - do 2 f_equal. apply (step_rows _ (fun x y => attend fq fk fv energy softmax (length x) y (x ++ [y]))); [exact Hl|]. intros b x y Hx Hy. cbn [fst snd]. pose proof (next_nth xs ys b x y Hx Hy) as Hn.
    destruct (axis_plus_1 (accum_axis st)) as [n|lens]; cbn [sizes_for_mask size_of].
    + destruct Hks as [Hln ->]. destruct Hvs as [_ ->]. rewrite Forall_forall in Hln. pose proof (Hln _ (nth_error_In _ _ Hn)) as E. rewrite app_length in E. cbn in E.
      rewrite (nth_error_nth (map (map fk) (next xs ys)) b [] (x := map fk (x ++ [y]))) by (rewrite nth_error_map, Hn; reflexivity). rewrite (nth_error_nth (map (map fv) (next xs ys)) b [] (x := map fv (x ++ [y]))) by (rewrite nth_error_map, Hn; reflexivity).
      replace (n - 1) with (length x) by lia. apply dot_plain.
    + destruct (padded_row fk (next xs ys) lens ks b (x ++ [y]) Hks Hn) as (jk & -> & El). destruct (padded_row fv (next xs ys) lens vs b (x ++ [y]) Hvs Hn) as (jv & -> & _).
      rewrite El. rewrite (nth_error_nth _ _ 0 El). rewrite app_length. cbn [length]. replace (length x + 1 - 1) with (length x) by lia.
      replace (length x + 1) with (length (x ++ [y])) by (rewrite app_length; reflexivity). apply dot_masked. destruct x; discriminate.
  - apply holds_split. cbn [accum_axis k_accum v_accum]. split; assumption.
Qed.

Lemma steps_head {T} (zs : list T) steps ys : steps_of (zs :: steps) ys -> exists ys', ys = map (fun zy => fst zy :: snd zy) (combine zs ys') /\ length ys' = length zs /\ length ys = length zs /\ steps_of steps ys'.
Proof.
  intros [Hl Hn]. pose proof (Hn 0 zs eq_refl) as H0. cbn [length] in Hl.
  assert (Hrest : forall i xs, nth_error steps i = Some xs -> Forall2 (fun y x => nth_error y (S i) = Some x) ys xs) by (intros i xs Hi; apply (Hn (S i)), Hi). clear Hn.
  exists (map (@tl T) ys). pose proof (Forall2_len _ _ _ H0) as Hlen. split; [|split; [rewrite map_length; exact Hlen|split; [exact Hlen|split]]].
  - clear Hrest Hl Hlen. induction H0 as [|y z ys zs Hy H0 IH]; [reflexivity|]. cbn [map combine fst snd]. rewrite <- IH. destruct y; [discriminate|]. injection Hy as ->. reflexivity.
  - rewrite Forall_map. eapply Forall_impl; [|exact Hl]. intros y Hy. destruct y; cbn in *; lia.
  - intros i xs Hi. specialize (Hrest i xs Hi). clear - Hrest. induction Hrest as [|y x ys xs Hy H IH]; cbn [map]; constructor; [destruct y; [discriminate|exact Hy]|exact IH].
Qed.
Lemma steps_cons {T} (zs : list T) steps ys : steps_of steps ys -> length zs = length ys -> steps_of (zs :: steps) (map (fun zy => fst zy :: snd zy) (combine zs ys)).
Proof.
  intros [Hl Hn] Hlen. split.
  - cbn [length]. clear Hn. revert zs Hlen. induction Hl as [|y ys Hy Hl IH]; intros [|z zs] Hlen; try discriminate; [cbn; constructor|]; cbn [combine map]; constructor; [cbn; rewrite Hy; reflexivity|apply IH; injection Hlen; auto].
  - intros [|i] xs Hi.
    + injection Hi as <-. clear Hl Hn. revert ys Hlen. induction zs as [|z zs IH]; intros [|y ys] Hlen; try discriminate; [cbn; constructor|]; cbn [combine map]; constructor; [reflexivity|apply IH; injection Hlen; auto].
    + cbn in Hi. specialize (Hn i xs Hi). clear - Hn Hlen. revert zs Hlen. induction Hn as [|y x ys xs Hy H IH]; intros [|z zs] Hlen; try discriminate; [cbn; constructor|]; cbn [combine map]; constructor; [exact Hy|apply IH; injection Hlen; auto].
Qed.
Lemma causal_steps_ok steps : forall st xs ys, holds fk fv st xs -> steps_of steps ys -> length ys = length xs ->
  exists os st', causal_steps fq fk fv energy softmax steps st = Ok (os, st') /\ length os = length steps /\
    steps_of os (map (fun xy => attend_past fq fk fv energy softmax (fst xy) (snd xy)) (combine xs ys)) /\ holds fk fv st' (map (fun xy => fst xy ++ snd xy) (combine xs ys)).
Proof.
  induction steps as [|zs steps IH]; intros st xs ys Hh Hs Hl; cbn [causal_steps].
  - exists [], st. split; [reflexivity|]. split; [reflexivity|]. destruct Hs as [Hs _]. split.
    + split; [|intros [|i] ? Hi; discriminate]. apply Forall_map, Forall_forall. intros [x y] Hxy. cbn [fst snd]. rewrite past_len. rewrite Forall_forall in Hs. apply Hs. eapply in_combine_r, Hxy.
    + assert (E : map (fun xy => fst xy ++ snd xy) (combine xs ys) = xs); [|rewrite E; exact Hh]. clear - Hs Hl. revert ys Hs Hl. induction xs as [|x xs IH]; intros [|y ys] Hs Hl; try discriminate; [reflexivity|]. cbn [combine map fst snd].
      inversion Hs as [|? ? Hy Hs']; subst. destruct y; [|discriminate]. rewrite app_nil_r. f_equal. apply IH; [exact Hs'|injection Hl; auto].
  - destruct (steps_head zs steps ys Hs) as (ys' & Ey & Hl1 & Hl2 & Hs'). assert (Hz : length zs = length xs) by lia.
    destruct (causal_step_ok st xs zs Hh Hz) as (st1 & E1 & Hh1). rewrite E1. cbn [bind].
    destruct (IH st1 (next xs zs) ys' Hh1 Hs') as (os & st2 & E2 & Hlo & Ho & Hh2); [unfold next; rewrite map_length, combine_length; lia|]. rewrite E2. cbn [bind]. eexists _, _. split; [reflexivity|]. split; [cbn; lia|]. split.
    + set (out := map _ (combine xs zs)). assert (Elen : length out = length (map (fun xy => attend_past fq fk fv energy softmax (fst xy) (snd xy)) (combine (next xs zs) ys'))) by (unfold out, next; rewrite !map_length, combine_length, combine_length, map_length, combine_length; lia).
      pose proof (steps_cons out os _ Ho Elen) as HH. match goal with HH : steps_of _ ?l |- steps_of _ ?r => assert (El : l = r) end; [|rewrite <- El; exact HH].
      subst ys. unfold out, next. clear - Hz Hl1. revert zs ys' Hz Hl1. induction xs as [|x xs IH]; intros [|z zs] [|y ys'] Hz Hl1; try discriminate; [reflexivity|]. cbn [combine map fst snd attend_past]. f_equal. apply IH; [injection Hz; auto|injection Hl1; auto].
    + assert (El : map (fun xy => fst xy ++ snd xy) (combine (next xs zs) ys') = map (fun xy => fst xy ++ snd xy) (combine xs ys)); [|rewrite <- El; exact Hh2].
      subst ys. unfold next. clear - Hz Hl1. revert zs ys' Hz Hl1. induction xs as [|x xs IH]; intros [|z zs] [|y ys'] Hz Hl1; try discriminate; [reflexivity|]. cbn [combine map fst snd]. rewrite <- app_assoc. cbn [app]. f_equal. apply IH; [injection Hz; auto|injection Hl1; auto].
Qed.
Lemma initial_holds (xs : list (list X)) nb : xs = repeat [] nb -> holds fk fv (initial_state nb) xs.
Proof.
  intros ->. unfold holds. cbn. split; [apply Forall_forall; intros x Hx; apply repeat_spec in Hx; subst; reflexivity|]. split; induction nb; cbn; congruence.
Qed.
Lemma attend_past_app before x y : attend_past fq fk fv energy softmax before (x ++ y) = attend_past fq fk fv energy softmax before x ++ attend_past fq fk fv energy softmax (before ++ x) y.
Proof. revert before. induction x as [|z x IH]; intros before; cbn [app attend_past]; [rewrite app_nil_r; reflexivity|]. f_equal. rewrite IH, <- app_assoc. reflexivity. Qed.
End Attention.

Section Rope.
Context {R : Type}.
Variables (zero one : R) (add mul sub : R -> R -> R) (opp : R -> R).
Hypothesis Hring : ring_theory zero one add mul sub opp eq.
Add Ring Rr : Hring.

Definition rope_from (x : list R) (imag real : list R) : list R :=
  flat_map (fun '((xr, xi), (pi, pr)) => [sub (mul xr pr) (mul xi pi); add (mul xr pi) (mul xi pr)]) (combine (pairs x) (combine imag real)).
Lemma halves_encoding (sin cos : nat -> nat -> R) half i : halves (encoding sin cos half i) = (map (sin i) (seq 0 half), map (cos i) (seq 0 half)).
Proof.
  unfold halves, encoding. rewrite app_length, !map_length, seq_length. replace ((half + half) / 2) with half by (replace (half + half) with (half * 2) by lia; rewrite Nat.div_mul; lia).
  assert (E : length (map (sin i) (seq 0 half)) = half) by (rewrite map_length, seq_length; reflexivity). rewrite <- E at 1 4.
  rewrite firstn_app, firstn_all, Nat.sub_diag, firstn_O, app_nil_r, skipn_app, skipn_all, Nat.sub_diag. reflexivity.
Qed.
Lemma rope_dot (sin cos : nat -> nat -> R) (dsin dcos : Z -> nat -> R) half i j n : forall f q k, angles add mul sub half sin cos dsin dcos -> length q = 2 * n -> length k = 2 * n -> f + n <= half ->
  dot zero add mul (rope_from q (map (sin i) (seq f n)) (map (cos i) (seq f n))) (rope_from k (map (sin j) (seq f n)) (map (cos j) (seq f n))) =
  relative_energy zero add mul sub (dsin (Z.of_nat i - Z.of_nat j)%Z) (dcos (Z.of_nat i - Z.of_nat j)%Z) f q k.
Proof.
  induction n as [|n IH]; intros f q k Ha Hq Hk Hf.
  - destruct q; [|discriminate]. destruct k; [|discriminate]. reflexivity.
  - destruct q as [|qr [|qi q]]; [discriminate|cbn in Hq; lia|]. destruct k as [|kr [|ki k]]; [discriminate|cbn in Hk; lia|].
    assert (Hq' : length q = 2 * n) by (cbn in Hq; lia). assert (Hk' : length k = 2 * n) by (cbn in Hk; lia).
    specialize (IH (S f) q k Ha Hq' Hk' ltac:(lia)). unfold rope_from in *. cbn [pairs seq map combine flat_map app]. unfold dot in *. cbn [combine map fst snd fold_right relative_energy]. rewrite IH.
    destruct (Ha i j f ltac:(lia)) as [H1 H2]. rewrite <- H1, <- H2. ring.
Qed.
Lemma apply_rope_eq (sin cos : nat -> nat -> R) half i x : apply_rope add mul sub x (encoding sin cos half i) = rope_from x (map (sin i) (seq 0 half)) (map (cos i) (seq 0 half)).
Proof. unfold apply_rope. rewrite halves_encoding. reflexivity. Qed.
Lemma rope_energy sin cos dsin dcos half i j q k : angles add mul sub half sin cos dsin dcos -> length q = 2 * half -> length k = 2 * half ->
  dot zero add mul (apply_rope add mul sub q (encoding sin cos half i)) (apply_rope add mul sub k (encoding sin cos half j)) =
  relative_energy zero add mul sub (dsin (Z.of_nat i - Z.of_nat j)%Z) (dcos (Z.of_nat i - Z.of_nat j)%Z) 0 q k.
Proof. intros Ha Hq Hk. rewrite !apply_rope_eq. apply (rope_dot sin cos dsin dcos half i j half 0 q k Ha Hq Hk). lia. Qed.
Lemma relative_zero dsin dcos n : forall f q k, length q = 2 * n -> length k = 2 * n -> (forall g, f <= g -> g < f + n -> dsin g = zero /\ dcos g = one) ->
  relative_energy zero add mul sub dsin dcos f q k = dot zero add mul q k.
Proof.
  induction n as [|n IH]; intros f q k Hq Hk H.
  - destruct q; [|discriminate]. reflexivity.
  - destruct q as [|qr [|qi q]]; [discriminate|cbn in Hq; lia|]. destruct k as [|kr [|ki k]]; [discriminate|cbn in Hk; lia|]. unfold dot. cbn [combine map fst snd fold_right relative_energy].
    fold (dot zero add mul q k). rewrite (IH (S f) q k); [|cbn in Hq; lia|cbn in Hk; lia|intros g H1 H2; apply H; lia]. destruct (H f (Nat.le_refl f) ltac:(lia)) as [-> ->]. ring.
Qed.
Lemma rope_len sin cos half i x : length x = 2 * half -> length (apply_rope add mul sub x (encoding sin cos half i)) = length x.
Proof.
  intros Hx. rewrite apply_rope_eq. generalize 0 as f. revert x Hx. induction half as [|n IH]; intros x Hx f.
  - destruct x; [reflexivity|discriminate].
  - destruct x as [|xr [|xi x]]; [discriminate|cbn in Hx; lia|]. unfold rope_from. cbn [pairs seq map combine flat_map app length]. f_equal. f_equal. apply (IH x ltac:(cbn in Hx; lia) (S f)).
Qed.
End Rope.
