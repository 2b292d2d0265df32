(** Proofs for C67 and C68. *)
From Coq Require Import String QArith Sorted.
From Verif Require Import Base PyDict PySort PySortProofs ListLemmas PostprocModel PostprocSpec.
Local Open Scope string_scope.
Local Open Scope nat_scope.
Local Open Scope list_scope.
Local Notation length := List.length.

Section Iter.
Context {A : Type}.
Notation tdict := (tdict A).
Notation iterator := (iterator A).

Lemma state_after_S {D} (nx : iterator D) j d : state_after nx (S j) d = state_after nx j (fst (nx d)).
Proof. unfold state_after. induction j as [|j IH]; [reflexivity|]. cbn [Nat.iter nat_rect] in *. now rewrite IH. Qed.
Lemma result_S {D} (nx : iterator D) j d : result_of nx d (S j) = result_of nx (fst (nx d)) j.
Proof. unfold result_of. now rewrite state_after_S. Qed.

Lemma yields_cons {D} (nx : iterator D) d x xs : yields nx d (x :: xs) -> exists d', nx d = (d', Yield x) /\ yields nx d' xs.
Proof.
  intros H. pose proof (H 0) as H0. cbn in H0. unfold result_of, state_after in H0. cbn in H0. destruct (nx d) as [d' o] eqn:E. cbn in H0. subst o.
  exists d'. split; [reflexivity|]. intros j. specialize (H (S j)). rewrite result_S, E in H. exact H.
Qed.
Lemma yields_nil {D} (nx : iterator D) d : yields nx d [] -> exists d', nx d = (d', Stop) /\ yields nx d' [].
Proof.
  intros H. pose proof (H 0) as H0. cbn in H0. unfold result_of, state_after in H0. cbn in H0. destruct (nx d) as [d' o] eqn:E. cbn in H0. subst o.
  exists d'. split; [reflexivity|]. intros j. specialize (H (S j)). rewrite result_S, E in H. destruct j; exact H.
Qed.
Lemma yields_inv {D} (nx : iterator D) (I : D -> list tdict -> Prop) :
  (forall d x xs, I d (x :: xs) -> exists d', nx d = (d', Yield x) /\ I d' xs) ->
  (forall d, I d [] -> exists d', nx d = (d', Stop) /\ I d' []) -> forall d xs, I d xs -> yields nx d xs.
Proof.
  intros H1 H2 d xs HI j. revert d xs HI. induction j as [|j IH]; intros d xs HI.
  - destruct xs as [|x xs].
    + destruct (H2 _ HI) as (d'&E&_). unfold result_of, state_after. cbn. now rewrite E.
    + destruct (H1 _ _ _ HI) as (d'&E&_). unfold result_of, state_after. cbn. now rewrite E.
  - rewrite result_S. destruct xs as [|x xs].
    + destruct (H2 _ HI) as (d'&E&HI'). rewrite E. cbn [fst]. rewrite (IH _ _ HI'). now destruct j.
    + destruct (H1 _ _ _ HI) as (d'&E&HI'). rewrite E. cbn [fst]. now rewrite (IH _ _ HI').
Qed.
Lemma yields_fun {D} (nx : iterator D) d xs ys : yields nx d xs -> yields nx d ys -> xs = ys.
Proof.
  intros H1 H2. apply nth_error_ext. intros i. specialize (H1 i). specialize (H2 i). rewrite H1 in H2.
  destruct (nth_error xs i), (nth_error ys i); congruence.
Qed.

(* ---------- Sequential ---------- *)
Lemma identity_computes : computes (@identity_mapper A) (fun xs ys => ys = xs).
Proof.
  intros D nx d xs ys H ->. apply (yields_inv _ (fun (s : unit * D) l => yields nx (snd s) l)); [| |exact H].
  - intros [[] d0] x l Hl. apply yields_cons in Hl. destruct Hl as (d'&E&Hl). exists (tt, d'). cbn in *. rewrite E. auto.
  - intros [[] d0] Hl. apply yields_nil in Hl. destruct Hl as (d'&E&Hl). exists (tt, d'). cbn in *. rewrite E. auto.
Qed.
Lemma then_computes (f g : mapper A) F G : computes f F -> computes g G -> computes (then_mapper f g) (fun xs ys => exists zs, F xs zs /\ G zs ys).
Proof.
  intros Hf Hg D nx d xs ys H (zs&HF&HG). pose proof (Hg _ _ _ _ ys (Hf D nx d xs zs H HF) HG) as Hy.
  apply (yields_inv _ (fun (s : (m_state g * m_state f) * D) l => yields (m_next g _ (m_next f D nx)) (fst (fst s), (snd (fst s), snd s)) l)); [| |exact Hy].
  - intros [[sg sf] d0] x l Hl. apply yields_cons in Hl. destruct Hl as ([sg' [sf' d']]&E&Hl). exists ((sg', sf'), d'). cbn in *. rewrite E. auto.
  - intros [[sg sf] d0] Hl. apply yields_nil in Hl. destruct Hl as ([sg' [sf' d']]&E&Hl). exists ((sg', sf'), d'). cbn in *. rewrite E. auto.
Qed.
Lemma computes_ext (f : mapper A) (F G : list tdict -> list tdict -> Prop) : (forall xs ys, G xs ys -> F xs ys) -> computes f F -> computes f G.
Proof. intros H Hf D nx d xs ys Hy Hg. exact (Hf D nx d xs ys Hy (H _ _ Hg)). Qed.
Lemma fold_computes (fs : list (mapper A)) Fs : Forall2 computes fs Fs -> forall f0 (F0 : list tdict -> list tdict -> Prop), computes f0 F0 ->
  computes (fold_left then_mapper fs f0) (fun xs ys => exists zs, F0 xs zs /\ in_sequence Fs zs ys).
Proof.
  induction 1 as [|f F fs Fs Hf _ IH]; intros f0 F0 H0; cbn [fold_left in_sequence].
  - apply (computes_ext _ F0); [|exact H0]. intros xs ys (zs&Hxy&->). exact Hxy.
  - eapply computes_ext; [|apply IH, then_computes; [exact H0|exact Hf]]. intros xs ys (us&H1&zs&H2&H3). exists zs. eauto.
Qed.
Lemma sequential_computes (fs : list (mapper A)) Fs : Forall2 computes fs Fs -> computes (sequential fs) (in_sequence Fs).
Proof.
  intros H. pose proof (fold_computes fs Fs H _ _ identity_computes) as HC.
  intros D nx d xs ys Hy Hs. apply (HC D nx d xs ys Hy). eauto.
Qed.

(* ---------- LaplaceOrdering ---------- *)
Section Lap.
Context (n : nat) (seq_len : @dict string A -> res nat).
Hypothesis Hn : 0 < n.
Local Notation len_of := (len_of seq_len).
Local Notation usable := (usable seq_len).
Definition ckey (down : bool) (c : @dict string A * option string) : Z := if down then (- Z.of_nat (len_of (fst c)))%Z else Z.of_nat (len_of (fst c)).

Lemma with_fracs (l : list tdict) : forall fs, length l = length fs ->
  map t_frac (map (fun tf => with_frac (fst tf) (snd tf)) (combine l fs)) = map Some fs
  /\ map content (map (fun tf => with_frac (fst tf) (snd tf)) (combine l fs)) = map content l.
Proof.
  induction l as [|t l IH]; intros [|f fs] Hl; cbn in Hl; try discriminate; [split; reflexivity|]. injection Hl as Hl.
  destruct (IH fs Hl) as [E1 E2]. cbn [combine map fst snd]. rewrite E1, E2. split; reflexivity.
Qed.
Lemma sort_buffer_ok buf down : Forall usable buf -> exists out, sort_buffer seq_len buf down = Ok out
  /\ map t_frac out = map t_frac buf /\ stably_sorted (ckey down) (map content buf) (map content out).
Proof.
  intros HU. unfold sort_buffer.
  assert (E1 : exists fs, mapM (fun t => match t_frac t with Some f => Ok f | None => Err KeyError end) buf = Ok fs /\ map Some fs = map t_frac buf).
  { induction HU as [|t buf [H1 _] _ IH]; [exists []; split; reflexivity|]. destruct IH as (fs&E&Em). cbn [mapM]. destruct (t_frac t) as [f|] eqn:Ef; [|congruence].
    cbn [bind]. rewrite E. exists (f :: fs). split; [reflexivity|]. cbn [map]. now rewrite Em, Ef. }
  assert (E2 : mapM (fun t => seq_len (t_data t)) buf = Ok (map (fun t => len_of (t_data t)) buf)).
  { clear E1. induction HU as [|t buf [_ H2] _ IH]; [reflexivity|]. cbn [mapM map]. unfold len_of at 1. destruct (seq_len (t_data t)); [|discriminate]. cbn [bind]. now rewrite IH. }
  destruct E1 as (fs&E1&Ef). rewrite E1, E2. cbn [bind]. eexists. split; [reflexivity|].
  assert (EC : combine buf (map (fun t => len_of (t_data t)) buf) = map (fun t => (t, len_of (t_data t))) buf).
  { clear. induction buf as [|t buf IH]; [reflexivity|]. cbn. now rewrite IH. }
  rewrite EC.
  assert (Lf : length fs = length buf) by (rewrite <- (map_length Some fs), Ef, map_length; reflexivity).
  set (key := fun tl : tdict * nat => if down then (- Z.of_nat (snd tl))%Z else Z.of_nat (snd tl)).
  set (key' := fun t : tdict => key (t, len_of (t_data t))).
  assert (ES : map fst (stable_sort_by key (map (fun t => (t, len_of (t_data t))) buf)) = stable_sort_by key' buf).
  { rewrite (stable_sort_map key (fun t => (t, len_of (t_data t))) buf), map_map. cbn [fst]. apply map_id. }
  rewrite ES. clear ES.
  assert (Ls : length (stable_sort_by key' buf) = length fs) by (rewrite Lf; apply Permutation_length, stable_sort_perm).
  destruct (with_fracs (stable_sort_by key' buf) fs Ls) as [W1 W2]. rewrite W1, W2. split; [exact Ef|].
  assert (EK : stable_sort_by (ckey down) (map content buf) = map content (stable_sort_by key' buf)) by (rewrite stable_sort_map; reflexivity).
  rewrite <- EK. apply stable_sort_spec.
Qed.
Definition sorted (down : bool) (buf : list tdict) : list tdict := match sort_buffer seq_len buf down with Ok l => l | Err _ => [] end.
Lemma sorted_ok buf down : Forall usable buf -> sort_buffer seq_len buf down = Ok (sorted down buf)
  /\ map t_frac (sorted down buf) = map t_frac buf /\ stably_sorted (ckey down) (map content buf) (map content (sorted down buf)).
Proof. intros HU. destruct (sort_buffer_ok buf down HU) as (out&E&H). unfold sorted. rewrite E. auto. Qed.
Lemma sorted_len buf down : Forall usable buf -> length (sorted down buf) = length buf.
Proof. intros HU. destruct (sorted_ok buf down HU) as (_&E&_). apply (f_equal (@length _)) in E. now rewrite !map_length in E. Qed.

(** the output for the items [xs] *)
Fixpoint bins_of (fuel : nat) (down : bool) (xs : list tdict) : list tdict :=
  match fuel with
  | 0 => []
  | S fuel' => match xs with [] => [] | _ => sorted down (firstn n xs) ++ bins_of fuel' (negb down) (skipn n xs) end
  end.
Definition lap (down : bool) (xs : list tdict) : list tdict := bins_of (length xs) down xs.
Lemma bins_of_fuel : forall f1 f2 down xs, length xs <= f1 -> length xs <= f2 -> bins_of f1 down xs = bins_of f2 down xs.
Proof.
  induction f1 as [|f1 IH]; intros [|f2] down xs H1 H2; try reflexivity.
  - destruct xs; [reflexivity|cbn in H1; lia].
  - destruct xs; [reflexivity|cbn in H2; lia].
  - cbn [bins_of]. destruct xs as [|x xs]; [reflexivity|]. f_equal. apply IH; rewrite skipn_length; cbn [length] in *; lia.
Qed.
Lemma lap_unfold down xs : xs <> [] -> lap down xs = sorted down (firstn n xs) ++ lap (negb down) (skipn n xs).
Proof.
  intros Hne. unfold lap. destruct xs as [|x xs]; [congruence|]. cbn [length bins_of]. f_equal. apply bins_of_fuel; rewrite ?skipn_length; cbn [length]; lia.
Qed.

(** the state of the generator gives the rest [ys] *)
Inductive linv {D} (nx : iterator D) : laplace A * D -> list tdict -> Prop :=
| linv_done d : linv nx (LDone, d) []
| linv_yield todo size nb (ended : bool) down d rest :
    yields nx d rest -> Forall usable (nb ++ rest) -> size <= n -> (size < n -> nb = [] /\ rest = []) ->
    (if ended then rest = [] /\ length nb + length todo + 1 <= size else length nb + length todo + 1 = size) ->
    linv nx (LYield todo size nb ended down, d) (todo ++ lap (negb down) (nb ++ rest)).

Lemma start_bin_spec buf ended down : Forall usable buf -> buf <> [] ->
  exists t todo, sorted down buf = t :: todo /\ start_bin seq_len buf ended down = (LYield todo (length buf) [] ended down, Yield t).
Proof.
  intros HU Hne. unfold start_bin. destruct (sorted_ok buf down HU) as (E&_). rewrite E. pose proof (sorted_len buf down HU) as L.
  destruct (sorted down buf) as [|t todo]; [destruct buf; [congruence|discriminate]|]. eauto.
Qed.

(** one call from the state at a [yield], when the pull gave [nb], [ended] and [d] *)
Lemma go_on_spec {D} (nx : iterator D) todo size nb (ended : bool) down d rest :
  yields nx d rest -> Forall usable (nb ++ rest) -> size <= n -> (size < n -> nb = [] /\ rest = [] /\ ended = true) ->
  (if ended then rest = [] /\ length nb + length todo < size else length nb + length todo = size) ->
  match todo ++ lap (negb down) (nb ++ rest) with
  | [] => exists s, go_on seq_len n todo size nb ended down = (s, Stop) /\ linv nx (s, d) []
  | y :: ys => exists s, go_on seq_len n todo size nb ended down = (s, Yield y) /\ linv nx (s, d) ys
  end.
Proof.
  intros HY HU Hs Hsm HL. destruct todo as [|t todo]; cbn [app].
  - unfold go_on. destruct (Nat.ltb_spec size n) as [Hlt|Hge].
    + destruct (Hsm Hlt) as (->&->&->). cbn. eexists. split; [reflexivity|constructor].
    + destruct nb as [|b nb].
      * assert (Ee : ended = true /\ rest = []). { destruct ended; [split; [reflexivity|tauto]|]. cbn in HL. lia. }
        destruct Ee as [-> ->]. cbn. eexists. split; [reflexivity|constructor].
      * set (buf := b :: nb) in *.
        assert (Hle : length buf <= n /\ (length buf < n -> rest = [])). { destruct ended; cbn [length] in *; [split; [|tauto]|]; lia. }
        destruct Hle as [Hle Hlt]. rewrite lap_unfold by (unfold buf; discriminate).
        assert (EF : firstn n (buf ++ rest) = buf /\ skipn n (buf ++ rest) = rest).
        { destruct (Nat.eq_dec (length buf) n) as [E|E].
          - rewrite <- E, firstn_app, skipn_app, Nat.sub_diag, firstn_all, skipn_all. cbn. now rewrite app_nil_r.
          - rewrite Hlt by lia. rewrite app_nil_r. split; [apply firstn_all2; lia|apply skipn_all2; lia]. }
        destruct EF as [-> ->]. apply Forall_app in HU. destruct HU as [HUb HUr].
        destruct (start_bin_spec buf ended (negb down) HUb ltac:(unfold buf; discriminate)) as (t&todo&Es&Eb). rewrite Es. cbn [app].
        eexists. split; [exact Eb|]. pose proof (sorted_len buf (negb down) HUb) as L. rewrite Es in L. cbn [length] in L.
        refine (linv_yield nx todo (length buf) [] ended (negb down) d rest HY HUr Hle (fun X => conj eq_refl (Hlt X)) _).
        destruct ended; cbn [length]; [split; [tauto|]|]; lia.
  - cbn [go_on]. eexists. split; [reflexivity|]. refine (linv_yield nx todo size nb ended down d rest HY HU Hs _ _).
    + intros X. destruct (Hsm X) as (->&->&_). auto.
    + destruct ended; cbn [length] in HL; [split; [tauto|]|]; lia.
Qed.
Lemma laplace_step {D} (nx : iterator D) s ys : linv nx s ys ->
  match ys with
  | [] => exists s', laplace_next n seq_len D nx s = (s', Stop) /\ linv nx s' []
  | y :: ys' => exists s', laplace_next n seq_len D nx s = (s', Yield y) /\ linv nx s' ys'
  end.
Proof.
  intros HI. destruct HI as [d|todo size nb ended down d rest HY HU Hs Hsm HL].
  - cbn. eexists. split; [reflexivity|constructor].
  - cbn [laplace_next]. destruct ended.
    + destruct HL as [-> HL].
      pose proof (go_on_spec nx todo size nb true down d [] HY HU Hs (fun X => conj (proj1 (Hsm X)) (conj eq_refl eq_refl)) ltac:(cbn beta iota; split; [reflexivity|lia])) as G.
      destruct (todo ++ lap (negb down) (nb ++ [])); destruct G as (s'&E&G); rewrite E; eauto.
    + destruct rest as [|x rest].
      * apply yields_nil in HY. destruct HY as (d'&Ed&HY). rewrite Ed.
        pose proof (go_on_spec nx todo size nb true down d' [] HY HU Hs (fun X => conj (proj1 (Hsm X)) (conj eq_refl eq_refl)) ltac:(cbn beta iota; split; [reflexivity|lia])) as G.
        destruct (todo ++ lap (negb down) (nb ++ [])); destruct G as (s'&E&G); rewrite E; eauto.
      * apply yields_cons in HY. destruct HY as (d'&Ed&HY). rewrite Ed.
        assert (EA : nb ++ x :: rest = (nb ++ [x]) ++ rest) by (now rewrite <- app_assoc). rewrite EA in HU |- *.
        pose proof (go_on_spec nx todo size (nb ++ [x]) false down d' rest HY HU Hs) as G. 
        assert (H1 : size < n -> nb ++ [x] = [] /\ rest = [] /\ false = true) by (intros X; destruct (Hsm X) as [_ Y]; discriminate).
        assert (H2 : length (nb ++ [x]) + length todo = size) by (rewrite app_length; cbn; lia).
        specialize (G H1 H2). destruct (todo ++ lap (negb down) ((nb ++ [x]) ++ rest)); destruct G as (s'&E&G); rewrite E; eauto.
Qed.
Lemma linv_yields {D} (nx : iterator D) s ys : linv nx s ys -> yields (laplace_next n seq_len D nx) s ys.
Proof.
  apply yields_inv.
  - intros d x xs HI. exact (laplace_step nx d (x :: xs) HI).
  - intros d HI. exact (laplace_step nx d [] HI).
Qed.
Lemma islice_spec {D} (nx : iterator D) : forall k d xs, yields nx d xs ->
  exists d', islice nx k d = (d', Ok (firstn k xs)) /\ yields nx d' (skipn k xs).
Proof.
  induction k as [|k IH]; intros d xs H; [exists d; split; [reflexivity|exact H]|]. cbn [islice]. destruct xs as [|x xs].
  - apply yields_nil in H. destruct H as (d'&E&H). rewrite E. exists d'. split; [reflexivity|exact H].
  - apply yields_cons in H. destruct H as (d'&E&H). rewrite E. destruct (IH _ _ H) as (d''&E'&H'). rewrite E'. exists d''. split; [reflexivity|exact H'].
Qed.
Lemma laplace_first {D} (nx : iterator D) d xs : yields nx d xs -> Forall usable xs -> xs <> [] ->
  exists y ys s, lap false xs = y :: ys /\ laplace_next n seq_len D nx (LInit, d) = (s, Yield y) /\ linv nx s ys.
Proof.
  intros HY HU Hne. cbn [laplace_next]. destruct (islice_spec nx n d xs HY) as (d'&E&HY'). rewrite E. rewrite lap_unfold by exact Hne.
  rewrite <- (firstn_skipn n xs) in HU. apply Forall_app in HU. destruct HU as [HU1 HU2].
  assert (Hne' : firstn n xs <> []) by (destruct n, xs; [lia|lia|congruence|discriminate]).
  destruct (start_bin_spec (firstn n xs) false false HU1 Hne') as (t&todo&Es&Eb). rewrite Eb, Es.
  eexists _, _, _. split; [reflexivity|split; [reflexivity|]]. pose proof (sorted_len _ false HU1) as L. rewrite Es in L. cbn [length] in L.
  refine (linv_yield nx todo _ [] false false d' (skipn n xs) HY' HU2 _ _ _).
  - rewrite firstn_length. lia.
  - rewrite firstn_length. intros Hl. split; [reflexivity|]. apply skipn_all2. lia.
  - cbn [length]. lia.
Qed.
Lemma laplace_yields {D} (nx : iterator D) d xs : yields nx d xs -> Forall usable xs -> xs <> [] -> yields (laplace_next n seq_len D nx) (LInit, d) (lap false xs).
Proof.
  intros HY HU Hne. destruct (laplace_first nx d xs HY HU Hne) as (y&ys&s&E&E1&HI). rewrite E. intros j. destruct j as [|j].
  - unfold result_of, state_after. cbn [Nat.iter nat_rect]. now rewrite E1.
  - rewrite result_S, E1. cbn [fst nth_error]. exact (linv_yields nx s ys HI j).
Qed.
Lemma laplace_empty {D} (nx : iterator D) d : yields nx d [] -> snd (laplace_next n seq_len D nx (LInit, d)) = Raise AssertionError.
Proof. intros H. cbn [laplace_next]. destruct (islice_spec nx n d [] H) as (d'&E&_). rewrite E, firstn_nil. reflexivity. Qed.

(** *** what the output is *)
Lemma bin_0 {X} (l1 l2 : list X) : length l1 <= n -> (length l1 < n -> l2 = []) -> bin n (l1 ++ l2) 0 = l1.
Proof.
  intros H1 H2. unfold bin. cbn [Nat.mul skipn]. destruct (Nat.eq_dec (length l1) n) as [E|E].
  - rewrite <- E, firstn_app, Nat.sub_diag, firstn_all. cbn. now rewrite app_nil_r.
  - rewrite H2 by lia. rewrite app_nil_r. apply firstn_all2. lia.
Qed.
Lemma bin_S {X} (l1 l2 : list X) b : length l1 <= n -> (length l1 < n -> l2 = []) -> bin n (l1 ++ l2) (S b) = bin n l2 b.
Proof.
  intros H1 H2. unfold bin. f_equal. destruct (Nat.eq_dec (length l1) n) as [E|E].
  - rewrite skipn_app. replace (S b * n - length l1) with (b * n) by lia. rewrite (skipn_all2 l1) by lia. reflexivity.
  - rewrite H2 by lia. rewrite app_nil_r, skipn_nil. apply skipn_all2. lia.
Qed.
Lemma bin_nil {X} b : bin n (@nil X) b = [].
Proof. unfold bin. now rewrite skipn_nil, firstn_nil. Qed.
Lemma lap_ordered : forall k xs down, length xs <= k -> Forall usable xs ->
  map t_frac (lap down xs) = map t_frac xs
  /\ forall b, stably_sorted (ckey (xorb down (Nat.odd b))) (map content (bin n xs b)) (map content (bin n (lap down xs) b)).
Proof.
  induction k as [|k IH]; intros xs down Hk HU.
  { destruct xs; [|cbn in Hk; lia]. split; [reflexivity|]. intros b. change (lap down []) with (@nil tdict). rewrite bin_nil. cbn. split; [constructor|split; [constructor|reflexivity]]. }
  destruct xs as [|x xs].
  { split; [reflexivity|]. intros b. change (lap down []) with (@nil tdict). rewrite bin_nil. cbn. split; [constructor|split; [constructor|reflexivity]]. }
  rewrite lap_unfold by discriminate. set (l := x :: xs) in *.
  assert (HU' : Forall usable (firstn n l) /\ Forall usable (skipn n l)) by (rewrite <- (firstn_skipn n l) in HU; now apply Forall_app in HU).
  destruct HU' as [HU1 HU2]. destruct (IH (skipn n l) (negb down)) as [I1 I2]; [rewrite skipn_length; unfold l in *; cbn [length] in *; lia|exact HU2|].
  destruct (sorted_ok (firstn n l) down HU1) as (_&S1&S2). pose proof (sorted_len (firstn n l) down HU1) as SL.
  assert (F1 : length (firstn n l) <= n) by (rewrite firstn_length; lia).
  assert (F2 : length (firstn n l) < n -> skipn n l = []) by (rewrite firstn_length; intros X; apply skipn_all2; lia).
  assert (F3 : length (sorted down (firstn n l)) < n -> lap (negb down) (skipn n l) = []) by (rewrite SL; intros X; now rewrite F2).
  split.
  - rewrite map_app, S1, I1, <- map_app, firstn_skipn. reflexivity.
  - intros b. rewrite <- (firstn_skipn n l) at 1. destruct b as [|b].
    + rewrite bin_0 by assumption. rewrite bin_0 by (first [exact F3 | rewrite SL; exact F1]). cbn [Nat.odd]. change (Nat.odd 0) with false. rewrite xorb_false_r. exact S2.
    + rewrite bin_S by assumption. rewrite bin_S by (first [exact F3 | rewrite SL; exact F1]). rewrite Nat.odd_succ, <- Nat.negb_odd.
      replace (xorb down (negb (Nat.odd b))) with (xorb (negb down) (Nat.odd b)) by (now destruct down, (Nat.odd b)). apply I2.
Qed.

(* the order is determined *)
Lemma nth_bin {X} (l : list X) i : nth_error (bin n l (i / n)) (i mod n) = nth_error l i.
Proof.
  unfold bin. rewrite nth_error_firstn', nth_error_skipn'. pose proof (Nat.mod_upper_bound i n ltac:(lia)) as Hm. destruct (Nat.ltb_spec (i mod n) n); [|lia].
  f_equal. rewrite Nat.mul_comm. symmetry. apply Nat.div_mod. lia.
Qed.
Lemma bin_map {X Y} (f : X -> Y) l b : bin n (map f l) b = map f (bin n l b).
Proof. unfold bin. now rewrite skipn_map, firstn_map. Qed.
Lemma map_both : forall l1 l2 : list tdict, map t_frac l1 = map t_frac l2 -> map content l1 = map content l2 -> l1 = l2.
Proof.
  induction l1 as [|[d1 f1 g1] l1 IH]; intros [|[d2 f2 g2] l2]; try discriminate; [reflexivity|]. cbn [map]. unfold content at 1 3. cbn. intros [= -> Hf] [= -> -> Hc]. f_equal. auto.
Qed.
Lemma ordered_unique len (xs : list tdict) ys ys' : laplace_ordered n len xs ys -> laplace_ordered n len xs ys' -> ys = ys'.
Proof.
  intros [F1 S1] [F2 S2]. apply map_both; [congruence|]. apply nth_error_ext. intros i. rewrite <- (nth_bin (map content ys)), <- (nth_bin (map content ys')).
  f_equal. rewrite !bin_map. exact (stably_sorted_unique _ _ _ _ (S1 _) (S2 _)).
Qed.
Lemma lap_laplace_ordered xs : Forall usable xs -> laplace_ordered n len_of xs (lap false xs).
Proof.
  intros HU. destruct (lap_ordered (length xs) xs false (Nat.le_refl _) HU) as [H1 H2]. split; [exact H1|]. intros b. specialize (H2 b). unfold ckey in H2.
  destruct (Nat.odd b); exact H2.
Qed.
Lemma laplace_computes f : laplace_ordering n seq_len = Ok f -> computes f (fun xs ys => Forall usable xs /\ xs <> [] /\ laplace_ordered n len_of xs ys).
Proof.
  unfold laplace_ordering. intros H. apply bind_Ok in H. destruct H as (?&_&H). apply Ok_inj in H. subst f. intros D nx d xs ys HY (HU&Hne&HO). cbn [m_next m_start].
  assert (HO' : laplace_ordered n len_of xs (lap false xs)) by apply lap_laplace_ordered, HU.
  rewrite (ordered_unique _ _ _ _ HO HO'). now apply laplace_yields.
Qed.
End Lap.
End Iter.
