From Coq Require Import String.
From Verif Require Import Base ListLemmas PyDict BatchPipeModel ChunkModel ChunkProofs DistribProofs ForwardModel ForwardSpec.
Local Open Scope string_scope. Local Open Scope nat_scope. Local Open Scope list_scope.
Local Notation length := List.length.

(** ** queue *)
Lemma q_run_ideal {A S} (step : S -> option A * S) ops : forall queue it, q_run step (QIter queue it) ops = ideal_run step (rev queue) it ops.
Proof.
  induction ops as [|[items|] ops IH]; intros queue it; [reflexivity| |]; cbn [q_run ideal_run].
  - unfold q_extend. cbn [q_queue q_iter]. rewrite IH. now rewrite rev_app_distr, rev_involutive.
  - unfold q_next. cbn [q_queue q_iter]. destruct (rev queue) as [|x front] eqn:E; [destruct (step it) as [r it']; f_equal; apply (IH [])|]. f_equal. rewrite IH, rev_involutive. reflexivity.
Qed.
Lemma ideal_next_pushed {A S} (step : S -> option A * S) items pushed it ops : ideal_run step (items ++ pushed) it (repeat Next (length items) ++ ops) = map Some items ++ ideal_run step pushed it ops.
Proof. induction items as [|x items IH]; [reflexivity|]. cbn [length repeat app ideal_run map]. now rewrite IH. Qed.

Lemma list_max_le' (l : list nat) x : In x l -> x <= list_max l.
Proof. intros H. assert (Hf : Forall (fun k => k <= list_max l) l) by (now apply list_max_le). rewrite Forall_forall in Hf. now apply Hf. Qed.
(** ** split sizes *)
Lemma split_loop_sum k size : forall remaining, let '(l, rest) := split_sizes_loop k remaining size in length l = k /\ list_sum l + rest = remaining /\ rest = remaining - k * size.
Proof.
  induction k as [|k IH]; intros remaining; cbn [split_sizes_loop]; [cbn; lia|]. specialize (IH (remaining - Nat.min remaining size)). destruct (split_sizes_loop k (remaining - Nat.min remaining size) size) as [l rest]. cbn [length list_sum fold_right]. unfold list_sum in IH. nia.
Qed.
Lemma ceil_ge total k : 0 < k -> total <= k * ((total + k - 1) / k).
Proof. intros H. pose proof (Nat.div_mod (total + k - 1) k). pose proof (Nat.mod_upper_bound (total + k - 1) k). nia. Qed.
Lemma split_sizes_ok k total : 0 < k <= total -> exists l, split_sizes k total = Ok l /\ length l = k /\ list_sum l = total.
Proof.
  intros [Hk Ht]. unfold split_sizes. destruct (Nat.leb_spec k total); [|lia]. cbn [assert_ bind]. destruct (Nat.eqb_spec k 0); [lia|]. pose proof (split_loop_sum k ((total + k - 1) / k) total) as Hs. pose proof (ceil_ge total k Hk) as Hc. destruct (split_sizes_loop k total ((total + k - 1) / k)) as [l rest]. destruct Hs as (H1&H2&H3).
  exists l. assert (Hr : rest = 0) by lia. assert (Hl : list_sum l = total) by lia. rewrite Hr, H1, Hl, !Nat.eqb_refl. cbn [andb assert_ bind]. auto.
Qed.
Lemma split_two n : 2 <= n -> split_sizes 2 n = Ok [(n + 1) / 2; n - (n + 1) / 2].
Proof.
  intros H. unfold split_sizes. destruct (Nat.leb_spec 2 n); [|lia]. cbn [assert_ bind Nat.eqb split_sizes_loop]. replace (n + 2 - 1) with (n + 1) by lia. assert (Hd : (n + 1) / 2 <= n /\ n <= 2 * ((n + 1) / 2)) by (pose proof (Nat.div_mod (n + 1) 2); pose proof (Nat.mod_upper_bound (n + 1) 2); lia).
  set (h := (n + 1) / 2) in *. clearbody h. rewrite (Nat.min_r n h), (Nat.min_l (n - h) h) by lia. cbn [length list_sum fold_right]. replace (n - h - (n - h)) with 0 by lia. rewrite !Nat.eqb_refl. replace (h + (n - h + 0)) with n by lia. rewrite Nat.eqb_refl. reflexivity.
Qed.

(** ** parts *)
Section D.
  Context {X : Type}.
  Lemma dget_mapkv {V W} (f : string -> V -> W) (d : dict string V) k : dget (map (fun '(k, v) => (k, f k v)) d : dict string W) k = match dget d k with Some v => Some (f k v) | None => None end.
  Proof. induction d as [|[a v] d IH]; [reflexivity|]. cbn [map dget]. destruct (keqb a k) eqn:E; [apply keqb_eq in E; now subst a|exact IH]. Qed.
  Lemma keys_mapkv {V W} (f : string -> V -> W) (d : dict string V) : dkeys (map (fun '(k, v) => (k, f k v)) d) = dkeys d.
  Proof. unfold dkeys. rewrite map_map. apply map_ext. now intros [a v]. Qed.

  Definition psl (v : cval X) (o m : nat) : cval X :=
    match v with
    | CSingle x => CSingle x
    | CPadded rows => CPadded (pyslice rows o (o + m))
    | CLens l => CLens (pyslice l o (o + m))
    | CStack l => CStack (pyslice l o (o + m))
    end.
  Definition ptrim (p : raw X) (k : string) (v : cval X) : cval X :=
    match v, dget p (k ++ ":seq_len")%string with
    | CPadded rows, Some (CLens lens) => CPadded (map (firstn (list_max lens)) rows)
    | _, _ => v
    end.
  Definition ppart (b : raw X) (o m : nat) : raw X :=
    let p := map (fun '(k, v) => (k, psl v o m)) b in map (fun '(k, v) => (k, ptrim p k v)) p.

  Lemma mapM_all {A B} (f : A -> res B) (g : A -> B) l : (forall x, In x l -> f x = Ok (g x)) -> mapM f l = Ok (map g l).
  Proof. induction l as [|x l IH]; intros H; [reflexivity|]. cbn [mapM map]. rewrite H by (now left). cbn [bind]. rewrite IH by (intros y Hy; apply H; now right). reflexivity. Qed.
  Lemma part_pure n b o m : is_batch n b -> 1 <= m -> o + m <= n -> part b o m = Ok (ppart b o m).
  Proof.
    intros (_&Hd&Hb) Hm Ho. unfold part.
    rewrite (mapM_all _ (fun '(k, v) => (k, psl v o m)) b).
    2:{ intros [k v] Hv. specialize (Hb k v Hv). destruct v; cbn [slice0 bind psl]; try reflexivity. contradiction. }
    cbn [bind]. unfold ppart. set (p := map (fun '(k, v) => (k, psl v o m)) b).
    apply mapM_all. intros [k v] Hv. unfold p in Hv. apply in_map_iff in Hv. destruct Hv as ([k0 v0]&E&Hv). injection E as -> <-. pose proof (Hb k v0 Hv) as Hb0.
    assert (Hp : dget p (k ++ ":seq_len")%string = match dget b (k ++ ":seq_len")%string with Some v => Some (psl v o m) | None => None end) by (unfold p; apply (dget_mapkv (fun _ v => psl v o m))).
    unfold trim, ptrim. rewrite Hp. destruct v0 as [x|rows|lens|xs]; cbn [psl]; [contradiction| | |].
    - destruct Hb0 as (Hr&lens&Hl). pose proof (In_dget b _ _ Hd Hl) as Hg. rewrite Hg. cbn [psl]. destruct (Hb _ _ Hl) as [Hll _].
      destruct (pyslice lens o (o + m)) as [|y l'] eqn:E; [|reflexivity]. exfalso. assert (length (pyslice lens o (o + m)) = m) by (rewrite pyslice_length; lia). rewrite E in H. cbn in H. lia.
    - destruct Hb0 as (_&Hn). apply dget_None in Hn. rewrite Hn. reflexivity.
    - destruct Hb0 as (_&Hn). apply dget_None in Hn. rewrite Hn. reflexivity.
  Qed.
  Lemma dget_ppart b o m k : dget (ppart b o m) k = match dget b k with Some v => Some (ptrim (map (fun '(k, v) => (k, psl v o m)) b) k (psl v o m)) | None => None end.
  Proof. unfold ppart. rewrite (dget_mapkv (ptrim (map (fun '(k, v) => (k, psl v o m)) b))), (dget_mapkv (fun _ v => psl v o m)). now destruct (dget b k). Qed.
  Lemma ppart_keys b o m : map fst (ppart b o m) = map fst b.
  Proof. unfold ppart. change (dkeys (map (fun '(k, v) => (k, ptrim (map (fun '(k0, v0) => (k0, psl v0 o m)) b) k v)) (map (fun '(k, v) => (k, psl v o m)) b)) = dkeys b). now rewrite (keys_mapkv (ptrim _)), (keys_mapkv (fun _ v => psl v o m)). Qed.
  Lemma lens_ppart n b o m k lens : is_batch n b -> In (k, CLens lens) b -> dget (ppart b o m) k = Some (CLens (pyslice lens o (o + m))).
  Proof. intros (_&Hd&Hb) H. rewrite dget_ppart, (In_dget b k _ Hd H). reflexivity. Qed.
  Lemma ppart_batch n b o m : is_batch n b -> 1 <= m -> o + m <= n -> is_batch m (ppart b o m).
  Proof.
    intros Hbb Hm Ho. pose proof Hbb as (Hne&Hd&Hb). assert (Hd' : dict_ok (ppart b o m)) by (unfold dict_ok, dkeys; rewrite ppart_keys; exact Hd).
    split; [intros E; apply Hne; destruct b; [reflexivity|discriminate]|]. split; [exact Hd'|]. intros k v Hv. rewrite ppart_keys. pose proof (In_dget _ _ _ Hd' Hv) as Hg. rewrite dget_ppart in Hg. destruct (dget b k) as [v0|] eqn:E; [|discriminate]. injection Hg as <-. pose proof (dget_In _ _ _ E) as Hin. pose proof (Hb k v0 Hin) as H0. destruct v0 as [x|rows|lens|xs]; cbn [psl]; [contradiction| | |].
    - destruct H0 as (Hr&lens&Hl). unfold ptrim. rewrite (dget_mapkv (fun _ v => psl v o m)), (In_dget b _ _ Hd Hl). cbn [psl]. rewrite map_length, pyslice_length by lia. split; [lia|]. exists (pyslice lens o (o + m)). apply dget_In. now apply (lens_ppart n).
    - destruct H0 as [H0 H1]. unfold ptrim. rewrite pyslice_length by lia. split; [lia|exact H1].
    - destruct H0 as [H0 H1]. unfold ptrim. rewrite pyslice_length by lia. split; [lia|exact H1].
  Qed.
  Lemma ppart_row n b o m k i : is_batch n b -> o + m <= n -> i < m -> row_of (ppart b o m) k i = row_of b k (o + i).
  Proof.
    intros Hbb Ho Hi. pose proof Hbb as (Hne&Hd&Hb). unfold row_of. rewrite dget_ppart. destruct (dget b k) as [v0|] eqn:E; [|reflexivity]. pose proof (dget_In _ _ _ E) as Hin. pose proof (Hb k v0 Hin) as H0. destruct v0 as [x|rows|lens|xs]; cbn [psl]; [contradiction| | |].
    - destruct H0 as (Hr&lens&Hl). unfold ptrim. rewrite (dget_mapkv (fun _ v => psl v o m)), (lens_ppart n b o m _ lens Hbb Hl), (In_dget b _ _ Hd Hl). cbn [psl]. rewrite nth_error_map, !nth_error_pyslice by lia. destruct (nth_error rows (o + i)) as [row|] eqn:Er; [|reflexivity]. cbn [option_map]. destruct (nth_error lens (o + i)) as [len|] eqn:El; [|reflexivity]. do 2 f_equal. rewrite firstn_firstn. f_equal. apply Nat.min_l. apply list_max_le'. apply nth_error_In with (n := i). rewrite nth_error_pyslice by lia. exact El.
    - reflexivity.
    - unfold ptrim. rewrite nth_error_pyslice by lia. reflexivity.
  Qed.
  Lemma ppart_seqs keys n (b : raw X) o m : is_batch n b -> o + m <= n -> seqs_of keys m (ppart b o m) = map (row b keys) (seq o m).
  Proof.
    intros Hb Ho. unfold seqs_of. replace (seq o m) with (map (fun i => o + i) (seq 0 m)).
    - rewrite map_map. apply map_ext_in. intros i Hi. apply in_seq in Hi. unfold row. apply map_ext. intros k. rewrite (ppart_row n) by (assumption || lia). reflexivity.
    - clear. revert o. induction m as [|m IH]; intros o; [reflexivity|]. cbn [seq map]. f_equal; [lia|]. rewrite <- (IH (S o)). rewrite <- seq_shift, map_map. apply map_ext. intros a. lia.
  Qed.
  Lemma parts_pure n (b : raw X) sizes : is_batch n b -> forall o, Forall (fun m => 1 <= m) sizes -> o + list_sum sizes <= n ->
    exists ps, parts b o sizes = Ok ps /\ Forall2 is_batch sizes ps /\ forall keys, List.concat (map (fun '(m, p) => seqs_of keys m p) (combine sizes ps)) = map (row b keys) (seq o (list_sum sizes)).
  Proof.
    intros Hb. induction sizes as [|m sizes IH]; intros o Hf Ho; cbn [parts]; [exists []; repeat split; constructor|]. inversion Hf as [|? ? Hm Hf']; subst. cbn [list_sum fold_right] in *. fold (list_sum sizes) in *. rewrite (part_pure n) by (assumption || lia). cbn [bind]. destruct (IH (o + m) Hf') as (ps&->&H2&H3); [lia|]. cbn [bind]. exists (ppart b o m :: ps). split; [reflexivity|]. split; [constructor; [apply (ppart_batch n); [exact Hb|exact Hm|lia]|exact H2]|]. intros keys. cbn [combine map List.concat]. rewrite H3, (ppart_seqs keys n) by (assumption || lia). rewrite seq_app, map_app. reflexivity.
  Qed.
  Lemma is_batch_size n (b : raw X) : is_batch n b -> batch_size b = Ok n.
  Proof. intros (Hne&_&Hb). destruct b as [|[k v] b]; [contradiction|]. specialize (Hb k v (or_introl eq_refl)). cbn [batch_size]. destruct v; cbn [shape0]; [contradiction| | |]; destruct Hb as [<- _]; reflexivity. Qed.
  Lemma mapM_err {A B} (f : A -> res B) l e x : In x l -> (forall y, In y l -> f y = Err e \/ exists z, f y = Ok z) -> f x = Err e -> mapM f l = Err e.
  Proof.
    induction l as [|y l IH]; intros Hx Hall He; [contradiction|]. cbn [mapM]. destruct (Hall y (or_introl eq_refl)) as [->|(z&Hz)]; [reflexivity|]. rewrite Hz. cbn [bind]. destruct Hx as [-> |Hx]; [congruence|]. rewrite IH; [reflexivity|exact Hx|intros w Hw; apply Hall; now right|exact He].
  Qed.
  Lemma scalar_no_part (b : raw X) k x o m : In (k, CSingle (Scalar x)) b -> part b o m = Err IndexError.
  Proof.
    intros H. unfold part. rewrite (mapM_err _ b IndexError (k, CSingle (Scalar x)) H); [reflexivity| |reflexivity]. intros [k' v] _. destruct v as [[f|y]| | |]; cbn [slice0 bind]; eauto.
  Qed.
  Lemma scalar_no_split (b : raw X) k x num n : In (k, CSingle (Scalar x)) b -> batch_size b = Ok n -> 0 < num <= n -> raw_dict_split_batch b num = Err IndexError.
  Proof.
    intros H Hn Hk. unfold raw_dict_split_batch. rewrite Hn. cbn [bind]. destruct (split_sizes_ok num n Hk) as (l&->&Hl&Hs). cbn [bind]. rewrite Hs, Nat.eqb_refl. cbn [assert_ bind]. destruct l as [|m l]; [cbn in Hl; lia|]. cbn [parts]. now rewrite (scalar_no_part b k x).
  Qed.
End D.

(** ** the loop *)
Section F.
  Context {B Q : Type}.
  Variable meta : B -> res unit.
  Variable oom : nat -> B -> bool.
  Variable can : B -> res bool.
  Variable split : B -> res (list B).
  Variable seqs : B -> list Q.
  Variable good : B -> Prop.
  Hypothesis Hmeta : forall b, good b -> meta b = Ok tt.
  Hypothesis Hcan : forall b, good b -> can b = Ok (2 <=? length (seqs b)).
  Hypothesis Hsplit : forall b, good b -> 2 <= length (seqs b) -> exists p1 p2, split b = Ok [p1; p2] /\ good p1 /\ good p2 /\ seqs b = seqs p1 ++ seqs p2 /\ seqs p1 <> [] /\ seqs p2 <> [].

  Definition pending (q : qiter B (list B)) : list B := rev (q_queue q) ++ q_iter q.
  Definition cost (l : list B) : nat := list_sum (map (fun b => 2 * length (seqs b) - 1) l).
  Lemma next_pending q : match q_next list_step q with (None, _) => pending q = [] | (Some b, q') => pending q = b :: pending q' end.
  Proof. destruct q as [queue it]. unfold q_next, pending. cbn [q_queue q_iter]. destruct (rev queue) as [|x front]; [destruct it; reflexivity|]. cbn [q_queue q_iter]. now rewrite rev_involutive. Qed.
  Lemma extend_pending q l : pending (q_extend q l) = l ++ pending q.
  Proof. unfold pending, q_extend. cbn [q_queue q_iter]. rewrite rev_app_distr, rev_involutive, app_assoc. reflexivity. Qed.
  Lemma cost_cons b l : cost (b :: l) = 2 * length (seqs b) - 1 + cost l.
  Proof. reflexivity. Qed.

  Lemma forward_lemma fuel : forall attempt q outs, Forall good (pending q) -> Forall (fun b => seqs b <> []) (pending q) -> cost (pending q) < fuel ->
    let '(out, r) := forward meta oom can split seqs fuel attempt q outs in
    exists (done todo : list Q), out = outs ++ done /\ flat_map seqs (pending q) = done ++ todo /\      (r = Ok tt /\ todo = [] \/ exists b k s rest, r = Err OtherException /\ oom k b = true /\ seqs b = [s] /\ todo = s :: rest).
  Proof.
    induction fuel as [|fuel IH]; intros attempt q outs Hg Hne Hf; [lia|]. cbn [forward]. pose proof (next_pending q) as Hn. destruct (q_next list_step q) as [[b|] q'].
    - rewrite Hn in *. rewrite cost_cons in Hf. inversion Hg as [|? ? Hb Hg']; subst. inversion Hne as [|? ? Hs Hne']; subst. rewrite (Hmeta b Hb). assert (Hlen : 1 <= length (seqs b)) by (destruct (seqs b); [contradiction|cbn; lia]). destruct (oom attempt b) eqn:Eo.
      + rewrite (Hcan b Hb). destruct (Nat.leb_spec 2 (length (seqs b))) as [H2|H2].
        * destruct (Hsplit b Hb H2) as (p1&p2&->&G1&G2&E&N1&N2). specialize (IH (S attempt) (q_extend q' [p1; p2]) outs). rewrite extend_pending in IH. cbn [app] in IH.
          destruct (forward meta oom can split seqs fuel (S attempt) (q_extend q' [p1; p2]) outs) as [out r]. destruct IH as (done&todo&H3&H4&H5); [repeat constructor; assumption|repeat constructor; assumption|rewrite !cost_cons|].
          -- rewrite E, app_length in Hf. assert (1 <= length (seqs p1)) by (destruct (seqs p1); [contradiction|cbn; lia]). assert (1 <= length (seqs p2)) by (destruct (seqs p2); [contradiction|cbn; lia]). lia.
          -- exists done, todo. split; [exact H3|]. split; [|exact H5]. cbn [flat_map] in *. rewrite E, <- H4, <- app_assoc. reflexivity.
        * destruct (seqs b) as [|s [|s' l]] eqn:Es; [contradiction| |cbn in H2; lia]. exists [], (s :: flat_map seqs (pending q')). rewrite app_nil_r. split; [reflexivity|]. split; [cbn [flat_map]; rewrite Es; reflexivity|]. right. exists b, attempt, s, (flat_map seqs (pending q')). auto.
      + specialize (IH (S attempt) q' (outs ++ seqs b) Hg' Hne'). destruct (forward meta oom can split seqs fuel (S attempt) q' (outs ++ seqs b)) as [out r]. destruct IH as (done&todo&H3&H4&H5); [lia|]. exists (seqs b ++ done), todo. split; [now rewrite app_assoc|]. split; [cbn [flat_map]; rewrite H4; now rewrite app_assoc|exact H5].
    - rewrite Hn. exists [], []. rewrite app_nil_r. auto.
  Qed.
End F.
