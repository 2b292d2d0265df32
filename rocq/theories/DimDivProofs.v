(** Proofs for the arithmetic on dims: divisions, programs, and the computed sizes. *)
From Coq Require Import String Ascii.
From Verif Require Import Base ListLemmas DimModel DimSpec DimProofs.
Local Open Scope list_scope.
Local Open Scope Z_scope.
Local Notation length := List.length.

Lemma h_and : forall I A (m : M A) (Q1 Q2 : A -> Prop), hoare I m Q1 -> hoare I m Q2 -> hoare I m (fun x => Q1 x /\ Q2 x).
Proof. intros I A m Q1 Q2 H1 H2 st Hst. destruct (H1 st Hst) as (A1 & A2), (H2 st Hst) as (_ & B2). split; [exact A1|]. intros x E. split; auto. Qed.

Lemma eq_same_size : forall env eqd, eq_means_same eqd -> eq_means_size env eqd.
Proof. intros env eqd H a b E. rewrite (H a b E). reflexivity. Qed.

(** ** Division of integers *)
Lemma divide_mul : forall k p o, 0 < o -> divide k (p * o) o = p.
Proof. intros k p o H. pose proof (divide_exact k (p * o) o ltac:(lia) (Z.divide_factor_r o p)) as E. nia. Qed.
Lemma divide_1 : forall k p, divide k p 1 = p.
Proof. intros k p. replace p with (p * 1) at 1 by ring. apply divide_mul. lia. Qed.
Lemma divide_0 : forall k o, 0 < o -> divide k 0 o = 0.
Proof. intros k o H. apply (divide_mul k 0 o H). Qed.
Lemma divide_chain : forall k n d o, 0 < d -> 0 < o -> divide k (divide k n d) o = divide k n (d * o).
Proof.
  intros k n d o Hd Ho. destruct k; cbn [divide].
  - apply Z.div_div; lia.
  - apply Z.div_div; lia.
  - rewrite Z.opp_involutive. f_equal. apply Z.div_div; lia.
Qed.
Lemma divide_kind : forall k k' n d, 0 < d -> (d | n) -> divide k n d = divide k' n d.
Proof. intros k k' n d Hd (q & ->). rewrite !divide_mul by exact Hd. reflexivity. Qed.
Lemma divide_factor : forall k p a b, 0 < b -> a mod b = 0 -> divide k (p * a) b = p * (a / b).
Proof.
  intros k p a b Hb H. apply Z.mod_divide in H; [|lia]. destruct H as (q & ->). rewrite Z.div_mul by lia.
  rewrite Z.mul_assoc. apply divide_mul. exact Hb.
Qed.
Lemma divide_add : forall k x y o, 0 < o -> (o | x) -> (o | y) -> divide k (x + y) o = divide k x o + divide k y o.
Proof. intros k x y o Ho (p & ->) (q & ->). rewrite <- Z.mul_add_distr_r, !divide_mul by exact Ho. reflexivity. Qed.

Section Div.
Variable env : nat -> Z.
Notation v := (val env).
Notation prod := (prod env).
Notation sum := (sum env).
Variable eqd : dim -> dim -> bool.
Variable pick : list entry -> mop -> dim -> operand -> option dim.
Hypothesis Hpick : answers_earlier eqd pick.
Variable U : dim -> Prop.
Variable UK : option dkind -> Prop.
Hypothesis U_const : forall k z, UK k -> U (Const k z).
Hypothesis U_none : UK None.
Hypothesis U_kind : forall d, U d -> UK (kind_of d).
Hypothesis U_der : forall o a b, U (Der o a b) <-> U a /\ U b.
Hypothesis Heq : forall a b, U a -> U b -> eqd a b = true -> v a = v b.
Hypothesis Hnd : forall a b, U a -> U b -> eqd a b = true -> (no_div a <-> no_div b).
Notation pr := (good env U).

Definition good_div (e : entry) : Prop :=
  match e_op e with
  | CDiv k _ => v (e_res e) = divide k (v (e_self e)) (val_of env (e_other e)) /\ pr (e_res e)
  | _ => True
  end.
Notation snd_ := (sound env U good_div no_div).
Notation hr := (hoare snd_).

Lemma nd_eq : forall a b, U a -> U b -> eqd a b = true -> no_div b -> no_div a.
Proof. intros a b Ha Hb H. apply Hnd; assumption. Qed.
Lemma nd_const : forall k z, no_div (Const k z).
Proof. intros; exact I. Qed.
Lemma nd_der : forall o a b, (o = OAdd \/ o = OMul) -> (no_div (Der o a b) <-> no_div a /\ no_div b).
Proof. intros o a b [-> | ->]; reflexivity. Qed.
Lemma nd_div : forall k r a b, no_div (Der (ODiv k r) a b) -> no_div a.
Proof. intros k r a b []. Qed.

Lemma h_cached_div : forall k lf self o make, U self -> U_of U o ->
  hr make (fun d => v d = divide k (v self) (val_of env o) /\ pr d) ->
  hr (cached pick (CDiv k lf) self o make) (fun d => v d = divide k (v self) (val_of env o) /\ pr d).
Proof.
  intros k lf self o make HU1 HU2 Hm st Hst. unfold cached. destruct (pick st (CDiv k lf) self o) as [r|] eqn:E.
  - split; [exact Hst|]. cbn. intros x Ex. injection Ex as <-.
    destruct (Hpick _ _ _ _ _ E) as (e & He & E1 & E2 & E3 & E4). unfold sound in Hst. rewrite Forall_forall in Hst.
    specialize (Hst e He). unfold sound_entry, good_div in Hst. destruct Hst as ((HU3 & HU4) & Hst). rewrite E1, E4 in Hst.
    rewrite (Heq _ _ HU3 HU1 E2), (operand_eq_val env eqd U Heq _ _ HU4 HU2 E3) in Hst. exact Hst.
  - destruct (Hm st Hst) as (H1 & H2). destruct (make st) as [[r|e] st']; cbn [fst snd] in *.
    + specialize (H2 r eq_refl). split.
      * constructor; [|exact H1]. unfold sound_entry, good_div. cbn. split; [split; assumption|exact H2].
      * intros x Ex. injection Ex as <-. exact H2.
    + split; [exact H1|]. intros x Ex. discriminate Ex.
Qed.

Lemma h_new_div : forall num den k right, pr num -> pr den -> 0 < v den -> (k = Exact -> (v den | v num)) ->
  hr (new_div pick num den k right) (fun d => v d = divide k (v num) (v den) /\ pr d).
Proof.
  intros num den k right Hn Hd Hpos Hex. unfold new_div.
  assert (Hmake : forall k', (k' = k \/ (v den | v num)) ->
    hr (cached pick (CDiv k' (negb right)) num (norm den) (ret (Der (ODiv k' right) num den))) (fun d => v d = divide k (v num) (v den) /\ pr d)).
  { intros k' Hk. assert (Ek : divide k' (v num) (v den) = divide k (v num) (v den)).
    { destruct Hk as [-> |Hk]; [reflexivity|]. apply divide_kind; assumption. }
    eapply h_weaken; [apply h_cached_div|].
    - apply Hn.
    - apply U_norm. apply Hd.
    - apply h_ret. rewrite val_norm. cbn [val op_value]. split; [reflexivity|]. destruct Hn as (Hn1 & Hn2), Hd as (Hd1 & Hd2).
      split; [|apply U_der; split; assumption]. cbn [proper]. split; [exact Hn1|]. split; [exact Hd1|]. split; [exact Hpos|]. intros ->. destruct Hk as [<- |Hk]; auto.
    - cbn beta. rewrite val_norm. intros d (Q1 & Q2). split; [lia|exact Q2]. }
  destruct (size num) as [a|] eqn:Ea; [|apply Hmake; left; reflexivity].
  destruct (size den) as [b|] eqn:Eb; [|apply Hmake; left; reflexivity].
  assert (Hdv : a mod b =? 0 = true -> (v den | v num)).
  { intros E. rewrite (size_val env _ _ Ea), (size_val env _ _ Eb). apply Z.mod_divide; [|lia].
    rewrite (size_val env _ _ Eb) in Hpos. lia. }
  destruct (b =? 0); [apply h_raise|]. destruct k.
  - apply Hmake. left. reflexivity.
  - destruct (a mod b =? 0) eqn:E; [|apply h_raise]. destruct right; apply Hmake; [right; auto|left; reflexivity].
  - destruct (a mod b =? 0) eqn:E; [|apply Hmake; left; reflexivity]. destruct right; apply Hmake; [right; auto|left; reflexivity].
Qed.

(** a division that is stored as kind [dk] *)
Lemma div_val : forall d dk right num den, is_div d dk right = true -> div_inputs d = Some (num, den) -> pr d ->
  v d = divide dk (v num) (v den) /\ pr num /\ pr den /\ 0 < v den /\ (dk = Exact -> (v den | v num)).
Proof.
  intros d dk right num den Hd Hi (Hp & HU). destruct d as [| |[| |k r] a b]; try discriminate Hi.
  pose proof Hi as Hi'. cbn [div_inputs] in Hi'. injection Hi' as <- <-. pose proof Hp as Hp'.
  cbn [proper] in Hp'. destruct Hp' as (Ha & Hb & Hpos & Hex). apply U_der in HU. destruct HU as (HUa & HUb).
  assert (Hk : dk = k \/ (dk = Exact)).
  { unfold is_div, op_of in Hd. destruct (size a) as [x|]; [destruct (size b) as [y|]|].
    - destruct (x mod y =? 0); destruct dk, k; try discriminate Hd; auto.
    - destruct dk, k; try discriminate Hd; auto.
    - destruct dk, k; try discriminate Hd; auto. }
  destruct (divk_eqb dk Exact) eqn:Ee.
  - assert (dk = Exact) as -> by (destruct dk; try discriminate Ee; reflexivity).
    destruct (exact_div env _ _ _ _ Hd Hi Hp) as (E1 & E2 & E3 & E4 & E5). split; [|split; [split; [exact E2|exact HUa]|split; [split; [exact E3|exact HUb]|split; [exact E5|intros _; exact E4]]]].
    cbn [val op_value]. apply divide_kind; assumption.
  - destruct Hk as [-> | ->]; [|discriminate Ee]. split; [reflexivity|]. split; [split; assumption|split; [split; assumption|split; [exact Hpos|exact Hex]]].
Qed.

Lemma good_const : forall k z, UK k -> pr (Const k z).
Proof. intros k z H. split; [exact I|apply U_const; exact H]. Qed.
Lemma good_kind : forall d, pr d -> UK (kind_of d).
Proof. intros d (_ & H). apply U_kind. exact H. Qed.
Lemma good_add : forall a b, pr (Der OAdd a b) -> pr a /\ pr b.
Proof. intros a b ((Ha & Hb & _) & H). apply U_der in H. destruct H. split; split; assumption. Qed.
Lemma good_mul : forall a b, pr (Der OMul a b) -> pr a /\ pr b.
Proof. intros a b ((Ha & Hb & _) & H). apply U_der in H. destruct H. split; split; assumption. Qed.
Lemma good_from_dim : forall d, pr d -> Forall pr (mult_from_dim d).
Proof.
  intros [id nm k s|k z|[| |k r] a b] H; cbn [mult_from_dim].
  - constructor; [exact H|constructor].
  - destruct (z =? 1); [constructor|]. constructor; [exact H|constructor].
  - constructor; [exact H|constructor].
  - apply good_mul in H. destruct H as (Ha & Hb). constructor; [exact Ha|constructor; [exact Hb|constructor]].
  - constructor; [exact H|constructor].
Qed.
Definition okt (t : list dim) : Prop := (length t <= 1)%nat \/ Forall no_div t.

Lemma h_weak_as_dim : forall t, Forall pr t -> hr (mult_as_dim pick t) (fun d => v d = prod t /\ pr d).
Proof.
  intros t Ht. eapply h_weaken; [eapply (h_mult_as_dim env eqd pick U UK U_const U_none U_kind U_der Heq Hpick good_div no_div nd_eq nd_const nd_der nd_div false)|].
  - eapply Forall_impl; [|exact Ht]. intros d Hd. split; [exact Hd|]. intros E. discriminate E.
  - cbn beta. intros d (Q1 & Q2 & _). split; assumption.
Qed.

Variable rec : mop -> dim -> operand -> M dim.
Hypothesis Hrec : forall fl op a o, is_cdiv op = false -> P env U no_div fl a -> P_of env U no_div fl o ->
  hr (rec op a o) (fun d => v d = meaning op (v a) (val_of env o) /\ P env U no_div fl d).

Lemma no_div_not : forall d k r, no_div d -> is_div d k r = false.
Proof. intros d k r H. destruct d as [| |[| |k' r'] a b]; try reflexivity. destruct H. Qed.
Lemma okt_pop : forall i t, okt t -> okt (pop_nth i t).
Proof.
  intros i t [H|H]; [left|right].
  - unfold pop_nth. rewrite app_length, firstn_length, skipn_length. lia.
  - apply Forall_pop_nth. exact H.
Qed.
Lemma okt_set_const : forall i k z t, nth_error t i <> None -> okt t -> okt (set_nth i (Const k z) t).
Proof.
  intros i k z t Hi [H|H]; [left|right].
  - apply nth_error_Some in Hi. unfold set_nth. rewrite app_length. cbn [length]. rewrite firstn_length, skipn_length. lia.
  - apply Forall_set_nth; [exact H|exact I].
Qed.
Lemma okt_one : forall d, okt [d].
Proof. intros d. left. cbn. lia. Qed.

Definition div_post (k : divk) (terms : list dim) (other : dim) (t : list dim) : Prop :=
  prod t = divide k (prod terms) (v other) /\ Forall pr t /\ okt t.

Lemma h_extend_one_div : forall terms other k right, Forall pr terms -> okt terms -> pr other -> 0 < v other ->
  (k = Exact -> (v other | prod terms)) ->
  hr (extend_one eqd pick rec terms other (MDiv k) right) (div_post k terms other).
Proof.
  intros terms other k right Ht Hok Ho Hpos Hex. unfold extend_one.
  match goal with |- context [mbind (mult_as_dim pick terms) ?f] => set (rest := mbind (mult_as_dim pick terms) f) end.
  assert (Hrest : hr rest (div_post k terms other)).
  { unfold rest. eapply h_bind; [apply h_weak_as_dim; exact Ht|]. intros n (Q1 & Q2).
    eapply h_bind; [apply h_new_div; [exact Q2|exact Ho|exact Hpos|rewrite Q1; exact Hex]|]. intros d (Q3 & Q4). apply h_ret.
    split; [rewrite prod_cons, prod_nil, Q3, Q1; ring|]. split; [constructor; [exact Q4|constructor]|apply okt_one]. }
  destruct (simplify_idx eqd terms other (MDiv k) right) as [i|]; [|exact Hrest].
  destruct (nth_error terms i) as [term|] eqn:Ei; [|apply h_raise].
  assert (Hterm : pr term). { rewrite Forall_forall in Ht. apply Ht. eapply nth_error_In; eassumption. }
  destruct (eqd other term) eqn:E1.
  { apply h_ret. split; [|split; [apply Forall_pop_nth; exact Ht|apply okt_pop; exact Hok]].
    rewrite (prod_pop_nth env _ _ _ Ei), <- (Heq _ _ (proj2 Ho) (proj2 Hterm) E1). rewrite divide_mul by exact Hpos. reflexivity. }
  match goal with |- context [is_const term && is_const other && ?c] => destruct (is_const term && is_const other && c) eqn:E2 end.
  { apply andb_true_iff in E2. destruct E2 as (E2 & E3). destruct (size term) as [a|] eqn:Ea; [|discriminate E3].
    destruct (size other) as [b|] eqn:Eb; [|discriminate E3]. destruct term as [id nm k0 s|tk z|o x y]; try apply h_raise.
    cbn [size] in Ea. injection Ea as <-. apply h_ret. destruct (prod_set_nth env i terms (Const tk (z / b)) _ Ei) as (p & P1 & P2).
    apply (size_val env) in Eb. rewrite Eb in Hpos.
    split; [|split; [apply Forall_set_nth; [exact Ht|apply good_const; apply (good_kind _ Hterm)]|apply okt_set_const; [rewrite Ei; discriminate|exact Hok]]].
    rewrite P1, P2, Eb. cbn [val]. rewrite divide_factor; [reflexivity|exact Hpos|lia]. }
  destruct (is_div term k right) eqn:E3; [|exact Hrest].
  destruct (div_inputs term) as [[num den]|] eqn:Ed; [|apply h_raise].
  destruct (div_val _ _ _ _ _ E3 Ed Hterm) as (V1 & V2 & V3 & V4 & V5).
  assert (El : terms = [term] /\ i = 0%nat).
  { destruct Hok as [Hl|Hn].
    - destruct terms as [|t0 [|t1 terms]]; [destruct i; discriminate Ei| |cbn in Hl; lia].
      destruct i as [|i]; [|destruct i; discriminate Ei]. injection Ei as ->. split; reflexivity.
    - exfalso. rewrite Forall_forall in Hn. assert (Hin : In term terms) by (eapply nth_error_In; eassumption).
      rewrite (no_div_not _ k right (Hn _ Hin)) in E3. discriminate E3. }
  destruct El as (-> & ->). rewrite prod_cons, prod_nil, Z.mul_1_r in Hex.
  eapply h_bind; [apply (Hrec false); [reflexivity|split; [exact V3|intros E; discriminate E]|split; [exact Ho|intros E; discriminate E]]|].
  intros den' (Q1 & Q2 & _). cbn [meaning val_of] in Q1.
  eapply h_bind; [apply h_new_div; [exact V2|exact Q2|nia|]|].
  { intros ->. rewrite Q1. specialize (Hex eq_refl). specialize (V5 eq_refl). rewrite V1 in Hex. cbn [divide] in Hex.
    destruct V5 as (q & V5). rewrite V5, Z.div_mul in Hex by lia. destruct Hex as (q' & Hq). exists q'. rewrite V5, Hq. ring. }
  intros d (Q3 & Q4). apply h_ret. cbn [set_nth firstn skipn app].
  split; [|split; [constructor; [exact Q4|constructor]|apply okt_one]].
  rewrite !prod_cons, !prod_nil, !Z.mul_1_r, Q3, Q1, V1. symmetry. apply divide_chain; assumption.
Qed.

Lemma positive_val : forall d, positive env d -> 0 < v d.
Proof.
  induction d as [id nm k s|k z|o a IHa b IHb]; cbn [positive]; auto.
  destruct o as [| |dk r]; auto. intros (Ha & Hb). specialize (IHa Ha). specialize (IHb Hb). cbn [val op_value]. nia.
Qed.

Lemma h_mult_extend_div : forall other k right terms, Forall pr terms -> okt terms -> pr other -> positive env other ->
  (k = Exact -> (v other | prod terms)) ->
  hr (mult_extend eqd pick rec other (MDiv k) right terms) (div_post k terms other).
Proof.
  assert (Hempty : forall other k right, pr other -> positive env other -> (k = Exact -> (v other | prod [])) ->
    hr (do d <- new_div pick (Const None 1) other k right; ret [d]) (div_post k [] other)).
  { intros other k right Ho Hpos Hex. eapply h_bind; [apply h_new_div; [apply good_const; exact U_none|exact Ho|apply positive_val; exact Hpos|exact Hex]|].
    intros d (Q1 & Q2). apply h_ret. split; [rewrite prod_cons, prod_nil, Q1; cbn [val]; ring|].
    split; [constructor; [exact Q2|constructor]|apply okt_one]. }
  assert (Hsimple : forall other k right terms, Forall pr terms -> okt terms -> pr other -> positive env other -> (k = Exact -> (v other | prod terms)) ->
    hr (match terms with [] => do d <- new_div pick (Const None 1) other k right; ret [d] | _ :: _ => extend_one eqd pick rec terms other (MDiv k) right end)
       (div_post k terms other)).
  { intros other k right [|t0 terms] Ht Hok Ho Hpos Hex; [apply Hempty; assumption|].
    apply h_extend_one_div; try assumption. apply positive_val. exact Hpos. }
  induction other as [id nm k0 s|k0 z|o a IHa b IHb]; intros k right terms Ht Hok Ho Hpos Hex.
  - apply (Hsimple (Var id nm k0 s) k right terms Ht Hok Ho Hpos Hex).
  - cbn [mult_extend]. destruct (is_const_of (Const k0 z) 1) eqn:E.
    + apply h_ret. cbn [is_const_of] in E. split; [|split; assumption]. cbn [val]. assert (z = 1) as -> by lia. rewrite divide_1. reflexivity.
    + apply (Hsimple (Const k0 z) k right terms Ht Hok Ho Hpos Hex).
  - destruct o as [| |dk r].
    + apply (Hsimple (Der OAdd a b) k right terms Ht Hok Ho Hpos Hex).
    + destruct terms as [|t0 terms]; [apply (Hempty (Der OMul a b) k right Ho Hpos Hex)|].
      cbn [mult_extend is_const_of]. apply good_mul in Ho. destruct Ho as (Ha & Hb). pose proof Hpos as Hpos2. cbn [positive] in Hpos2. destruct Hpos2 as (Pa & Pb).
      pose proof (positive_val _ Pa) as Va. pose proof (positive_val _ Pb) as Vb. cbn [val op_value] in Hex. destruct right.
      * eapply h_bind; [apply IHa; try assumption; intros E; destruct (Hex E) as (q & Hq); exists (q * v b); rewrite Hq; ring|].
        intros t (Q1 & Q2 & Q3). eapply h_weaken; [apply IHb; try assumption|].
        { intros E. destruct (Hex E) as (q & Hq). rewrite Q1, Hq. subst k. replace (q * (v a * v b)) with (q * v b * v a) by ring.
          rewrite divide_mul by exact Va. exists q. reflexivity. }
        intros t' (Q4 & Q5 & Q6). split; [|split; assumption]. rewrite Q4, Q1. apply divide_chain; assumption.
      * eapply h_bind; [apply IHb; try assumption; intros E; destruct (Hex E) as (q & Hq); exists (q * v a); rewrite Hq; ring|].
        intros t (Q1 & Q2 & Q3). eapply h_weaken; [apply IHa; try assumption|].
        { intros E. destruct (Hex E) as (q & Hq). rewrite Q1, Hq. subst k. rewrite Z.mul_assoc.
          rewrite divide_mul by exact Vb. exists q. reflexivity. }
        intros t' (Q4 & Q5 & Q6). split; [|split; assumption]. rewrite Q4, Q1. cbn [val op_value]. rewrite (Z.mul_comm (v a)). apply divide_chain; assumption.
    + apply (Hsimple (Der (ODiv dk r) a b) k right terms Ht Hok Ho Hpos Hex).
Qed.

Lemma recent_dvd : forall right terms x z, recent right terms = Some x -> (z | v x) -> (z | prod terms).
Proof.
  intros right terms x z H Hd. destruct (recent_split _ _ _ H) as (H1 & H2). destruct right.
  - rewrite (H1 eq_refl), prod_app, prod_cons, prod_nil, Z.mul_1_r. apply Z.divide_mul_r. exact Hd.
  - rewrite (H2 eq_refl), prod_cons. apply Z.divide_mul_l. exact Hd.
Qed.
Lemma h_divisible_one : forall terms other right, Forall pr terms -> pr other -> hr (divisible_one eqd terms other right) (fun b => b = true -> (v other | prod terms)).
Proof.
  intros terms other right Ht Ho. unfold divisible_one. destruct (recent right terms) as [x|] eqn:Er; [|apply h_ret; intros E; discriminate E].
  assert (Hx : pr x) by (rewrite Forall_forall in Ht; apply Ht; eapply recent_In; exact Er).
  destruct (eqd other x) eqn:E1.
  { apply h_ret. intros _. eapply recent_dvd; [exact Er|]. rewrite (Heq _ _ (proj2 Ho) (proj2 Hx) E1). apply Z.divide_refl. }
  destruct (size x) as [a|] eqn:Ea; [|apply h_ret; intros E; discriminate E].
  destruct (size other) as [b|] eqn:Eb; [|apply h_ret; intros E; discriminate E].
  destruct (b =? 0) eqn:E0; [apply h_raise|]. apply h_ret. intros E. eapply recent_dvd; [exact Er|].
  rewrite (size_val env _ _ Ea), (size_val env _ _ Eb). apply Z.mod_divide; lia.
Qed.
Lemma h_divisible : forall other right terms, Forall pr terms -> okt terms -> pr other -> positive env other ->
  hr (divisible eqd pick rec other right terms) (fun b => b = true -> (v other | prod terms)).
Proof.
  assert (Hs : forall other right terms, Forall pr terms -> pr other -> hr (match terms with [] => ret false | _ :: _ => divisible_one eqd terms other right end)
    (fun b => b = true -> (v other | prod terms))).
  { intros other right [|t0 terms] Ht Ho; [apply h_ret; intros E; discriminate E|apply h_divisible_one; assumption]. }
  induction other as [id nm k0 s|k0 z|o a IHa b IHb]; intros right terms Ht Hok Ho Hpos.
  - apply (Hs (Var id nm k0 s) right terms Ht Ho).
  - apply (Hs (Const k0 z) right terms Ht Ho).
  - destruct o as [| |dk r]; [apply (Hs (Der OAdd a b) right terms Ht Ho)| |apply (Hs (Der (ODiv dk r) a b) right terms Ht Ho)].
    destruct terms as [|t0 terms]; [apply h_ret; intros E; discriminate E|].
    set (terms' := t0 :: terms) in *. cbn [divisible]. change (t0 :: terms) with terms'.
    apply good_mul in Ho. destruct Ho as (Ha & Hb). cbn [positive] in Hpos. destruct Hpos as (Pa & Pb).
    pose proof (positive_val _ Pa) as Va. pose proof (positive_val _ Pb) as Vb.
    assert (Hno : hr (ret false) (fun b0 : bool => b0 = true -> (v (Der OMul a b) | prod terms'))) by (apply h_ret; intros E; discriminate E).
    destruct right.
    + eapply h_bind; [apply IHa; assumption|]. intros [] H1; [|exact Hno]. specialize (H1 eq_refl).
      eapply h_bind; [apply h_mult_extend_div; try assumption; intros _; exact H1|]. intros t (Q1 & Q2 & Q3).
      eapply h_bind; [apply IHb; assumption|]. intros [] H2; [|exact Hno]. specialize (H2 eq_refl).
      eapply h_bind; [apply h_mult_extend_div; try assumption; intros _; exact H2|]. intros t' _. apply h_ret. intros _.
      destruct H1 as (q & H1). rewrite Q1, H1, divide_mul in H2 by exact Va. destruct H2 as (q' & H2). exists q'. rewrite H1, H2. cbn [val op_value]. ring.
    + eapply h_bind; [apply IHb; assumption|]. intros [] H1; [|exact Hno]. specialize (H1 eq_refl).
      eapply h_bind; [apply h_mult_extend_div; try assumption; intros _; exact H1|]. intros t (Q1 & Q2 & Q3).
      eapply h_bind; [apply IHa; assumption|]. intros [] H2; [|exact Hno]. specialize (H2 eq_refl).
      eapply h_bind; [apply h_mult_extend_div; try assumption; intros _; exact H2|]. intros t' _. apply h_ret. intros _.
      destruct H1 as (q & H1). rewrite Q1, H1, divide_mul in H2 by exact Vb. destruct H2 as (q' & H2). exists q'. rewrite H1, H2. cbn [val op_value]. ring.
Qed.

(** ** The products of a good dividend *)
Definition shape (t : list dim) : Prop := Forall no_div t \/ exists q, t = [q] /\ is_quot q = true.
Definition shapes (qs : list dim) (l : list (list dim)) : Prop :=
  Forall shape l /\ Forall (Forall pr) l /\ (forall q, is_quot q = true -> In [q] l -> In q qs).
Lemma quot_no_div : forall q, is_quot q = true -> no_div q -> False.
Proof. intros [| |[| |k r] a b] H1 H2; try discriminate H1. exact H2. Qed.
Lemma shape_okt : forall t, shape t -> okt t.
Proof. intros t [H|(q & -> & _)]; [right; exact H|apply okt_one]. Qed.
Lemma no_quot : forall q, is_quot q = true -> Forall no_div [q] -> False.
Proof. intros q H1 H2. inversion H2; subst. eapply quot_no_div; eassumption. Qed.
Lemma no_div_from_dim : forall d, no_div d -> Forall no_div (mult_from_dim d).
Proof.
  intros [id nm k s|k z|[| |k r] a b] H; cbn [mult_from_dim].
  - repeat constructor.
  - destruct (z =? 1); repeat constructor.
  - constructor; [exact H|constructor].
  - destruct H as (Ha & Hb). constructor; [exact Ha|constructor; [exact Hb|constructor]].
  - destruct H.
Qed.
Lemma P_false : forall d, pr d -> P env U no_div false d.
Proof. intros d H. split; [exact H|]. intros E. discriminate E. Qed.
Lemma P_false_all : forall t, Forall pr t -> Forall (P env U no_div false) t.
Proof. intros t H. eapply Forall_impl; [|exact H]. apply P_false. Qed.
Lemma P_true_all : forall t, Forall pr t -> Forall no_div t -> Forall (P env U no_div true) t.
Proof. intros t H1 H2. rewrite Forall_forall in *. intros d Hd. split; auto. Qed.

Lemma shapes_push : forall qs l t, shapes qs l -> shape t -> Forall pr t -> (forall q, is_quot q = true -> t = [q] -> In q qs) ->
  shapes qs (push true t l).
Proof.
  intros qs l t (S1 & S2 & S3) H1 H2 H3. split; [|split].
  - apply Forall_push; assumption.
  - apply Forall_push; assumption.
  - intros q Hq Hin. cbn [push] in Hin. apply in_app_or in Hin. destruct Hin as [Hin|[Hin|[]]]; auto.
Qed.
Lemma shapes_set : forall qs l t, shapes qs l -> Forall no_div t -> Forall pr t -> shapes qs (set_recent true t l).
Proof.
  intros qs l t (S1 & S2 & S3) H1 H2. split; [|split].
  - apply Forall_set_recent; [exact S1|left; exact H1].
  - apply Forall_set_recent; assumption.
  - intros q Hq Hin. cbn [set_recent] in Hin. apply in_app_or in Hin. destruct Hin as [Hin|[Hin|[]]].
    + apply S3; [exact Hq|]. apply In_removelast. exact Hin.
    + exfalso. subst t. eapply no_quot; eassumption.
Qed.
Lemma shapes_pop : forall qs l, shapes qs l -> shapes qs (pop_recent true l).
Proof.
  intros qs l (S1 & S2 & S3). split; [|split].
  - apply Forall_pop_recent. exact S1.
  - apply Forall_pop_recent. exact S2.
  - intros q Hq Hin. apply S3; [exact Hq|]. apply In_removelast. exact Hin.
Qed.
Lemma shapes_more : forall qs qs' l, shapes qs l -> shapes (qs ++ qs') l.
Proof. intros qs qs' l (S1 & S2 & S3). split; [exact S1|split; [exact S2|]]. intros q Hq Hin. apply in_or_app. left. auto. Qed.

Lemma h_add_one_shape : forall other l qs, shapes qs l -> pr other -> (no_div other \/ is_quot other = true) ->
  (is_quot other = true -> Forall (fun q => eqd q other = false) qs) ->
  hr (add_one eqd pick rec false true other l) (shapes (qs ++ filter is_quot [other])).
Proof.
  intros other l qs Hl Ho Hk Hnew. unfold add_one.
  eapply h_bind; [apply (h_negative env eqd pick U UK U_const U_none U_kind U_der Heq good_div no_div nd_const nd_der nd_div false rec); apply P_false_all; apply good_from_dim; exact Ho|].
  intros neg _. cbv iota beta.
  pose proof (shapes_more qs (filter is_quot [other]) l Hl) as Hl'.
  pose proof (good_from_dim other Ho) as Hpt.
  assert (Hpush : shapes (qs ++ filter is_quot [other]) (push true (mult_from_dim other) l)).
  { apply shapes_push; [exact Hl'| |exact Hpt|].
    - destruct Hk as [Hk|Hk]; [left; apply no_div_from_dim; exact Hk|right]. exists other. split; [|exact Hk].
      destruct other as [| |[| |k r] a b]; try discriminate Hk. reflexivity.
    - intros q Hq E. destruct Hk as [Hk|Hk].
      + exfalso. apply no_div_from_dim in Hk. rewrite E in Hk. eapply no_quot; eassumption.
      + destruct other as [| |[| |k r] a b]; try discriminate Hk. cbn [mult_from_dim] in E. injection E as <-.
        apply in_or_app. right. left. reflexivity. }
  destruct (recent true l) as [r|] eqn:Er; [|apply h_ret; exact Hpush].
  destruct (mult_eq eqd r neg) eqn:E1; [apply h_ret; apply shapes_pop; exact Hl'|].
  destruct (mult_is_const r && mult_is_const (mult_from_dim other)) eqn:E2.
  { apply h_ret. apply shapes_set; [exact Hl'|apply no_div_from_dim; exact I|apply good_from_dim; apply good_const; apply good_kind; exact Ho]. }
  destruct (recent true r) as [x|] eqn:Ex; [|apply h_ret; exact Hpush].
  destruct (recent true (mult_from_dim other)) as [y|] eqn:Ey; [|apply h_ret; exact Hpush].
  destruct (eqd x y) eqn:Exy; [|apply h_ret; exact Hpush].
  destruct Hl as (S1 & S2 & S3). pose proof (recent_In _ _ _ Er) as Hin.
  assert (Sr : shape r) by (rewrite Forall_forall in S1; auto). assert (Pr : Forall pr r) by (rewrite Forall_forall in S2; auto).
  pose proof (recent_In _ _ _ Ex) as Hxr. pose proof (recent_In _ _ _ Ey) as Hyo.
  assert (Ux : U x) by (rewrite Forall_forall in Pr; apply Pr; exact Hxr).
  assert (Uy : U y) by (rewrite Forall_forall in Hpt; apply Hpt; exact Hyo).
  destruct Hk as [Hk|Hk].
  - apply no_div_from_dim in Hk. assert (Ny : no_div y) by (rewrite Forall_forall in Hk; auto).
    assert (Nx : no_div x) by (apply (Hnd x y); assumption).
    destruct Sr as [Sr|(q & -> & Hq)].
    + eapply h_bind.
      * apply (h_merge_terms env eqd pick U UK U_const U_none U_kind U_der Heq Hpick good_div no_div nd_eq nd_const nd_der nd_div true rec (Hrec true) true r (mult_from_dim other) x y);
          [apply P_true_all; assumption|apply P_true_all; assumption|exact Ex|exact Ey|apply Heq; assumption].
      * intros m (_ & Hm). apply h_ret. apply shapes_set; [exact Hl'| |]; (eapply Forall_impl; [|exact Hm]); intros d (Q1 & Q2); auto.
    + exfalso. destruct Hxr as [-> |[]]. eapply quot_no_div; eassumption.
  - exfalso. assert (Eo : mult_from_dim other = [other]) by (destruct other as [| |[| |k0 r0] a b]; try discriminate Hk; reflexivity).
    rewrite Eo in Hyo. destruct Hyo as [<- |[]]. destruct Sr as [Sr|(q & -> & Hq)].
    + rewrite Forall_forall in Sr. eapply quot_no_div; [exact Hk|]. apply (Hnd x other Ux Uy Exy). apply Sr. exact Hxr.
    + destruct Hxr as [-> |[]]. specialize (Hnew Hk). rewrite Forall_forall in Hnew. rewrite Hnew in Exy; [discriminate Exy|]. apply S3; [exact Hq|exact Hin].
Qed.

Lemma distinct_app : forall l l', distinct eqd (l ++ l') <-> distinct eqd l /\ distinct eqd l' /\ Forall (fun x => Forall (fun y => eqd x y = false) l') l.
Proof.
  induction l as [|x l IH]; intros l'; cbn [app distinct].
  - split; [intros H; repeat split; [exact H|constructor]|intros (_ & H & _); exact H].
  - rewrite Forall_app, IH. split.
    + intros ((H1 & H2) & H3 & H4 & H5). repeat split; try assumption. constructor; assumption.
    + intros ((H1 & H3) & H4 & H5). inversion H5; subst. repeat split; assumption.
Qed.
Lemma h_lin_add_shape : forall other l qs, shapes qs l -> pr other ->
  Forall (fun s => no_div s \/ is_quot s = true) (summands other) -> distinct eqd (qs ++ filter is_quot (summands other)) ->
  hr (lin_add eqd pick rec false true other l) (shapes (qs ++ filter is_quot (summands other))).
Proof.
  assert (Hone : forall other l qs, summands other = [other] -> shapes qs l -> pr other -> Forall (fun s => no_div s \/ is_quot s = true) (summands other) ->
    distinct eqd (qs ++ filter is_quot (summands other)) -> hr (add_one eqd pick rec false true other l) (shapes (qs ++ filter is_quot (summands other)))).
  { intros other l qs E Hl Ho Hf Hn. rewrite E in *. inversion Hf; subst. apply h_add_one_shape; try assumption.
    intros Hq. cbn [filter] in Hn. rewrite Hq in Hn. apply distinct_app in Hn. destruct Hn as (_ & _ & Hn).
    eapply Forall_impl; [|exact Hn]. intros q Hq1. cbn beta in Hq1. inversion Hq1; subst. assumption. }
  induction other as [id nm k s|k z|o a IHa b IHb]; intros l qs Hl Ho Hf Hn.
  - apply (Hone (Var id nm k s) l qs); try assumption; reflexivity.
  - cbn [lin_add]. destruct (is_const_of (Const k z) 0).
    + apply h_ret. apply shapes_more. exact Hl.
    + apply (Hone (Const k z) l qs); try assumption; reflexivity.
  - destruct o as [| |dk r]; [|apply (Hone (Der OMul a b) l qs); try assumption; reflexivity|apply (Hone (Der (ODiv dk r) a b) l qs); try assumption; reflexivity].
    cbn [lin_add is_const_of]. apply good_add in Ho. destruct Ho as (Ha & Hb). cbn [summands] in *. rewrite filter_app in *. rewrite app_assoc in *.
    apply Forall_app in Hf. destruct Hf as (Fa & Fb).
    eapply h_bind; [apply (IHa l qs Hl Ha Fa); apply distinct_app in Hn; apply Hn|]. intros l1 H1. cbv beta in H1. apply IHb; assumption.
Qed.
Lemma h_lin_from_dim_shape : forall d, pr d -> dividend_ok eqd d ->
  hr (lin_from_dim eqd pick rec d) (fun l => sum l = v d /\ Forall (Forall pr) l /\ Forall okt l).
Proof.
  intros d Hd (Hn & Hf). eapply h_weaken.
  - apply h_and.
    + apply (h_lin_from_dim env eqd pick U UK U_const U_none U_kind U_der Heq Hpick good_div no_div nd_eq nd_const nd_der nd_div false rec (Hrec false)). apply P_false. exact Hd.
    + apply (h_lin_add_shape d [] []); [split; [constructor|split; [constructor|intros q _ []]]|exact Hd|exact Hf|exact Hn].
  - cbn beta. intros l ((Q1 & _) & (Q2 & Q3 & _)). split; [exact Q1|split; [exact Q3|]]. eapply Forall_impl; [|exact Q2]. intros t. apply shape_okt.
Qed.

Lemma h_weak_lin_as_dim : forall l, Forall (Forall pr) l -> hr (lin_as_dim pick l) (fun d => v d = sum l /\ pr d).
Proof.
  intros l Hl. eapply h_weaken; [eapply (h_lin_as_dim env eqd pick U UK U_const U_none U_kind U_der Heq Hpick good_div no_div nd_eq nd_const nd_der nd_div false rec (Hrec false))|].
  - eapply Forall_impl; [|exact Hl]. intros t. apply P_false_all.
  - cbn beta. intros d (Q1 & Q2 & _). split; assumption.
Qed.

Lemma sum_divide : forall k o l l', 0 < o -> Forall (fun t => (o | prod t)) l ->
  Forall2 (fun t t' => prod t' = divide k (prod t) o /\ Forall pr t' /\ okt t') l l' ->
  sum l' = divide k (sum l) o /\ Forall (Forall pr) l' /\ (o | sum l).
Proof.
  intros k o l l' Ho Hd H. induction H as [|t t' l l' (H1 & H2 & _) H IH].
  - rewrite sum_nil, divide_0 by exact Ho. split; [reflexivity|split; [constructor|apply Z.divide_0_r]].
  - inversion Hd; subst. destruct (IH ltac:(assumption)) as (I1 & I2 & I3). rewrite !sum_cons. split; [|split].
    + rewrite divide_add, H1, I1; auto.
    + constructor; assumption.
    + apply Z.divide_add_r; assumption.
Qed.

Lemma h_lin_div : forall l o k right, Forall (Forall pr) l -> Forall okt l -> good_of env U o -> positive_of env o ->
  (k = Exact -> (val_of env o | sum l)) ->
  hr (lin_muldiv eqd pick rec l o (MDiv k) right) (fun l' => sum l' = divide k (sum l) (val_of env o) /\ Forall (Forall pr) l').
Proof.
  intros l o k right Hl Hok Ho Hpos Hex. unfold lin_muldiv.
  assert (Ev : v (make_dim l o) = val_of env o) by (destruct o; reflexivity).
  assert (Hp : pr (make_dim l o)).
  { apply (make_dim_proper env U UK U_const U_none U_kind no_div nd_const false l o); [eapply Forall_impl; [|exact Hl]; intros t; apply P_false_all|].
    split; [exact Ho|]. intros E. discriminate E. }
  assert (Hpo : positive env (make_dim l o)) by (destruct o; exact Hpos).
  set (other := make_dim l o) in *. rewrite <- Ev in *. clear Ev Ho Hpos. pose proof (positive_val _ Hpo) as Hv.
  eapply h_bind with (P := fun x : list (list dim) * dim * bool => x = (l, other, right)).
  { destruct right; apply h_ret; reflexivity. }
  intros ((l1, other1), r) E. injection E as -> -> ->. destruct (is_const_of other 1) eqn:E1.
  { apply h_ret. split; [|exact Hl]. destruct other as [|k1 z1|]; try discriminate E1. cbn [is_const_of] in E1. cbn [val]. assert (z1 = 1) as -> by lia. rewrite divide_1. reflexivity. }
  assert (Hall : Forall (fun t => (v other | prod t)) l -> hr (mapMM (mult_extend eqd pick rec other (MDiv k) right) l) (fun l' => sum l' = divide k (sum l) (v other) /\ Forall (Forall pr) l')).
  { intros Hd. eapply h_weaken; [apply h_mapMM|].
    - intros t Hin. apply h_mult_extend_div; [rewrite Forall_forall in Hl; auto|rewrite Forall_forall in Hok; auto|exact Hp|exact Hpo|].
      intros _. rewrite Forall_forall in Hd. auto.
    - cbn beta. intros l' H2. destruct (sum_divide k (v other) l l' Hv Hd H2) as (A1 & A2 & _). split; assumption. }
  destruct (2 <=? length l)%nat eqn:E2.
  - eapply h_bind with (P := fun w => match w with None => Forall (fun t => (v other | prod t)) l | Some dk => dk = k end).
    + eapply h_bind; [apply h_allM with (Q := fun t => (v other | prod t)); intros t Hin; apply h_divisible;
        [rewrite Forall_forall in Hl; auto|rewrite Forall_forall in Hok; auto|exact Hp|exact Hpo]|].
      intros [] Hb; apply h_ret; auto.
    + intros [dk|] Hw; [subst dk|apply Hall; exact Hw]. eapply h_bind; [apply h_weak_lin_as_dim; exact Hl|]. intros n (Q1 & Q2).
      eapply h_bind; [apply h_new_div; [exact Q2|exact Hp|exact Hv|rewrite Q1; exact Hex]|]. intros d (Q3 & Q4). apply h_ret.
      rewrite sum_cons, sum_nil, prod_from_dim. split; [rewrite Q3, Q1; ring|]. constructor; [apply good_from_dim; exact Q4|constructor].
  - eapply h_bind; [apply h_ret with (Q := fun w => w = None); reflexivity|]. intros w ->. cbv iota.
    destruct l as [|t [|t2 l]]; [apply Hall; constructor| |cbn in E2; discriminate E2].
    inversion Hl as [|? ? Hl1 _]; inversion Hok as [|? ? Hok1 _]; subst. rewrite sum_cons, sum_nil, Z.add_0_r in *.
    eapply h_weaken; [apply h_mapMM with (Q := fun t t' => div_post k t other t')|].
    + intros t' [<- |[]]. apply h_mult_extend_div; assumption.
    + cbn beta. intros l' H2. inversion H2 as [|? t' ? l'' (A1 & A2 & _) H3]; subst. inversion H3; subst. rewrite sum_cons, sum_nil. split; [lia|]. constructor; [exact A2|constructor].
Qed.

Lemma h_compute_div : forall k lf self o, pr self -> good_of env U o -> division_ok eqd env k self o ->
  hr (compute eqd pick rec (CDiv k lf) self o) (fun d => v d = divide k (v self) (val_of env o) /\ pr d).
Proof.
  intros k lf self o Hs Ho (H1 & H2 & H3). unfold compute.
  eapply h_bind; [apply h_lin_from_dim_shape; assumption|]. intros l (Q1 & Q2 & Q3).
  eapply h_bind; [apply h_lin_div; [exact Q2|exact Q3|exact Ho|exact H2|rewrite Q1; exact H3]|]. intros l' (Q4 & Q5).
  eapply h_weaken; [apply h_weak_lin_as_dim; exact Q5|]. intros d (Q6 & Q7). split; [rewrite Q6, Q4, Q1; reflexivity|exact Q7].
Qed.
End Div.

Section All.
Variable env : nat -> Z.
Notation v := (val env).
Variable eqd : dim -> dim -> bool.
Variable pick : list entry -> mop -> dim -> operand -> option dim.
Variable U : dim -> Prop.
Variable UK : option dkind -> Prop.
Hypothesis U_const : forall k z, UK k -> U (Const k z).
Hypothesis U_none : UK None.
Hypothesis U_kind : forall d, U d -> UK (kind_of d).
Hypothesis U_der : forall o a b, U (Der o a b) <-> U a /\ U b.
Hypothesis Heq : forall a b, U a -> U b -> eqd a b = true -> v a = v b.
Hypothesis Hnd : forall a b, U a -> U b -> eqd a b = true -> (no_div a <-> no_div b).
Hypothesis Hpick : answers_earlier eqd pick.
Notation pr := (good env U).
Notation st_ok := (sound env U (good_div env U) no_div).

Lemma arith_all : forall n fl op self o, is_cdiv op = false -> P env U no_div fl self -> P_of env U no_div fl o ->
  hoare st_ok (dim_op eqd pick n op self o) (fun d => v d = meaning op (v self) (val_of env o) /\ P env U no_div fl d).
Proof.
  intros n fl op self o Hop Hs Ho. apply dim_op_arith with (UK := UK); try assumption.
  - intros a b Ha Hb E H. apply (Hnd a b); assumption.
  - exact nd_const.
  - exact nd_der.
  - exact nd_div.
Qed.
Theorem dim_op_div : forall n k lf self o, pr self -> good_of env U o -> division_ok eqd env k self o ->
  hoare st_ok (dim_op eqd pick n (CDiv k lf) self o) (fun d => v d = divide k (v self) (val_of env o) /\ pr d).
Proof.
  intros [|n] k lf self o Hs Ho Hd; cbn [dim_op]; [apply h_raise|].
  apply h_cached_div with (eqd := eqd); try assumption; [apply Hs|apply Ho|]. apply h_compute_div with (UK := UK); try assumption.
  intros fl op a o' Hop Ha Ho'. apply arith_all; assumption.
Qed.
Theorem dim_op_all : forall n op self o, pr self -> good_of env U o ->
  (forall k lf, op = CDiv k lf -> division_ok eqd env k self o) ->
  hoare st_ok (dim_op eqd pick n op self o) (fun d => v d = meaning op (v self) (val_of env o) /\ pr d).
Proof.
  intros n op self o Hs Ho Hd. destruct (is_cdiv op) eqn:E.
  - destruct op as [lf|lf|lf|k lf]; try discriminate E. apply dim_op_div; try assumption. apply (Hd k lf eq_refl).
  - eapply h_weaken; [apply (arith_all n false); [exact E|split; [exact Hs|intros F; discriminate F]|split; [exact Ho|intros F; discriminate F]]|].
    cbn beta. intros d (Q1 & Q2 & _). split; assumption.
Qed.
End All.

(** ** Programs *)
Section Programs.
Variable env : nat -> Z.
Notation v := (val env).
Variable U : dim -> Prop.
Notation pr := (good env U).
Variable eqd : dim -> dim -> bool.
Variable pick : list entry -> mop -> dim -> operand -> option dim.
Variable n : nat.

Lemma run_prefix : forall prog ds st ds' st', run eqd pick n prog ds st = (Ok ds', st') -> exists more, ds' = ds ++ more.
Proof.
  induction prog as [|s prog IH]; intros ds st ds' st' H; cbn [run] in H.
  - unfold ret in H. injection H as <- _. exists []. rewrite app_nil_r. reflexivity.
  - destruct (nth_error ds (s_self s)) as [d|]; [|discriminate H]. destruct (operand_at ds (s_arg s)) as [o|]; [|discriminate H].
    unfold mbind in H. destruct (dim_op eqd pick n (s_op s) d o st) as [[r|e] st1]; [|discriminate H].
    destruct (IH _ _ _ _ H) as (more & ->). exists (r :: more). rewrite <- app_assoc. reflexivity.
Qed.
Lemma operand_at_app : forall ds more a o, operand_at ds a = Some o -> operand_at (ds ++ more) a = Some o.
Proof.
  intros ds more [z|i] o H; cbn in *; [exact H|]. destruct (nth_error ds i) as [d|] eqn:E; [|discriminate H].
  rewrite nth_error_app1; [rewrite E; exact H|]. apply nth_error_Some. rewrite E. discriminate.
Qed.
Lemma nth_app_some : forall (ds more : list dim) i d, nth_error ds i = Some d -> nth_error (ds ++ more) i = Some d.
Proof. intros ds more i d H. rewrite nth_error_app1; [exact H|]. apply nth_error_Some. rewrite H. discriminate. Qed.
Lemma operand_value : forall ds a o, operand_at ds a = Some o -> arg_value (map v ds) a = Some (val_of env o).
Proof.
  intros ds [z|i] o H; cbn in *; [injection H as <-; reflexivity|]. destruct (nth_error ds i) as [d|] eqn:E; [|discriminate H].
  injection H as <-. rewrite nth_error_map, E. reflexivity.
Qed.
Lemma operand_proper : forall ds a o, Forall pr ds -> operand_at ds a = Some o -> good_of env U o.
Proof.
  intros ds [z|i] o Hd H; cbn in H; [injection H as <-; split; exact I|]. destruct (nth_error ds i) as [d|] eqn:E; [|discriminate H].
  injection H as <-. rewrite Forall_forall in Hd. apply Hd. eapply nth_error_In; eassumption.
Qed.

Variable Inv : list entry -> Prop.
Variable OK : mop -> dim -> operand -> Prop.
Hypothesis Hop : forall op d o, pr d -> good_of env U o -> OK op d o ->
  hoare Inv (dim_op eqd pick n op d o) (fun r => v r = meaning op (v d) (val_of env o) /\ pr r).
Lemma run_correct : forall prog ds st ds' st', Inv st -> Forall pr ds ->
  run eqd pick n prog ds st = (Ok ds', st') ->
  Forall (fun s => forall d o, nth_error ds' (s_self s) = Some d -> operand_at ds' (s_arg s) = Some o -> OK (s_op s) d o) prog ->
  run_values prog (map v ds) = Some (map v ds') /\ Forall pr ds' /\ Inv st'.
Proof.
  induction prog as [|s prog IH]; intros ds st ds' st' Hst Hd H Hok.
  - cbn [run] in H. unfold ret in H. injection H as <- <-. split; [reflexivity|split; assumption].
  - pose proof H as H0. cbn [run] in H. inversion Hok as [|? ? Hs Hok']; subst.
    destruct (nth_error ds (s_self s)) as [d|] eqn:Ed; [|discriminate H]. destruct (operand_at ds (s_arg s)) as [o|] eqn:Eo; [|discriminate H].
    destruct (run_prefix _ _ _ _ _ H0) as (more & Em).
    assert (Hsd : OK (s_op s) d o) by (apply Hs; subst ds'; [apply nth_app_some; exact Ed|apply operand_at_app; exact Eo]).
    unfold mbind in H. assert (Pd : pr d) by (rewrite Forall_forall in Hd; apply Hd; eapply nth_error_In; eassumption).
    destruct (Hop (s_op s) d o Pd (operand_proper _ _ _ Hd Eo) Hsd st Hst) as (I1 & I2).
    destruct (dim_op eqd pick n (s_op s) d o st) as [[r|e] st1]; [|discriminate H]. cbn [fst snd] in *.
    destruct (I2 r eq_refl) as (V1 & V2).
    destruct (IH (ds ++ [r]) st1 ds' st' I1) as (J1 & J2 & J3); [apply Forall_app; split; [exact Hd|constructor; [exact V2|constructor]]|exact H|exact Hok'|].
    split; [|split; assumption]. cbn [run_values]. rewrite nth_error_map, Ed. cbn [option_map]. rewrite (operand_value _ _ _ Eo).
    rewrite <- V1. rewrite map_app in J1. exact J1.
Qed.
End Programs.

(** Programs without and with divisions, on a set of dims on which equal dims mean the same. *)
Section On.
Variable env : nat -> Z.
Notation v := (val env).
Variable eqd : dim -> dim -> bool.
Variable pick : list entry -> mop -> dim -> operand -> option dim.
Variable U : dim -> Prop.
Variable UK : option dkind -> Prop.
Variable n : nat.
Variable prog : list step.
Variable ds ds' : list dim.
Variable st' : list entry.
Hypothesis U_const : forall k z, UK k -> U (Const k z).
Hypothesis U_none : UK None.
Hypothesis U_kind : forall d, U d -> UK (kind_of d).
Hypothesis U_der : forall o a b, U (Der o a b) <-> U a /\ U b.
Hypothesis Heq : forall a b, U a -> U b -> eqd a b = true -> v a = v b.
Hypothesis Hpick : answers_earlier eqd pick.
Hypothesis Hds : Forall (good env U) ds.
Hypothesis Hrun : run eqd pick n prog ds [] = (Ok ds', st').

Lemma arithmetic_on : no_division prog -> run_values prog (map v ds) = Some (map v ds').
Proof.
  intros Hp.
  eapply (run_correct env U eqd pick n (sound env U (fun _ => True) (fun _ => True)) (fun op _ _ => is_cdiv op = false)).
  - intros op d o Pd Po Hop. eapply h_weaken.
    + apply dim_op_arith with (UK := UK) (flag := false); try eassumption; try (intros; exact I).
      * intros; split; auto.
      * split; [exact Pd|intros; exact I].
      * split; [exact Po|]. intros E. discriminate E.
    + intros r (Q1 & Q2 & _). split; assumption.
  - constructor.
  - exact Hds.
  - exact Hrun.
  - eapply Forall_impl; [|exact Hp]. intros s Hs d o _ _. cbn beta in *. destruct (s_op s); try reflexivity. destruct Hs.
Qed.
Hypothesis Hnd : forall a b, U a -> U b -> eqd a b = true -> (no_div a <-> no_div b).
Lemma division_on : divisions_ok eqd env prog ds' -> run_values prog (map v ds) = Some (map v ds').
Proof.
  intros Hok.
  eapply (run_correct env U eqd pick n (sound env U (good_div env U) no_div) (fun op d o => forall k lf, op = CDiv k lf -> division_ok eqd env k d o)).
  - intros op d o Pd Po Hop. apply dim_op_all with (UK := UK); assumption.
  - constructor.
  - exact Hds.
  - exact Hrun.
  - eapply Forall_impl; [|exact Hok]. intros s Hs d o Ed Eo k lf Es. cbn beta in Hs. rewrite Es, Ed, Eo in Hs. exact Hs.
Qed.
End On.

(** ** Computed sizes *)
Lemma dyn_size_val : forall env d, sums_nonneg env d -> dyn_size env d = val env d.
Proof.
  intros env d. induction d as [id nm k s|k z|o a IHa b IHb]; intros H; try reflexivity.
  cbn [sums_nonneg] in H. destruct H as (Ha & Hb & Ho). cbn [dyn_size]. destruct (size (Der o a b)) as [z|] eqn:E.
  - symmetry. apply size_val. exact E.
  - rewrite (IHa Ha), (IHb Hb). destruct o; cbn [val op_value]; try reflexivity. lia.
Qed.

Lemma dyn_size_static : forall env d z, size d = Some z -> dyn_size env d = z.
Proof.
  intros env [id nm k s|k z0|o a b] z H; cbn [dyn_size].
  - cbn in H. subst s. reflexivity.
  - cbn in H. injection H as <-. reflexivity.
  - rewrite H. reflexivity.
Qed.
Lemma dim_value_static : forall envs d z, size d = Some z -> dim_value envs d = z.
Proof.
  intros envs [id nm k s|k z0|o a b] z H; cbn [dim_value].
  - cbn in H. subst s. reflexivity.
  - cbn in H. injection H as <-. reflexivity.
  - rewrite H. reflexivity.
Qed.
Lemma one_source_dyn : forall d, one_source d -> size d = None.
Proof.
  induction d as [id nm k s|k z|o a IHa b IHb]; intros H; cbn in H; [exact H|destruct H|].
  cbn [size]. destruct o as [| |dk r].
  - destruct H as [(H & _)|(_ & H)]; [rewrite (IHa H); reflexivity|rewrite (IHb H); destruct (size a); reflexivity].
  - destruct H as [(H & _)|(_ & H)]; [rewrite (IHa H); reflexivity|rewrite (IHb H); destruct (size a); reflexivity].
  - destruct H as (H & _). rewrite (IHa H). reflexivity.
Qed.
(** a growing function of a maximum *)
Lemma max_list_mono : forall (f : Z -> Z) l, l <> [] -> (forall x y, 0 <= x <= y -> 0 <= f x <= f y) -> Forall (fun x => 0 <= x) l ->
  max_list (map f l) = f (max_list l).
Proof.
  intros f l Hne Hf Hl. destruct l as [|x l]; [contradiction|]. clear Hne. revert x Hl. induction l as [|y l IH]; intros x Hl.
  - inversion Hl; subst. unfold max_list. cbn [map fold_right]. pose proof (Hf x x ltac:(lia)). rewrite !Z.max_l by lia. reflexivity.
  - inversion Hl as [|? ? Hx Hl']; subst. specialize (IH y Hl'). change (max_list (map f (x :: y :: l))) with (Z.max (f x) (max_list (map f (y :: l)))).
    rewrite IH. change (max_list (x :: y :: l)) with (Z.max x (max_list (y :: l))).
    assert (Hm : 0 <= max_list (y :: l)). { clear. induction (y :: l) as [|a t IHt]; unfold max_list in *; cbn [fold_right]; lia. }
    destruct (Z.le_ge_cases x (max_list (y :: l))) as [H|H].
    + pose proof (Hf x _ (conj Hx H)). rewrite (Z.max_r x) by exact H. apply Z.max_r. lia.
    + pose proof (Hf (max_list (y :: l)) x ltac:(lia)). rewrite (Z.max_l x) by lia. apply Z.max_l. lia.
Qed.
Lemma dyn_nonneg : forall env d, (forall i, 0 <= env i) -> one_source d -> 0 <= dyn_size env d.
Proof.
  intros env d He. induction d as [id nm k s|k z|o a IHa b IHb]; intros H.
  - cbn in H. subst s. cbn. apply He.
  - destruct H.
  - cbn [dyn_size]. rewrite (one_source_dyn _ H). cbn [one_source] in H. destruct o as [| |dk r]; [lia| |]; cbn [op_value].
    + destruct H as [(H & z & E & Hz)|((z & E & Hz) & H)]; rewrite (dyn_size_static _ _ _ E); [specialize (IHa H)|specialize (IHb H)]; nia.
    + destruct H as (H & z & E & Hz). rewrite (dyn_size_static _ _ _ E). specialize (IHa H). destruct dk; cbn [divide]; [apply Z.div_pos; lia|apply Z.div_pos; lia|].
      set (x := dyn_size env a) in *. assert (- x / z <= 0); [|lia]. apply Z.div_le_upper_bound; lia.
Qed.
Theorem dim_value_max : forall envs d, envs <> [] -> Forall (fun env => forall i, 0 <= env i) envs -> one_source d ->
  dim_value envs d = max_list (map (fun env => dyn_size env d) envs).
Proof.
  intros envs d Hne He. induction d as [id nm k s|k z|o a IHa b IHb]; intros H.
  - cbn in H. subst s. reflexivity.
  - destruct H.
  - pose proof (one_source_dyn _ H) as Es. cbn [dim_value]. rewrite Es.
    assert (Hmap : forall (x : dim) (f : Z -> Z), one_source x -> (forall env, dyn_size env (Der o a b) = f (dyn_size env x)) ->
      (forall y z, 0 <= y <= z -> 0 <= f y <= f z) -> max_list (map (fun env => dyn_size env (Der o a b)) envs) = f (max_list (map (fun env => dyn_size env x) envs))).
    { intros x f Hx Hf Hm. rewrite <- max_list_mono; [|destruct envs; [contradiction|discriminate]|exact Hm|].
      - rewrite map_map. f_equal. apply map_ext. intros env. apply Hf.
      - rewrite Forall_forall in *. intros y Hy. apply in_map_iff in Hy. destruct Hy as (env & <- & Hin). apply dyn_nonneg; auto. }
    assert (Hds : forall env, dyn_size env (Der o a b) = match o with OAdd => Z.max 0 (dyn_size env a + dyn_size env b) | _ => op_value o (dyn_size env a) (dyn_size env b) end).
    { intros env. cbn [dyn_size]. rewrite Es. reflexivity. }
    cbn [one_source] in H. destruct o as [| |dk r].
    + destruct H as [(H & Hb)|(Ha & H)].
      * destruct (size b) as [z|] eqn:Eb; [|contradiction]. rewrite (dim_value_static _ _ _ Eb), (IHa H).
        rewrite (Hmap a (fun x => Z.max 0 (x + z)) H); [reflexivity| |intros; lia]. intros env. rewrite Hds, (dyn_size_static _ _ _ Eb). reflexivity.
      * destruct (size a) as [z|] eqn:Ea; [|contradiction]. rewrite (dim_value_static _ _ _ Ea), (IHb H).
        rewrite (Hmap b (fun x => Z.max 0 (z + x)) H); [reflexivity| |intros; lia]. intros env. rewrite Hds, (dyn_size_static _ _ _ Ea). reflexivity.
    + destruct H as [(H & z & Eb & Hz)|((z & Ea & Hz) & H)]; cbn [op_value].
      * rewrite (dim_value_static _ _ _ Eb), (IHa H).
        rewrite (Hmap a (fun x => x * z) H); [reflexivity| |intros; nia]. intros env. rewrite Hds, (dyn_size_static _ _ _ Eb). reflexivity.
      * rewrite (dim_value_static _ _ _ Ea), (IHb H).
        rewrite (Hmap b (fun x => z * x) H); [reflexivity| |intros; nia]. intros env. rewrite Hds, (dyn_size_static _ _ _ Ea). reflexivity.
    + destruct H as (H & z & Eb & Hz). cbn [op_value]. rewrite (dim_value_static _ _ _ Eb), (IHa H).
      rewrite (Hmap a (fun x => divide dk x z) H); [reflexivity| |].
      * intros env. rewrite Hds, (dyn_size_static _ _ _ Eb). reflexivity.
      * intros x y Hxy. destruct dk; cbn [divide].
        -- split; [apply Z.div_pos; lia|apply Z.div_le_mono; lia].
        -- split; [apply Z.div_pos; lia|apply Z.div_le_mono; lia].
        -- split; [assert (- x / z <= 0); [apply Z.div_le_upper_bound; lia|lia]|].
           assert (- y / z <= - x / z); [apply Z.div_le_mono; lia|lia].
Qed.
