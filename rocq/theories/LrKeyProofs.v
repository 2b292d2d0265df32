(** Which score counts ([get_error_key]). *)
From Coq Require Import Ascii String QArith Sorted.
From Verif Require Import Base ListLemmas PyDict OptimModel OptimProofs LrModel LrSpec.
Local Open Scope nat_scope. Local Open Scope list_scope.

Lemma sort_strings_names l : sort_strings l = sort_names l.
Proof.
  unfold sort_strings. induction l as [|x l IH]; [reflexivity|]. cbn [fold_right sort_names]. rewrite IH. clear.
  induction (sort_names l) as [|y r IH]; [reflexivity|]. cbn [insert_string insert_name]. now rewrite IH.
Qed.
Lemma slt_leb a b : slt a b -> String.leb a b = true.
Proof. rewrite slt_spec. unfold String.leb. now intros ->. Qed.
Lemma str_leb_refl a : String.leb a a = true.
Proof. unfold String.leb. pose proof (String.compare_antisym a a) as E. destruct (String.compare a a); try reflexivity; discriminate. Qed.
Lemma str_leb_antisym a b : String.leb a b = true -> String.leb b a = true -> a = b.
Proof.
  unfold String.leb. rewrite (String.compare_antisym a b). destruct (String.compare b a) eqn:E; cbn; intros H1 H2; try discriminate.
  symmetry. now apply String.compare_eq_iff.
Qed.

Section P.
Context (names : list string).

Lemma pref_skip Q cl k : (forall n, In n names -> Q n = false) -> preferred (Q :: cl) names k <-> preferred cl names k.
Proof.
  intros HQ. split; intros (Hin&be&P&af&E&Hk&Hb&Hm); (split; [exact Hin|]).
  - destruct be as [|Q' be]; cbn in E; injection E as EQ E.
    + subst P. rewrite (HQ k Hin) in Hk. discriminate.
    + exists be, P, af. split; [exact E|]. split; [exact Hk|]. split; [|exact Hm]. intros o n Ho. apply Hb. now right.
  - exists (Q :: be), P, af. subst cl. split; [reflexivity|]. split; [exact Hk|]. split; [|exact Hm]. intros o n [<-|Ho]; [apply HQ|now apply Hb].
Qed.

Lemma pref_here P cl k0 k : In k0 names -> P k0 = true -> (forall n, In n names -> P n = true -> String.leb k0 n = true) ->
  (preferred (P :: cl) names k <-> k = k0).
Proof.
  intros Hin HP Hm. split.
  - intros (Hin'&be&P'&af&E&Hk&Hb&Hm'). destruct be as [|Q' be]; cbn in E; injection E as EQ E.
    + subst P'. apply str_leb_antisym; [now apply Hm'|now apply Hm].
    + subst Q'. rewrite (Hb P k0 (or_introl eq_refl) Hin) in HP. discriminate.
  - intros ->. split; [exact Hin|]. exists [], P, cl. split; [reflexivity|]. split; [exact HP|]. split; [intros o n []|exact Hm].
Qed.

Lemma pref_nil k : ~ preferred [] names k.
Proof. intros (_&be&P&af&E&_). destruct be; discriminate. Qed.

Lemma find_sorted l P k : StronglySorted slt l -> find P l = Some k -> In k l /\ P k = true /\ forall n, In n l -> P n = true -> String.leb k n = true.
Proof.
  induction 1 as [|x l Hs IH Hf]; cbn [find]; [discriminate|]. destruct (P x) eqn:E.
  - intros [= <-]. split; [now left|]. split; [exact E|]. intros n [<-|Hn] _; [apply str_leb_refl|]. apply slt_leb. exact (proj1 (Forall_forall _ _) Hf n Hn).
  - intros H. destruct (IH H) as (H1&H2&H3). split; [now right|]. split; [exact H2|]. intros n [<-|Hn] Hp; [congruence|now apply H3].
Qed.
End P.

(** one kind after the other, by names in order *)
Lemma step_names names l P cl r k : (forall n, In n l <-> In n names) -> StronglySorted slt l ->
  (preferred cl names k <-> r = Some k) -> (preferred (P :: cl) names k <-> match find P l with Some x => Some x | None => r end = Some k).
Proof.
  intros Hl Hs Hr. destruct (find P l) as [x|] eqn:E.
  - destruct (find_sorted _ _ _ Hs E) as (H1&H2&H3). rewrite (pref_here names P cl x k); [split; congruence|now apply Hl|exact H2|intros n Hn; apply H3, Hl, Hn].
  - rewrite pref_skip; [exact Hr|]. intros n Hn. apply (find_none _ _ E). now apply Hl.
Qed.
Lemma step_keys (err : dict string Q) keys cl r k : (preferred cl (dkeys err) k <-> r = Some k) ->
  (preferred (map (fun k n => String.eqb n k) keys ++ cl) (dkeys err) k <-> match find (dhas err) keys with Some x => Some x | None => r end = Some k).
Proof.
  intros Hr. induction keys as [|x keys IH]; [exact Hr|]. cbn [map app find]. destruct (dhas err x) eqn:E.
  - rewrite (pref_here _ _ _ x k); [split; congruence|now apply dhas_keys|apply String.eqb_refl|]. intros n _ Hn. apply String.eqb_eq in Hn. subst. apply str_leb_refl.
  - rewrite pref_skip; [exact IH|]. intros n Hn. apply String.eqb_neq. intros ->. apply dhas_keys in Hn. congruence.
Qed.
Lemma pref_ext cl cl' names k : Forall2 (fun P P' : string -> bool => forall n, P n = P' n) cl cl' -> preferred cl names k -> preferred cl' names k.
Proof.
  intros HF (Hin&be&P&af&E&Hk&Hb&Hm). subst cl. apply Forall2_app_inv_l in HF. destruct HF as (be'&r&HF1&HF2&->). inversion HF2 as [|? P' ? af' HP _]; subst.
  split; [exact Hin|]. exists be', P', af'. split; [reflexivity|]. split; [now rewrite <- HP|]. split.
  - intros o n Ho Hn. clear - HF1 Ho Hn Hb. induction HF1 as [|a b l l' Hab _ IH]; [destruct Ho|]. destruct Ho as [<-|Ho]; [rewrite <- Hab; apply Hb; [now left|exact Hn]|].
    apply IH; [|exact Ho]. intros o' n' Ho' Hn'. apply Hb; [now right|exact Hn'].
  - intros n Hn Hp. apply Hm; [exact Hn|now rewrite HP].
Qed.

Lemma last_kind names l k : (forall n, In n l <-> In n names) -> StronglySorted slt l -> (preferred [fun _ => true] names k <-> hd_error l = Some k).
Proof.
  intros Hl Hs. pose proof (step_names names l (fun _ => true) [] None k Hl Hs) as G. destruct l as [|x l']; cbn [find hd_error] in *;
    (apply G; split; [intros X; now apply pref_nil in X|discriminate]).
Qed.

Lemma error_key_spec c epoch ed k : dget (c_data c) epoch = Some ed -> dict_ok (d_error ed) ->
  (get_error_key c epoch = Some k <-> preferred (score_kinds c) (dkeys (d_error ed)) k).
Proof.
  intros E Hd. unfold get_error_key. rewrite E. set (err := d_error ed) in *. rewrite sort_strings_names.
  set (l := sort_names (dkeys err)).
  assert (Hl : forall n, In n l <-> In n (dkeys err)).
  { intros n. unfold l. split; apply Permutation_in; [|apply Permutation_sym]; apply sort_names_perm. }
  assert (Hs : StronglySorted slt l) by (apply sort_names_sorted; exact Hd).
  set (keys := List.app _ ["dev_score"; "dev_score_output"]%string).
  set (chain := match find (dhas err) keys with Some x => Some x | None => _ end).
  assert (Hc : preferred (score_kinds c) (dkeys err) k <-> chain = Some k).
  { unfold score_kinds, chain. fold keys. apply step_keys. apply (step_names _ l); [exact Hl|exact Hs|]. apply (step_names _ l); [exact Hl|exact Hs|]. apply (step_names _ l); [exact Hl|exact Hs|].
    assert (G : preferred (map (fun k n => String.eqb n k) ["train_score"; "train_score_output"]%string ++ [fun _ => true]) (dkeys err) k
      <-> match find (dhas err) ["train_score"; "train_score_output"]%string with Some x => Some x | None => hd_error l end = Some k).
    { apply step_keys. apply last_kind; assumption. }
    rewrite <- G. cbn [map app]. split; apply pref_ext; (apply Forall2_cons; [intros n; apply String.eqb_sym|]); (apply Forall2_cons; [intros n; apply String.eqb_sym|]); (apply Forall2_cons; [reflexivity|apply Forall2_nil]). }
  rewrite Hc. clear Hc. destruct err as [|x err'] eqn:Ee.
  - cbn [chain]. unfold chain. cbn. assert (El : l = []) by reflexivity. assert (Ef : forall ks, find (dhas ([] : dict string Q)) ks = None) by (induction ks; auto).
    rewrite Ef. reflexivity.
  - destruct ((List.length (x :: err') =? 1) && dhas (x :: err') "old_format_score"%string) eqn:Eo; [|reflexivity].
    apply andb_true_iff in Eo. destruct Eo as [E1 E2]. apply Nat.eqb_eq in E1. destruct err'; [|discriminate]. apply dhas_keys in E2. destruct x as [n v]. cbn in E2. destruct E2 as [->|[]].
    assert (Hin : forall r, chain = Some r -> r = "old_format_score"%string).
    { intros r Hr. unfold chain in Hr. assert (El : l = ["old_format_score"%string]) by reflexivity. rewrite El in Hr. clear - Hr.
      destruct (find (dhas [("old_format_score"%string, v)]) keys) as [y|] eqn:Ey; [injection Hr as <-; apply find_some in Ey; destruct Ey as [_ Ey]; apply dhas_keys in Ey; destruct Ey as [<-|[]]; reflexivity|].
      cbn in Hr. congruence. }
    assert (Hex : chain <> None).
    { unfold chain. assert (El : l = ["old_format_score"%string]) by reflexivity. rewrite El. destruct (find (dhas [("old_format_score"%string, v)]) keys); cbn; discriminate. }
    destruct chain as [r|]; [|congruence]. now rewrite (Hin r eq_refl).
Qed.
