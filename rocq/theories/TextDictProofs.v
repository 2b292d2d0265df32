From Coq Require Import String.
From Verif Require Import Base PyDict ListLemmas SeqOrderModel SeqOrderSpec SeqOrderProofs TextDictModel TextDictSpec.
Local Open Scope nat_scope.

Lemma parts_concat {A} (ls : list (list A)) : parts (map (@List.length A) ls) (List.concat ls) = ls.
Proof.
  induction ls as [|l ls IH]; [reflexivity|]. cbn [map List.concat parts]. rewrite firstn_app, firstn_all, Nat.sub_diag, firstn_O, app_nil_r.
  rewrite skipn_app, skipn_all, Nat.sub_diag. cbn [skipn app]. rewrite IH. reflexivity.
Qed.

Lemma best_first b l : first_best (b :: l) (snd (best_from b l)).
Proof.
  assert (G : forall l b p, (forall j s t, nth_error p j = Some (s, t) -> (s <= fst b)%Z) ->
     forall i, nth_error p i = Some b -> (forall j s t, nth_error p j = Some (s, t) -> j < i -> (s < fst b)%Z) ->
     first_best (p ++ l) (snd (best_from b l))).
  { clear. induction l as [|x l IH]; intros b p H1 i Hi H2.
    - rewrite app_nil_r. cbn [best_from]. exists i, (fst b). split; [rewrite Hi; destruct b; reflexivity|]. intros j s t Hj. split; [eapply H1; exact Hj|eapply H2; exact Hj].
    - cbn [best_from]. change (p ++ x :: l) with (p ++ [x] ++ l). rewrite app_assoc.
      assert (Hi' : i < List.length p) by (apply nth_error_Some; congruence).
      destruct (Z.ltb_spec (fst b) (fst x)) as [H|H].
      + apply (IH x (p ++ [x])) with (i := List.length p).
        * intros j s t Hj. destruct (Nat.lt_ge_cases j (List.length p)) as [Hl|Hl]; [rewrite nth_error_app1 in Hj by exact Hl; apply H1 in Hj; lia|].
          rewrite nth_error_app2 in Hj by exact Hl. destruct (j - List.length p) as [|[|]]; cbn in Hj; try discriminate. injection Hj as ->. cbn. lia.
        * rewrite nth_error_app2, Nat.sub_diag by lia. reflexivity.
        * intros j s t Hj Hl. rewrite nth_error_app1 in Hj by exact Hl. apply H1 in Hj. lia.
      + apply (IH b (p ++ [x])) with (i := i).
        * intros j s t Hj. destruct (Nat.lt_ge_cases j (List.length p)) as [Hl|Hl]; [rewrite nth_error_app1 in Hj by exact Hl; eapply H1; exact Hj|].
          rewrite nth_error_app2 in Hj by exact Hl. destruct (j - List.length p) as [|[|]]; cbn in Hj; try discriminate. injection Hj as ->. cbn in H. exact H.
        * rewrite nth_error_app1 by exact Hi'. exact Hi.
        * intros j s t Hj Hl. rewrite nth_error_app1 in Hj by lia. eapply H2; eassumption. }
  apply (G l b [b]) with (i := 0).
  - intros [|[|j]] s t Hj; cbn in Hj; try discriminate. injection Hj as ->. cbn. lia.
  - reflexivity.
  - intros j s t _ Hj. lia.
Qed.

Section P.
Variable enc : string -> list nat.
Context {S : Type}.
Let get_seq (v : S) (s : string) : list nat * S := (enc s, v).
Variable fmt : format.

Lemma encode_all_eq v l : encode_all get_seq v l = (map (fun x => enc (snd x)) l, v).
Proof. induction l as [|[s t] l IH]; [reflexivity|]. cbn [encode_all get_seq]. rewrite IH. reflexivity. Qed.

Lemma collect_ok st o data i c tag val : st_order st = Some o -> st_data st = Some data -> nth_error o i = Some c -> nth_error data c = Some (tag, val) ->
  value_ok fmt val -> exists f, collect get_seq fmt st i = Ok (tag, f, st) /\ encoded enc fmt val f.
Proof.
  intros Ho Hd Hi Hc Hv. unfold collect. rewrite Ho. unfold pyget. rewrite Hi. cbn [bind]. rewrite Hd, Hc. cbn [bind]. destruct st as [sd so sn sv]. cbn in Ho, Hd. subst so sd. cbn [st_data st_order st_num st_vocab].
  destruct fmt, val as [s|l|]; cbn in Hv; try contradiction.
  - eexists. split; reflexivity.
  - destruct l as [|b l]; [congruence|]. cbn [get_seq]. rewrite encode_all_eq. eexists. split; [reflexivity|]. cbn [encoded].
    exists (snd (best_from b l)), (List.concat (map (fun x => enc (snd x)) (b :: l))), (map (@List.length nat) (map (fun x => enc (snd x)) (b :: l))).
    split; [apply best_first|]. split; [reflexivity|]. rewrite parts_concat. split; reflexivity.
Qed.

Lemma read_ok st o data : st_order st = Some o -> st_data st = Some data -> Forall (fun x => value_ok fmt (snd x)) data ->
  Forall (fun c => c < List.length data) o ->
  exists l, read get_seq fmt st 0 (List.length o) = Ok (l, st) /\
    Forall2 (fun c x => exists val, nth_error data c = Some (fst x, val) /\ encoded enc fmt val (snd x)) o l.
Proof.
  intros Ho Hd Hv Hl. assert (G : forall p o', p ++ o' = o -> exists l, read get_seq fmt st (List.length p) (List.length o') = Ok (l, st) /\
    Forall2 (fun c x => exists val, nth_error data c = Some (fst x, val) /\ encoded enc fmt val (snd x)) o' l); [|exact (G [] o eq_refl)].
  intros p o'. revert p. induction o' as [|c o' IH]; intros p E; [exists []; split; [reflexivity|constructor]|]. cbn [List.length read].
  assert (En : nth_error o (List.length p) = Some c) by (rewrite <- E, nth_error_app2, Nat.sub_diag by lia; reflexivity).
  assert (Hc : c < List.length data) by (rewrite Forall_forall in Hl; apply Hl; eapply nth_error_In; exact En).
  destruct (nth_error data c) as [[tag val]|] eqn:Ec; [|apply nth_error_None in Ec; lia].
  assert (Hval : value_ok fmt val) by (rewrite Forall_forall in Hv; apply (Hv (tag, val)); eapply nth_error_In; exact Ec).
  destruct (collect_ok st o data (List.length p) c tag val Ho Hd En Ec Hval) as (f & Ef & Hf). rewrite Ef. cbn [bind].
  destruct (IH (p ++ [c])) as (l & El & Hfl); [rewrite <- app_assoc; exact E|]. rewrite app_length, Nat.add_1_r in El. cbn [fst snd] in El |- *. rewrite El. cbn [bind].
  exists ((tag, f) :: l). split; [reflexivity|]. constructor; [exists val; split; [exact Ec|exact Hf]|exact Hfl].
Qed.
End P.

Lemma load_ok {S} fmt file (st : state S) : st_data st = None -> file_dict file <> [] -> (forall t v l, file_dict file = (t, v) :: l -> value_ok fmt v) ->
  load fmt file st = Ok {| st_data := Some (file_dict file); st_order := st_order st; st_num := st_num st; st_vocab := st_vocab st |}.
Proof.
  intros Hd Hne Hv. unfold load. rewrite Hd. destruct (file_dict file) as [|[t v] l]; [congruence|]. specialize (Hv t v l eq_refl).
  destruct fmt, v as [s|[|x b]|]; cbn in Hv; try contradiction; try congruence; reflexivity.
Qed.
