From Coq Require Import Ascii.
From Verif Require Import Base ListLemmas JsonModel JsonSpec.
Local Open Scope nat_scope. Local Open Scope list_scope.

Lemma match_token_text s t r : match_token s = Some (t, r) -> s = token_text t ++ r.
Proof.
  destruct s as [|c s]; [discriminate|]. cbn [match_token]. destruct (Ascii.eqb_spec c quote) as [-> |]; [intros [= <- <-]; reflexivity|]. destruct (is_newline c); [intros [= <- <-]; reflexivity|].
  destruct s as [|c' s]; [discriminate|]. destruct (Ascii.eqb_spec c slash) as [-> |], (Ascii.eqb_spec c' star) as [-> |]; cbn [andb]; try (intros [= <- <-]; reflexivity); try discriminate.
  - destruct (Ascii.eqb slash star && Ascii.eqb c' slash) eqn:E; [discriminate|]. destruct (Ascii.eqb_spec c' slash) as [-> |]; [intros [= <- <-]; reflexivity|discriminate].
  - destruct (Ascii.eqb c star && Ascii.eqb star slash) eqn:E; [|discriminate]. rewrite andb_comm in E. discriminate.
  - destruct (Ascii.eqb_spec c star) as [-> |], (Ascii.eqb_spec c' slash) as [-> |]; cbn [andb]; try discriminate. intros [= <- <-]; reflexivity.
Qed.
Lemma token_len t : 1 <= length (token_text t).
Proof. destruct t; cbn; lia. Qed.
Lemma scan_fuel strip : forall f g s prev st pend out, length s <= f -> length s <= g -> scan f strip s prev st pend out = scan g strip s prev st pend out.
Proof.
  induction f as [|f IH]; intros g s prev st pend out Hf Hg; [destruct s; [destruct g; reflexivity|cbn in Hf; lia]|]. destruct s as [|c s]; [destruct g; reflexivity|]. destruct g as [|g]; [cbn in Hg; lia|]. cbn [scan]. cbn [length] in *.
  destruct (match_token (c :: s)) as [[t r']|] eqn:E; [|apply IH; lia]. destruct (on_token strip t prev st) as [[st' p'] a]. apply match_token_text in E. assert (H : length (c :: s) = length (token_text t) + length r') by (rewrite E, app_length; reflexivity). cbn [length] in H. pose proof (token_len t). apply IH; lia.
Qed.

Section P.
Variable strip : bool.
Definition sc (s prev : list ascii) (st : state) (pend out : list ascii) : list ascii := scan (length s) strip s prev st pend out.
Lemma sc_nil prev st pend out : sc [] prev st pend out = out ++ pend.
Proof. reflexivity. Qed.
Lemma sc_token t r prev st pend out : match_token (token_text t ++ r) = Some (t, r) -> sc (token_text t ++ r) prev st pend out =
  let '(st', pend', app) := on_token strip t prev st in sc r (rev (token_text t) ++ prev) st' pend' (out ++ flush strip st pend ++ app).
Proof.
  intros H. unfold sc at 1. destruct (token_text t ++ r) as [|c s] eqn:E; [destruct t; discriminate|]. cbn [length scan]. rewrite H. destruct (on_token strip t prev st) as [[st' p'] a]. apply scan_fuel; [|reflexivity].
  assert (Hl : length (token_text t ++ r) = S (length s)) by (rewrite E; reflexivity). rewrite app_length in Hl. pose proof (token_len t). lia.
Qed.
Lemma sc_char c r prev st pend out : match_token (c :: r) = None -> sc (c :: r) prev st pend out = sc r (c :: prev) st (pend ++ [c]) out.
Proof. intros H. unfold sc. cbn [length scan]. now rewrite H. Qed.

Lemma newline_not c : is_newline c = true -> c <> quote /\ c <> slash /\ c <> star /\ c <> backslash.
Proof. unfold is_newline. intros H. apply orb_true_iff in H. destruct H as [H|H]; apply Ascii.eqb_eq in H; subst c; repeat split; discriminate. Qed.
Lemma match_quote r : match_token (quote :: r) = Some (TQuote, r).
Proof. reflexivity. Qed.
Lemma match_newline c r : is_newline c = true -> match_token (c :: r) = Some (TNewline c, r).
Proof. intros H. destruct (newline_not c H) as (H1&_). cbn [match_token]. destruct (Ascii.eqb_spec c quote); [contradiction|]. now rewrite H. Qed.
Lemma match_none c r : c <> quote -> is_newline c = false -> match_token (c :: r) = None \/
  exists c' r', r = c' :: r' /\ ((c = slash /\ c' = star /\ match_token (c :: r) = Some (TOpen, r')) \/ (c = star /\ c' = slash /\ match_token (c :: r) = Some (TClose, r')) \/ (c = slash /\ c' = slash /\ match_token (c :: r) = Some (TLine, r'))).
Proof.
  intros Hq Hn. cbn [match_token]. destruct (Ascii.eqb_spec c quote); [contradiction|]. rewrite Hn. destruct r as [|c' r']; [now left|].
  destruct (Ascii.eqb_spec c slash) as [-> |], (Ascii.eqb_spec c' star) as [-> |]; cbn [andb].
  - right. exists star, r'. tauto.
  - destruct (Ascii.eqb slash star && Ascii.eqb c' slash) eqn:E; [discriminate|]. destruct (Ascii.eqb_spec c' slash) as [-> |]; [right; exists slash, r'; tauto|now left].
  - destruct (Ascii.eqb c star && Ascii.eqb star slash) eqn:E; [rewrite andb_comm in E; discriminate|]. now left.
  - destruct (Ascii.eqb_spec c star) as [-> |], (Ascii.eqb_spec c' slash) as [-> |]; cbn [andb]; auto. right. exists slash, r'. tauto.
Qed.

(** ** strings *)
Lemma string_lemma n : forall l esc prev pend out r, length l <= n -> string_body esc l = true -> Nat.even (end_slashes prev) = negb esc -> (forall p q, prev = p :: q -> p <> LF) ->
  exists prev', sc (l ++ quote :: r) prev InString pend out = sc r prev' Outside [quote] (out ++ pend ++ l).
Proof.
  induction n as [|n IH]; intros l esc prev pend out r Hl Hs He Hp.
  - destruct l; [|cbn in Hl; lia]. cbn in Hs. apply negb_true_iff in Hs. subst esc. cbn [app]. exists (quote :: prev). change (quote :: r) with (token_text TQuote ++ r). rewrite sc_token by reflexivity. cbn [on_token]. rewrite He. cbn [negb flush]. now rewrite !app_nil_r.
  - destruct l as [|c l]; [apply (IH [] esc); [cbn; lia|exact Hs|exact He|exact Hp]|]. cbn [length] in Hl. cbn [string_body] in Hs. apply andb_true_iff in Hs. destruct Hs as [Hs Hr]. apply andb_true_iff in Hs. destruct Hs as [Hn Hq]. apply negb_true_iff in Hn.
    assert (Hc : c <> LF) by (intros ->; discriminate).
    assert (Hend : forall c, c <> LF -> end_slashes (c :: prev) = if Ascii.eqb c backslash then S (end_slashes prev) else 0).
    { intros c0 Hc0. unfold end_slashes at 1. destruct (Ascii.eqb_spec c0 LF); [contradiction|]. cbn [count_backslashes]. destruct (Ascii.eqb c0 backslash); [|reflexivity]. f_equal. destruct prev as [|p q]; [reflexivity|]. unfold end_slashes. destruct (Ascii.eqb_spec p LF); [exfalso; now apply (Hp p q)|reflexivity]. }
    destruct (Ascii.eqb_spec c quote) as [-> |Hcq].
    + cbn [negb] in Hq. rewrite orb_false_r in Hq. subst esc. cbn [negb andb] in Hr. cbn [app]. change (quote :: l ++ quote :: r) with (token_text TQuote ++ (l ++ quote :: r)). rewrite sc_token by reflexivity. cbn [on_token]. rewrite He. cbn [negb flush token_text rev app]. rewrite app_nil_r.
      destruct (IH l false (quote :: prev) [quote] (out ++ pend) r) as (prev'&->); [lia|exact Hr|rewrite Hend by discriminate; reflexivity|intros p q [= <- <-]; discriminate|]. exists prev'. f_equal. now rewrite <- app_assoc.
    + destruct (match_none c (l ++ quote :: r) Hcq Hn) as [Hm|(c'&r'&Hr'&Hm)].
      * cbn [app]. rewrite sc_char by exact Hm. destruct (IH l (negb esc && Ascii.eqb c backslash) (c :: prev) (pend ++ [c]) out r) as (prev'&->); [lia|exact Hr| |intros p q [= <- <-]; exact Hc|].
        -- rewrite Hend by exact Hc. destruct (Ascii.eqb c backslash); [|now rewrite andb_false_r]. rewrite Nat.even_succ, <- Nat.negb_even, He. now rewrite andb_true_r.
        -- exists prev'. f_equal. now rewrite <- app_assoc.
      * assert (Hx : exists l', l = c' :: l' /\ r' = l' ++ quote :: r). { destruct l as [|x l']; [|exists l'; cbn in Hr'; injection Hr' as <- <-; auto]. cbn in Hr'. injection Hr' as <- _. exfalso. destruct Hm as [(_&H&_)|[(_&H&_)|(_&H&_)]]; discriminate. }
        destruct Hx as (l'&->&->). cbn [length] in Hl. cbn [string_body] in Hr. apply andb_true_iff in Hr. destruct Hr as [Hs' Hr]. apply andb_true_iff in Hs'. destruct Hs' as [Hn' _].
        assert (Hgen : forall t, token_text t = [c; c'] -> match_token (c :: c' :: l' ++ quote :: r) = Some (t, l' ++ quote :: r) -> on_token strip t prev InString = (InString, [], token_text t) -> c' <> LF -> c' <> backslash -> c <> backslash -> exists prev', sc ((c :: c' :: l') ++ quote :: r) prev InString pend out = sc r prev' Outside [quote] (out ++ pend ++ c :: c' :: l')).
        { intros t Ht Hmt Hon H1 H2 H3. cbn [app]. change (c :: c' :: l' ++ quote :: r) with ([c; c'] ++ (l' ++ quote :: r)) in *. rewrite <- Ht in *. rewrite sc_token by exact Hmt. rewrite Hon. cbn [flush]. rewrite Ht. cbn [rev app].
          destruct (Ascii.eqb_spec c backslash); [contradiction|]. rewrite andb_false_r in Hr. cbn [negb andb] in Hr. destruct (Ascii.eqb_spec c' backslash); [contradiction|].
          destruct (IH l' false (c' :: c :: prev) [] (out ++ pend ++ [c; c']) r) as (prev'&->); [lia|exact Hr| |intros p q [= <- <-]; exact H1|].
          - unfold end_slashes. destruct (Ascii.eqb_spec c' LF); [contradiction|]. cbn [count_backslashes]. destruct (Ascii.eqb_spec c' backslash); [contradiction|reflexivity].
          - exists prev'. f_equal. cbn [app]. rewrite <- !app_assoc. reflexivity. }
        destruct Hm as [(->&->&Hm)|[(->&->&Hm)|(->&->&Hm)]]; [apply (Hgen TOpen)|apply (Hgen TClose)|apply (Hgen TLine)]; try reflexivity; try exact Hm; discriminate.
Qed.

(** ** comments *)
Lemma line_lemma n : forall l prev pend out nl r, length l <= n -> forallb (fun c => negb (is_newline c)) l = true -> is_newline nl = true ->
  exists prev', sc (l ++ nl :: r) prev InSingle pend out = sc r prev' Outside [] out.
Proof.
  induction n as [|n IH]; intros l prev pend out nl r Hl Hb Hnl; (destruct l as [|c l]; [|cbn [length] in Hl]).
  1, 3: cbn [app]; change (nl :: r) with (token_text (TNewline nl) ++ r); rewrite sc_token by (now apply match_newline); cbn [on_token flush]; rewrite app_nil_r; eexists; reflexivity.
  - lia.
  - cbn [forallb] in Hb. apply andb_true_iff in Hb. destruct Hb as [Hn Hb]. apply negb_true_iff in Hn. cbn [app]. destruct (Ascii.eqb_spec c quote) as [-> |Hcq].
    + change (quote :: l ++ nl :: r) with (token_text TQuote ++ (l ++ nl :: r)). rewrite sc_token by reflexivity. cbn [on_token flush]. rewrite app_nil_r. apply IH; [lia|exact Hb|exact Hnl].
    + destruct (match_none c (l ++ nl :: r) Hcq Hn) as [Hm|(c'&r'&Hr'&Hm)]; [rewrite sc_char by exact Hm; apply IH; [lia|exact Hb|exact Hnl]|].
      assert (Hx : exists l', l = c' :: l' /\ r' = l' ++ nl :: r). { destruct l as [|x l']; [|exists l'; cbn in Hr'; injection Hr' as <- <-; auto]. cbn in Hr'. injection Hr' as <- _. exfalso. destruct (newline_not nl Hnl) as (_&H1&H2&_). destruct Hm as [(_&H&_)|[(_&H&_)|(_&H&_)]]; contradiction. }
      destruct Hx as (l'&->&->). cbn [length] in Hl. cbn [forallb] in Hb. apply andb_true_iff in Hb. destruct Hb as [_ Hb].
      assert (Hgen : forall t, token_text t = [c; c'] -> match_token (c :: c' :: l' ++ nl :: r) = Some (t, l' ++ nl :: r) -> on_token strip t prev InSingle = (InSingle, [], []) -> exists prev', sc (c :: (c' :: l') ++ nl :: r) prev InSingle pend out = sc r prev' Outside [] out).
      { intros t Ht Hmt Hon. cbn [app]. change (c :: c' :: l' ++ nl :: r) with ([c; c'] ++ (l' ++ nl :: r)) in *. rewrite <- Ht in *. rewrite sc_token by exact Hmt. rewrite Hon. cbn [flush]. rewrite app_nil_r. apply IH; [lia|exact Hb|exact Hnl]. }
      destruct Hm as [(->&->&Hm)|[(->&->&Hm)|(->&->&Hm)]]; [apply (Hgen TOpen)|apply (Hgen TClose)|apply (Hgen TLine)]; try reflexivity; exact Hm.
Qed.
Definition all_slash (l : list ascii) : bool := forallb (Ascii.eqb slash) l.
Lemma trailing_app l c : trailing_slashes (l ++ [c]) = if Ascii.eqb c slash then S (trailing_slashes l) else 0.
Proof. unfold trailing_slashes. rewrite rev_app_distr. reflexivity. Qed.
Lemma trailing_cons l c : trailing_slashes (c :: l) = if all_slash l && Ascii.eqb c slash then S (trailing_slashes l) else trailing_slashes l.
Proof.
  induction l as [|x l IH] using rev_ind; [cbn; destruct (Ascii.eqb c slash); reflexivity|].
  change (c :: l ++ [x]) with ((c :: l) ++ [x]). rewrite !trailing_app, IH. unfold all_slash. rewrite forallb_app. cbn [forallb]. rewrite andb_true_r. destruct (Ascii.eqb_spec x slash) as [-> |Hx].
  - rewrite Ascii.eqb_refl, andb_true_r. destruct (forallb (Ascii.eqb slash) l && Ascii.eqb c slash); reflexivity.
  - destruct (Ascii.eqb_spec slash x); [congruence|]. now rewrite andb_false_r.
Qed.
Lemma trailing_all l : all_slash l = true -> trailing_slashes l = length l.
Proof. induction l as [|c l IH]; [reflexivity|]. cbn [all_slash forallb]. intros H. apply andb_true_iff in H. destruct H as [H1 H2]. rewrite trailing_cons, (IH H2). unfold all_slash. rewrite H2. rewrite Ascii.eqb_sym, H1. reflexivity. Qed.
Lemma block_lemma n : forall l prev pend out r, length l <= n -> contains_close l = false -> Nat.even (trailing_slashes l) = true ->
  exists prev', sc (l ++ star :: slash :: r) prev InMulti pend out = sc r prev' Outside [] out.
Proof.
  induction n as [|n IH]; intros l prev pend out r Hl Hb He; (destruct l as [|c l]; [|cbn [length] in Hl]).
  1, 3: cbn [app]; change (star :: slash :: r) with (token_text TClose ++ r); rewrite sc_token by reflexivity; cbn [on_token flush]; rewrite app_nil_r; eexists; reflexivity.
  - lia.
  - assert (Hb' : contains_close l = false) by (cbn [contains_close] in Hb; destruct l; [reflexivity|]; apply orb_false_iff in Hb; tauto). rewrite trailing_cons in He. cbn [app].
    assert (Hone : Ascii.eqb c slash = false -> Nat.even (trailing_slashes l) = true) by (intros H; rewrite H, andb_false_r in He; exact He).
    destruct (Ascii.eqb_spec c quote) as [-> |Hcq].
    { change (quote :: l ++ star :: slash :: r) with (token_text TQuote ++ (l ++ star :: slash :: r)). rewrite sc_token by reflexivity. cbn [on_token flush]. rewrite app_nil_r. apply IH; [lia|exact Hb'|now apply Hone]. }
    destruct (is_newline c) eqn:Hn.
    { change (c :: l ++ star :: slash :: r) with (token_text (TNewline c) ++ (l ++ star :: slash :: r)). rewrite sc_token by (now apply match_newline). cbn [on_token flush]. rewrite app_nil_r. apply IH; [lia|exact Hb'|]. apply Hone. destruct (newline_not c Hn) as (_&H&_). now apply Ascii.eqb_neq. }
    destruct (match_none c (l ++ star :: slash :: r) Hcq Hn) as [Hm|(c'&r'&Hr'&Hm)].
    + rewrite sc_char by exact Hm. apply IH; [lia|exact Hb'|]. destruct (Ascii.eqb_spec c slash) as [-> |Hc]; [|now apply Hone]. destruct l as [|x l]; [discriminate|]. rewrite andb_true_r in He. destruct (all_slash (x :: l)) eqn:Ea; [|exact He]. exfalso. unfold all_slash in Ea. cbn [forallb] in Ea. apply andb_true_iff in Ea. destruct Ea as [Ex _]. apply Ascii.eqb_eq in Ex. subst x. discriminate.
    + destruct l as [|x l].
      { cbn in Hr'. injection Hr' as <- <-. destruct Hm as [(->&_&_)|[(->&H&_)|(->&H&_)]]; [cbn in He; discriminate|discriminate|discriminate]. }
      cbn in Hr'. injection Hr' as -> <-. cbn [length] in Hl. assert (Hb2 : contains_close l = false) by (cbn [contains_close] in Hb'; destruct l; [reflexivity|]; apply orb_false_iff in Hb'; tauto).
      destruct Hm as [(->&->&Hm)|[(->&->&Hm)|(->&->&Hm)]].
      * cbn [app] in *. change (slash :: star :: l ++ star :: slash :: r) with (token_text TOpen ++ (l ++ star :: slash :: r)) in *. rewrite sc_token by exact Hm. cbn [on_token flush]. rewrite app_nil_r. apply IH; [lia|exact Hb2|]. cbn [all_slash forallb] in He. rewrite trailing_cons in He. rewrite andb_false_r in He. exact He.
      * exfalso. cbn [contains_close] in Hb. apply orb_false_iff in Hb. destruct Hb as [Hb _]. discriminate.
      * cbn [app] in *. change (slash :: slash :: l ++ star :: slash :: r) with (token_text TLine ++ (l ++ star :: slash :: r)) in *. rewrite sc_token by exact Hm. cbn [on_token flush]. rewrite app_nil_r. apply IH; [lia|exact Hb2|]. rewrite trailing_cons in He. change (all_slash (slash :: l)) with (all_slash l) in He. rewrite !Ascii.eqb_refl, !andb_true_r in He. destruct (all_slash l); [rewrite Nat.even_succ_succ in He|]; exact He.
Qed.

(** ** items *)
Lemma flush_app st a b : flush strip st (a ++ b) = flush strip st a ++ flush strip st b.
Proof. destruct st; cbn [flush]; try reflexivity. destruct strip; [apply filter_app|reflexivity]. Qed.
Lemma item_lemma i prev pend out r : item_ok i -> exists prev' pend' out', sc (render1 i ++ r) prev Outside pend out = sc r prev' Outside pend' out' /\ out' ++ flush strip Outside pend' = out ++ flush strip Outside pend ++ keep1 strip i /\ (is_mark i = true -> flush strip Outside pend' = pend').
Proof.
  assert (Hq : flush strip Outside [quote] = [quote]) by (cbn; destruct strip; reflexivity). assert (Hnil : flush strip Outside [] = []) by (cbn; destruct strip; reflexivity).
  destruct i as [c|body|body|body nl]; cbn [item_ok render1 keep1 is_mark].
  - intros (H1&H2&H3). cbn [app]. destruct (is_newline c) eqn:Hn.
    + change (c :: r) with (token_text (TNewline c) ++ r). rewrite sc_token by (now apply match_newline). cbn [on_token]. rewrite app_nil_r. do 3 eexists. split; [reflexivity|]. rewrite Hnil. cbn [orb]. rewrite !app_nil_r. split; auto.
    + destruct (match_none c r H1 Hn) as [Hm|(c'&r'&_&[(->&_)|[(->&_)|(->&_)]])]; try contradiction. rewrite sc_char by exact Hm. do 3 eexists. split; [reflexivity|]. split; [|discriminate]. rewrite flush_app. cbn [orb]. f_equal. f_equal. cbn [flush]. destruct strip; cbn [andb filter]; [destruct (is_space c); reflexivity|reflexivity].
  - intros Hb. cbn [app]. rewrite <- app_assoc. change (quote :: body ++ [quote] ++ r) with (token_text TQuote ++ (body ++ quote :: r)). rewrite sc_token by reflexivity. cbn [on_token]. rewrite app_nil_r. destruct (string_lemma (length body) body false (quote :: prev) [quote] (out ++ flush strip Outside pend) r) as (prev'&He); [lia|exact Hb|reflexivity|intros p q [= <- <-]; discriminate|].
    cbn [token_text rev app]. rewrite He. do 3 eexists. split; [reflexivity|]. rewrite Hq. split; [|reflexivity]. rewrite <- !app_assoc. reflexivity.
  - intros [Hb He]. cbn [app]. rewrite <- app_assoc. change (slash :: star :: body ++ [star; slash] ++ r) with (token_text TOpen ++ (body ++ star :: slash :: r)). rewrite sc_token by reflexivity. cbn [on_token]. rewrite app_nil_r. destruct (block_lemma (length body) body (rev (token_text TOpen) ++ prev) [] (out ++ flush strip Outside pend) r) as (prev'&->); [lia|exact Hb|exact He|].
    do 3 eexists. split; [reflexivity|]. rewrite Hnil, !app_nil_r. auto.
  - intros [Hn Hb]. cbn [app]. rewrite <- app_assoc. change (slash :: slash :: body ++ [nl] ++ r) with (token_text TLine ++ (body ++ nl :: r)). rewrite sc_token by reflexivity. cbn [on_token]. rewrite app_nil_r. destruct (line_lemma (length body) body (rev (token_text TLine) ++ prev) [] (out ++ flush strip Outside pend) nl r) as (prev'&->); [lia|exact Hb|exact Hn|].
    do 3 eexists. split; [reflexivity|]. rewrite Hnil, !app_nil_r. auto.
Qed.
Lemma items_lemma items : Forall item_ok items -> forall prev pend out r, exists prev' pend' out', sc (render items ++ r) prev Outside pend out = sc r prev' Outside pend' out' /\ out' ++ flush strip Outside pend' = out ++ flush strip Outside pend ++ keep strip items.
Proof.
  induction 1 as [|i items Hi H IH]; intros prev pend out r; cbn [render flat_map keep].
  - exists prev, pend, out. split; [reflexivity|]. now rewrite app_nil_r.
  - rewrite <- app_assoc. destruct (item_lemma i prev pend out (flat_map render1 items ++ r) Hi) as (prev1&pend1&out1&->&H1&_). destruct (IH prev1 pend1 out1 r) as (prev2&pend2&out2&He&H2). fold (render items). rewrite He. do 3 eexists. split; [reflexivity|]. rewrite H2, app_assoc, H1. rewrite <- !app_assoc. reflexivity.
Qed.
Lemma tail_lemma tail : Forall (fun c => item_ok (Char c) /\ is_newline c = false) tail -> forall prev pend out, sc tail prev Outside pend out = out ++ pend ++ tail.
Proof.
  induction 1 as [|c tail [(H1&H2&H3) Hn] H IH]; intros prev pend out; [rewrite sc_nil; now rewrite app_nil_r|].
  destruct (match_none c tail H1 Hn) as [Hm|(c'&r'&_&[(->&_)|[(->&_)|(->&_)]])]; try contradiction. rewrite sc_char by exact Hm. rewrite IH, <- app_assoc. reflexivity.
Qed.
End P.
