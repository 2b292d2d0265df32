From Coq Require Import String.
From Verif Require Import Base ListLemmas PprintModel PprintSpec.
Local Open Scope nat_scope. Local Open Scope list_scope.

Section Ind.
  Variable P : obj -> Prop.
  Hypothesis Hatom : forall r, P (Atom r).
  Hypothesis Hlist : forall l, Forall P l -> P (OList l).
  Hypothesis Htuple : forall l, Forall P l -> P (OTuple l).
  Hypothesis Hset : forall l, Forall P l -> P (OSet l).
  Hypothesis Hdict : forall l, Forall (fun x => P (snd x)) l -> P (ODict l).
  Fixpoint obj_ind2 (o : obj) : P o :=
    let all := fix all (l : list obj) : Forall P l := match l with [] => Forall_nil _ | x :: l => Forall_cons x (obj_ind2 x) (all l) end in
    match o with
    | Atom r => Hatom r
    | OList l => Hlist l (all l)
    | OTuple l => Htuple l (all l)
    | OSet l => Hset l (all l)
    | ODict l => Hdict l ((fix alld (l : list (string * obj)) : Forall (fun x => P (snd x)) l := match l with [] => Forall_nil _ | x :: l => Forall_cons x (obj_ind2 (snd x)) (alld l) end) l)
    end.
End Ind.

Section Pp.
  Variable simple : obj -> bool.
  Definition subpost (multi : bool) (p : list tok) := if negb multi && ends_with_comma p then p ++ [Space] else p.
  Definition plist (multi : bool) (slp : list tok) := fix go (l : list obj) : list tok :=
    match l with [] => [] | x :: l => pprint simple x multi [] (subpost multi (match l with [] => [] | _ => [T ","] end)) slp ++ go l end.
  Definition pdict (multi : bool) (slp : list tok) := fix go (l : list (string * obj)) : list tok :=
    match l with [] => [] | (k, x) :: l => pprint simple x multi [T k; T ":"; Space] (subpost multi (match l with [] => [] | _ => [T ","] end)) slp ++ go l end.
  Definition nl (multi : bool) := if multi then [Newline] else [].
  (** [pprint] without the test *)
  Definition body (o : obj) (multi : bool) (pre post lp : list tok) : list tok :=
    let slp := if multi then lp ++ [Space] else [] in
    let whole s := lp ++ pre ++ [T s] ++ post ++ nl multi in
    let around a inner b := (lp ++ pre ++ [T a] ++ nl multi) ++ inner ++ (lp ++ [T b] ++ post ++ nl multi) in
    match o with
    | Atom r => whole r
    | OList [] => whole "[]"%string
    | OList l => around "["%string (plist multi slp l) "]"%string
    | OTuple [] => whole "()"%string
    | OTuple [x] => pprint simple x multi (pre ++ [T "("]) (subpost multi ([T ","; T ")"] ++ post)) (if multi then lp ++ [] else [])
    | OTuple l => around "("%string (plist multi slp l) ")"%string
    | OSet [] => whole "set()"%string
    | OSet l => around "{"%string (plist multi slp l) "}"%string
    | ODict [] => whole "{}"%string
    | ODict l => around "{"%string (pdict multi slp l) "}"%string
    end.
  Lemma pprint_false o pre post lp : pprint simple o false pre post lp = body o false pre post lp.
  Proof. destruct o as [r|[|x l]|[|x [|y l]]|[|x l]|[|[k x] l]]; reflexivity. Qed.
  Lemma pprint_simple o pre post lp : simple o = true -> pprint simple o true pre post lp = body o false (lp ++ pre) (post ++ [Newline]) [].
  Proof. intros H. destruct o as [r|[|x l]|[|x [|y l]]|[|x l]|[|[k x] l]]; cbn [pprint]; rewrite H; reflexivity. Qed.
  Lemma pprint_multi o pre post lp : simple o = false -> pprint simple o true pre post lp = body o true pre post lp.
  Proof. intros H. destruct o as [r|[|x l]|[|x [|y l]]|[|x l]|[|[k x] l]]; cbn [pprint]; rewrite H; reflexivity. Qed.

  Lemma one_line o : forall pre post, ends_with_comma post = false -> pprint simple o false pre post [] = pre ++ python_repr o ++ post.
  Proof.
    assert (L : forall l, Forall (fun o => forall pre post, ends_with_comma post = false -> pprint simple o false pre post [] = pre ++ python_repr o ++ post) l -> plist false [] l = joined (map python_repr l)).
    { intros l F. induction F as [|x l Hx F IH]; [reflexivity|]. cbn [plist]. fold (plist false []). destruct l as [|y l]; [cbn; rewrite Hx by reflexivity; cbn; now rewrite !app_nil_r|]. rewrite Hx by reflexivity. rewrite IH. cbn [map joined]. cbn. now rewrite <- ?app_assoc. }
    induction o as [r|l F|l F|l F|l F] using obj_ind2; intros pre post Hp; rewrite pprint_false.
    - cbn. now rewrite app_nil_r.
    - destruct l as [|x l]; [cbn; now rewrite app_nil_r|]. cbn [body]. rewrite (L _ F). cbn [nl app python_repr]. rewrite !app_nil_r, <- ?app_assoc. reflexivity.
    - destruct l as [|x [|y l]]; [cbn; now rewrite app_nil_r| |].
      + cbn [body]. inversion F as [|? ? Hx _]; subst. assert (Ep : ends_with_comma ([T ","; T ")"] ++ post) = false).
        { unfold ends_with_comma in *. rewrite rev_app_distr. destruct (rev post) as [|t r]; [reflexivity|exact Hp]. }
        unfold subpost. rewrite Ep, andb_false_r. rewrite Hx by exact Ep. cbn [python_repr]. rewrite <- ?app_assoc. cbn [app]. now rewrite <- ?app_assoc.
      + cbn [body]. rewrite (L _ F). cbn [nl app python_repr]. rewrite !app_nil_r, <- ?app_assoc. reflexivity.
    - destruct l as [|x l]; [cbn; now rewrite app_nil_r|]. cbn [body]. rewrite (L _ F). cbn [nl app python_repr]. rewrite !app_nil_r, <- ?app_assoc. reflexivity.
    - destruct l as [|x l]; [cbn; now rewrite app_nil_r|]. cbn [body].
      assert (D : forall l, Forall (fun x => forall pre post, ends_with_comma post = false -> pprint simple (snd x) false pre post [] = pre ++ python_repr (snd x) ++ post) l -> pdict false [] l = joined (map (fun x => [T (fst x); T ":"; Space] ++ python_repr (snd x)) l)).
      { clear - simple. intros l F. induction F as [|[k x] l Hx F IH]; [reflexivity|]. cbn [pdict]. fold (pdict false []). cbn [snd] in Hx. destruct l as [|y l]; [cbn; rewrite Hx by reflexivity; cbn; now rewrite !app_nil_r|]. rewrite Hx by reflexivity. rewrite IH. cbn [map joined fst snd]. cbn. now rewrite <- ?app_assoc. }
      rewrite (D _ F). cbn [nl app python_repr]. rewrite !app_nil_r, <- ?app_assoc. reflexivity.
  Qed.

  Lemma vis_app a b : visible (a ++ b) = visible a ++ visible b. Proof. apply filter_app. Qed.
  Lemma same_visible o : forall pre post lp, visible lp = [] -> visible (pprint simple o true pre post lp) = visible pre ++ visible (python_repr o) ++ visible post.
  Proof.
    assert (S : forall o pre post lp, simple o = true -> visible lp = [] -> visible (pprint simple o true pre post lp) = visible pre ++ visible (python_repr o) ++ visible post).
    { intros o0 pre post lp Hs Hl. rewrite (pprint_simple _ _ _ _ Hs), <- pprint_false, one_line; [|unfold ends_with_comma; rewrite rev_app_distr; reflexivity]. rewrite !vis_app, Hl. cbn. now rewrite app_nil_r. }
    assert (L : forall slp l, visible slp = [] -> Forall (fun o => forall pre post lp, visible lp = [] -> visible (pprint simple o true pre post lp) = visible pre ++ visible (python_repr o) ++ visible post) l -> visible (plist true slp l) = visible (joined (map python_repr l))).
    { intros slp l Hl F. induction F as [|x l Hx F IH]; [reflexivity|]. cbn [plist]. fold (plist true slp). rewrite vis_app, Hx, IH by exact Hl. destruct l as [|y l]; [cbn; now rewrite !app_nil_r|]. cbn [map joined]. rewrite !vis_app. cbn. now rewrite <- ?app_assoc. }
    assert (A : forall a b inner r pre post lp, visible lp = [] -> visible inner = visible r -> visible ((lp ++ pre ++ [T a] ++ nl true) ++ inner ++ (lp ++ [T b] ++ post ++ nl true)) = visible pre ++ visible (T a :: r ++ [T b]) ++ visible post).
    { intros a b inner r pre post lp Hl Hi. change (T a :: r ++ [T b]) with ([T a] ++ r ++ [T b]). rewrite !vis_app, Hl, Hi. cbn. rewrite app_nil_r, <- ?app_assoc. cbn. now rewrite <- ?app_assoc. }
    induction o as [r|l F|l F|l F|l F] using obj_ind2; intros pre post lp Hl; match goal with |- visible (pprint simple ?o _ _ _ _) = _ => destruct (simple o) eqn:Es; [now apply S|rewrite (pprint_multi _ _ _ _ Es)] end.
    all: assert (Hsl : visible (lp ++ [Space]) = []) by (rewrite vis_app, Hl; reflexivity).
    - cbn [body python_repr]. rewrite !vis_app, Hl. cbn. now rewrite app_nil_r.
    - destruct l as [|x l]; [cbn [body python_repr]; rewrite !vis_app, Hl; cbn; now rewrite app_nil_r|]. cbn [body]. rewrite (A _ _ _ (joined (map python_repr (x :: l)))); [reflexivity|exact Hl|now apply L].
    - destruct l as [|x [|y l]]; [cbn [body python_repr]; rewrite !vis_app, Hl; cbn; now rewrite app_nil_r| |].
      + cbn [body]. inversion F as [|? ? Hx _]; subst. rewrite Hx by (rewrite app_nil_r; exact Hl). cbn [subpost negb andb python_repr]. change (T "(" :: python_repr x ++ [T ","; T ")"]) with ([T "("] ++ python_repr x ++ [T ","; T ")"]). rewrite !vis_app. cbn. rewrite <- ?app_assoc. cbn. now rewrite <- ?app_assoc.
      + cbn [body]. rewrite (A _ _ _ (joined (map python_repr (x :: y :: l)))); [reflexivity|exact Hl|now apply L].
    - destruct l as [|x l]; [cbn [body python_repr]; rewrite !vis_app, Hl; cbn; now rewrite app_nil_r|]. cbn [body]. rewrite (A _ _ _ (joined (map python_repr (x :: l)))); [reflexivity|exact Hl|now apply L].
    - destruct l as [|x l]; [cbn [body python_repr]; rewrite !vis_app, Hl; cbn; now rewrite app_nil_r|]. cbn [body]. rewrite (A _ _ _ (joined (map (fun x => [T (fst x); T ":"; Space] ++ python_repr (snd x)) (x :: l)))); [reflexivity|exact Hl|].
      clear Es S L A. revert F. generalize (x :: l) as l0. intros l0 F. induction F as [|[k z] l0 Hz F IH]; [reflexivity|]. cbn [pdict]. fold (pdict true (lp ++ [Space])). cbn [snd] in Hz. rewrite vis_app, Hz, IH by exact Hsl. destruct l0 as [|y l0]; [cbn; now rewrite !app_nil_r|]. cbn [map joined]. rewrite !vis_app. cbn [fst snd]. cbn. now rewrite <- ?app_assoc.
  Qed.
End Pp.
