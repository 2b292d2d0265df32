(** Proofs for the names of modules and parameters. *)
From Coq Require Import String Ascii.
From Verif Require Import Base PyDict ListLemmas ModTreeModel ModTreeSpec.
From Verif Require SeqOrderModel SeqOrderProofs.
Local Open Scope nat_scope.
Import SeqOrderModel(split_on).

Lemma mem_In x l : mem x l = true <-> In x l.
Proof. unfold mem. rewrite existsb_exists. split; [intros (y & Hy & E)|].
  - apply Nat.eqb_eq in E. now subst.
  - intros H. exists x. now rewrite Nat.eqb_refl. Qed.
Lemma mem_nIn x l : mem x l = false <-> ~ In x l.
Proof. rewrite <- mem_In. destruct (mem x l); split; congruence. Qed.

Lemma nodup_inj {A B} (f : A -> B) l x y : NoDup (map f l) -> In x l -> In y l -> f x = f y -> x = y.
Proof.
  induction l as [|a l IH]; [easy|]. cbn. intros Hn Hx Hy E. inversion Hn as [|? ? Ha Hl]; subst.
  destruct Hx as [<-|Hx], Hy as [<-|Hy]; [easy| | |now apply IH].
  - exfalso. apply Ha. rewrite E. now apply in_map.
  - exfalso. apply Ha. rewrite <- E. now apply in_map.
Qed.

(** ** Names *)
Notation dotfree n := (~ In "."%char (list_ascii_of_string n)).
Lemma append_assoc (a b c : string) : ((a ++ b) ++ c = a ++ (b ++ c))%string.
Proof. induction a; cbn; congruence. Qed.
Lemma append_nil (a : string) : (a ++ "" = a)%string.
Proof. induction a; cbn; congruence. Qed.

Lemma dotted_cons n n' ns : dotted (n :: n' :: ns) = (n ++ "." ++ dotted (n' :: ns))%string.
Proof. reflexivity. Qed.
Lemma dotted_snoc ns n : ns <> [] -> dotted (ns ++ [n]) = (dotted ns ++ "." ++ n)%string.
Proof.
  induction ns as [|a ns IH]; intros H; [easy|]. destruct ns as [|b ns]; [reflexivity|].
  change ((a :: b :: ns) ++ [n]) with (a :: (b :: ns ++ [n])). rewrite dotted_cons.
  change (b :: ns ++ [n]) with ((b :: ns) ++ [n]). rewrite IH by discriminate. rewrite dotted_cons, !append_assoc. reflexivity.
Qed.
Lemma split_dotted ns : ns <> [] -> Forall good_name ns -> split_on "." (dotted ns) = ns.
Proof.
  induction ns as [|n ns IH]; intros H Hg; [easy|]. inversion Hg as [|? ? Hn Hns]; subst. destruct ns as [|n' ns].
  - cbn. apply SeqOrderProofs.split_on_none, Hn.
  - rewrite dotted_cons. cbn [append]. rewrite SeqOrderProofs.split_on_app by apply Hn. f_equal. apply IH; [discriminate|easy].
Qed.
Lemma dotted_inj a b : Forall good_name a -> Forall good_name b -> dotted a = dotted b -> a = b.
Proof.
  assert (Hne : forall ns, Forall good_name ns -> dotted ns = ""%string -> ns = []).
  { intros [|n ns] Hg E; [easy|]. inversion Hg as [|? ? Hn _]; subst. destruct n; [now destruct Hn|]. destruct ns; discriminate. }
  intros Ha Hb E. destruct a as [|x a]; [symmetry; apply Hne; [easy|]; now rewrite <- E|].
  destruct b as [|y b]; [apply Hne; [easy|]; now rewrite E|].
  rewrite <- (split_dotted (x :: a)), <- (split_dotted (y :: b)) by easy. now rewrite E.
Qed.
Lemma dotted_nil ns : Forall good_name ns -> dotted ns = ""%string -> ns = [].
Proof. intros Hg E. apply dotted_inj; [easy|constructor|easy]. Qed.
Lemma ends_app a b : b <> ""%string -> ends_with_dot (a ++ b) = ends_with_dot b.
Proof.
  intros Hb. induction a as [|c a IH]; [reflexivity|]. cbn [append]. cbn [ends_with_dot].
  destruct (a ++ b)%string eqn:E; [|exact IH]. destruct a; [|discriminate]. cbn in E. congruence.
Qed.
Lemma ends_good n : good_name n -> ends_with_dot n = false.
Proof.
  intros (Hne & Hd). induction n as [|c n IH]; [easy|]. cbn [ends_with_dot]. destruct n as [|c' n].
  - apply Ascii.eqb_neq. intros ->. apply Hd. now left.
  - apply IH; [discriminate|]. intros H. apply Hd. now right.
Qed.
Lemma ends_dotted ns : Forall good_name ns -> ends_with_dot (dotted ns) = false.
Proof.
  destruct ns as [|n ns] using rev_ind; [reflexivity|]. intros Hg. apply Forall_app in Hg as (Hns & Hn). inversion Hn as [|? ? Hn' _]; subst.
  destruct ns as [|a ns]; [now apply ends_good|]. rewrite dotted_snoc by discriminate. rewrite <- append_assoc. rewrite ends_app; [now apply ends_good|apply Hn'].
Qed.
Lemma sub_prefix_dotted ns n : Forall good_name ns -> sub_prefix (dotted ns) n = dotted (ns ++ [n]).
Proof.
  intros Hg. unfold sub_prefix. rewrite ends_dotted by easy. destruct ns as [|a ns]; [reflexivity|].
  rewrite dotted_snoc by discriminate. destruct (String.eqb_spec (dotted (a :: ns)) ""); [|reflexivity].
  apply dotted_nil in e; easy.
Qed.
Lemma key_dotted ns n : Forall good_name ns -> (dotted ns ++ (if String.eqb (dotted ns) "" then "" else ".") ++ n)%string = dotted (ns ++ [n]).
Proof.
  intros Hg. destruct ns as [|a ns]; [reflexivity|]. rewrite dotted_snoc by discriminate.
  destruct (String.eqb_spec (dotted (a :: ns)) ""); [|reflexivity]. apply dotted_nil in e; easy.
Qed.

(** ** Paths *)
Lemma path_app h a ns b : path h a ns b -> forall ns' c, path h b ns' c -> path h a (ns ++ ns') c.
Proof. induction 1; intros ns' c Hc; [easy|]. cbn. econstructor; eauto. Qed.
Lemma path_snoc h a ns b n c : path h a ns b -> In (n, AMod c) (vars h b) -> path h a (ns ++ [n]) c.
Proof. intros H Hin. eapply path_app; [exact H|]. econstructor; [exact Hin|constructor]. Qed.
Lemma path_snoc_inv h ns : forall a n c, path h a (ns ++ [n]) c -> exists b, path h a ns b /\ In (n, AMod c) (vars h b).
Proof.
  induction ns as [|x ns IH]; intros a n c H; inversion H as [|? ? k ? ? Hin Hp]; subst.
  - inversion Hp; subst. exists a. split; [constructor|easy].
  - destruct (IH _ _ _ Hp) as (b & Hb & Hi). exists b. split; [econstructor; eauto|easy].
Qed.
Lemma path_good h a ns b : good_heap h -> path h a ns b -> Forall good_name ns.
Proof. intros Hg. induction 1 as [|m n k ns m' Hin _ IH]; constructor; [|easy]. now destruct (proj2 (Hg m) _ _ Hin). Qed.
Lemma path_lt h a ns b : good_heap h -> a < length h -> path h a ns b -> b < length h.
Proof. intros Hg Ha. induction 1 as [|m n k ns m' Hin _ IH]; [easy|]. apply IH. now destruct (proj2 (Hg m) _ _ Hin). Qed.

(** ** The search *)
Section Search.
Variables (h : heap) (root : nat).
Hypothesis (Hg : good_heap h) (Hroot : root < length h).

(** a found module with its path *)
Definition found := (list string * nat)%type.
Definition name_it (f : found) : string * nat := (dotted (fst f), snd f).
Definition depth (f : found) : nat := length (fst f).

(** the modules which are found below one module, and its edges to all others *)
Lemma scan_spec ns0 m0 (Hp0 : path h root ns0 m0) items : incl items (vars h m0) -> forall memo queue out memo' queue',
  scan_children true (dotted ns0) items memo queue = (out, memo', queue') ->
  exists fs : list found, out = map name_it fs /\ queue' = queue ++ map name_it fs
    /\ (forall x, In x memo' <-> In x memo \/ In x (map snd fs))
    /\ NoDup (map snd fs) /\ (forall x, In x (map snd fs) -> ~ In x memo)
    /\ Forall (fun f => path h root (fst f) (snd f) /\ depth f = S (length ns0)) fs
    /\ (forall n k, In (n, AMod k) items -> In k memo').
Proof.
  assert (Hgn : Forall good_name ns0) by (eapply path_good; eauto).
  induction items as [|(name, a) items IH]; intros Hinc memo queue out memo' queue' E.
  - cbn in E. apply pair_equal_spec in E as [E <-]. apply pair_equal_spec in E as [<- <-]. exists [].
    cbn. rewrite app_nil_r. repeat split; try easy; [tauto|tauto|constructor].
  - assert (Hinc' : incl items (vars h m0)) by (intros x Hx; apply Hinc; now right).
    destruct a as [k|p|x]; cbn [scan_children] in E.
    + destruct (mem k memo) eqn:Em.
      * destruct (IH Hinc' _ _ _ _ _ E) as (fs & H1 & H2 & H3 & H4 & H5 & H6 & H7). exists fs. repeat (split; [easy|]).
        intros n k' [[= <- <-]|Hin]; [|eauto]. apply H3. left. now apply mem_In.
      * destruct (scan_children true (dotted ns0) items (k :: memo) _) as [[out1 memo1] queue1] eqn:E1.
        apply pair_equal_spec in E as [E <-]. apply pair_equal_spec in E as [<- <-].
        destruct (IH Hinc' _ _ _ _ _ E1) as (fs & H1 & H2 & H3 & H4 & H5 & H6 & H7).
        rewrite sub_prefix_dotted in * by easy. exists ((ns0 ++ [name], k) :: fs). cbn [map name_it fst snd]. split; [now rewrite H1|].
        split; [rewrite H2, <- app_assoc; reflexivity|]. split; [intros x; rewrite H3; cbn; tauto|].
        split; [constructor; [|easy]; intros Hk; apply (H5 _ Hk); now left|].
        split; [intros x [<-|Hx]; [now apply mem_nIn|]; intros Hm; apply (H5 _ Hx); now right|].
        split.
        -- constructor; [|easy]. split; [cbn; eapply path_snoc; [exact Hp0|]; apply Hinc; now left|].
           unfold depth. cbn. rewrite app_length. cbn. lia.
        -- intros n k' [[= <- <-]|Hin]; [|eauto]. apply H3. left. now left.
    + destruct (IH Hinc' _ _ _ _ _ E) as (fs & H1 & H2 & H3 & H4 & H5 & H6 & H7). exists fs. repeat (split; [easy|]).
      intros n k [H|Hin]; [discriminate|eauto].
    + destruct (IH Hinc' _ _ _ _ _ E) as (fs & H1 & H2 & H3 & H4 & H5 & H6 & H7). exists fs. repeat (split; [easy|]).
      intros n k [H|Hin]; [discriminate|eauto].
Qed.

Definition sorted (l : list found) : Prop := forall i j a b, i <= j -> nth_error l i = Some a -> nth_error l j = Some b -> depth a <= depth b.

(** [done] modules have been processed, [todo] is the queue *)
Record state_ok (memo : list nat) (done todo : list found) : Prop := {
  s_path : Forall (fun f => path h root (fst f) (snd f)) (done ++ todo);
  s_nodup : NoDup (map snd (done ++ todo));
  s_memo : forall x, In x memo <-> In x (map snd (done ++ todo));
  s_sorted : sorted (done ++ todo);
  s_level : forall a b todo', todo = a :: todo' -> In b todo -> depth b <= S (depth a);
  s_edges : forall a n k, In a done -> In (n, AMod k) (vars h (snd a)) -> exists b, In b (done ++ todo) /\ snd b = k /\ depth b <= S (depth a)
}.

Lemma sorted_app l l' : sorted l -> sorted l' -> (forall a b, In a l -> In b l' -> depth a <= depth b) -> sorted (l ++ l').
Proof.
  intros H1 H2 H3 i j a b Hij Ha Hb. destruct (Nat.lt_ge_cases j (length l)).
  - rewrite nth_error_app1 in Ha, Hb by lia. eauto.
  - destruct (Nat.lt_ge_cases i (length l)).
    + rewrite nth_error_app1 in Ha by lia. rewrite nth_error_app2 in Hb by lia. eapply H3; eapply nth_error_In; eauto.
    + rewrite nth_error_app2 in Ha, Hb by lia. eapply (H2 (i - length l) (j - length l)); eauto. lia.
Qed.

Lemma loop_spec fuel : forall memo done todo, state_ok memo done todo -> length h + 1 < fuel + length done ->
  exists fs, modules_loop fuel h true memo (map name_it todo) = Ok (map name_it fs)
    /\ exists memo', state_ok memo' (done ++ todo ++ fs) [].
Proof.
  induction fuel as [|fuel IH]; intros memo done todo Hs Hf.
  - exfalso. pose proof (s_nodup _ _ _ Hs) as Hn. assert (Hl : length (map snd (done ++ todo)) <= length (seq 0 (length h))).
    { apply NoDup_incl_length; [easy|]. intros x Hx. apply in_seq. apply in_map_iff in Hx as (f & <- & Hx).
      pose proof (proj1 (Forall_forall _ _) (s_path _ _ _ Hs) _ Hx) as Hp. apply path_lt in Hp; try easy. lia. }
    rewrite map_length, app_length, seq_length in Hl. lia.
  - cbn [modules_loop]. destruct todo as [|(ns, m) todo]; cbn [map name_it fst snd].
    + exists []. split; [reflexivity|]. exists memo. now rewrite !app_nil_r.
    + destruct (scan_children true (dotted ns) (vars h m) memo (map name_it todo)) as [[out memo'] queue'] eqn:E.
      assert (Hp : path h root ns m).
      { pose proof (s_path _ _ _ Hs) as H. rewrite Forall_forall in H. apply (H (ns, m)). apply in_app_iff. right. now left. }
      destruct (scan_spec ns m Hp (vars h m) (incl_refl _) _ _ _ _ _ E) as (fs & H1 & H2 & H3 & H4 & H5 & H6 & H7).
      subst out queue'. rewrite <- map_app.
      assert (Heq : done ++ (ns, m) :: todo = (done ++ [(ns, m)]) ++ todo) by now rewrite <- app_assoc.
      assert (Hs' : state_ok memo' (done ++ [(ns, m)]) (todo ++ fs)).
      { constructor.
        - rewrite app_assoc, <- Heq. apply Forall_app. split; [apply Hs|]. eapply Forall_impl; [|exact H6]. now intros a [? ?].
        - rewrite app_assoc, <- Heq, map_app. apply NoDup_app_intro2; [apply Hs|easy|].
          intros x Hx Hx'. apply (H5 _ Hx'). now apply (s_memo _ _ _ Hs).
        - intros x. rewrite H3, (s_memo _ _ _ Hs), app_assoc, <- Heq, !map_app, !in_app_iff. tauto.
        - rewrite app_assoc, <- Heq. apply sorted_app; [apply Hs| |].
          + intros i j a b _ Ha Hb. apply nth_error_In in Ha, Hb. rewrite Forall_forall in H6. destruct (H6 _ Ha), (H6 _ Hb). lia.
          + intros a b Ha Hb. rewrite Forall_forall in H6. destruct (H6 _ Hb) as (_ & ->). apply in_app_iff in Ha as [Ha|Ha].
            * apply In_nth_error in Ha as (i & Hi). assert (Hlt : i < length done) by (apply nth_error_Some; congruence).
              assert (depth a <= depth (ns, m)); [|unfold depth in *; cbn in *; lia].
              apply (s_sorted _ _ _ Hs i (length done)); [lia| |].
              -- now rewrite nth_error_app1.
              -- rewrite nth_error_app2, Nat.sub_diag by lia. reflexivity.
            * apply (s_level _ _ _ Hs (ns, m) a todo eq_refl Ha).
        - intros a b todo' Et Hb. assert (Hall : forall x, In x (todo ++ fs) -> depth x <= S (length ns)).
          { intros x Hx. apply in_app_iff in Hx as [Hx|Hx]; [apply (s_level _ _ _ Hs (ns, m) x todo eq_refl); now right|].
            rewrite Forall_forall in H6. destruct (H6 _ Hx). lia. }
          assert (Hlow : length ns <= depth a).
          { destruct todo as [|a' todo2].
            - cbn in Et. subst fs. inversion H6 as [|? ? [_ Hd] _]; subst. lia.
            - cbn in Et. injection Et as -> _. apply (s_sorted _ _ _ Hs (length done) (S (length done)) (ns, m) a); [lia| |].
              + rewrite nth_error_app2, Nat.sub_diag by lia. reflexivity.
              + rewrite nth_error_app2 by lia. replace (S (length done) - length done) with 1 by lia. reflexivity. }
          specialize (Hall _ Hb). lia.
        - intros a n k Ha Hin. rewrite app_assoc, <- Heq. apply in_app_iff in Ha as [Ha|[<-|[]]].
          + destruct (s_edges _ _ _ Hs a n k Ha Hin) as (b & Hb & Hk). exists b. split; [|easy]. apply in_app_iff. now left.
          + cbn [snd] in Hin. specialize (H7 _ _ Hin). apply H3 in H7 as [H7|H7].
            * apply (s_memo _ _ _ Hs) in H7. apply in_map_iff in H7 as (b & <- & Hb). exists b. split; [apply in_app_iff; now left|].
              split; [easy|]. apply in_app_iff in Hb as [Hb|Hb]; [|apply (s_level _ _ _ Hs (ns, m) b todo eq_refl Hb)].
              apply In_nth_error in Hb as (i & Hi). assert (Hlt : i < length done) by (apply nth_error_Some; congruence).
              assert (depth b <= depth (ns, m)); [|lia]. apply (s_sorted _ _ _ Hs i (length done)); [lia| |].
              -- now rewrite nth_error_app1.
              -- rewrite nth_error_app2, Nat.sub_diag by lia. reflexivity.
            * apply in_map_iff in H7 as (b & <- & Hb). exists b. split; [apply in_app_iff; now right|]. split; [easy|].
              rewrite Forall_forall in H6. destruct (H6 _ Hb) as (_ & ->). reflexivity. }
      destruct (IH memo' _ _ Hs') as (fs' & Ef & memo2 & Hs2); [rewrite app_length; cbn; lia|].
      rewrite Ef. cbn [bind]. rewrite <- map_app. exists (fs ++ fs'). split; [reflexivity|]. exists memo2.
      rewrite <- !app_assoc in Hs2. exact Hs2.
Qed.

Lemma start_ok : state_ok [root] [] [([], root)].
Proof.
  constructor; cbn.
  - repeat constructor.
  - constructor; [easy|constructor].
  - intros x. tauto.
  - intros [|[|i]] [|[|j]] a b _; cbn; intros Ha Hb; try discriminate; try (destruct i; discriminate); try (destruct j; discriminate). replace b with a by congruence. lia.
  - intros a b todo' E [<-|[]]. injection E as <- _. lia.
  - easy.
Qed.

(** all modules with their paths, in the order of the search *)
Lemma search : exists fs, named_modules h root true true = Ok (map name_it fs)
  /\ Forall (fun f => path h root (fst f) (snd f)) fs /\ NoDup (map snd fs) /\ sorted fs
  /\ (forall ns m, path h root ns m -> exists f, In f fs /\ snd f = m /\ depth f <= length ns).
Proof.
  destruct (loop_spec (2 + length h) [root] [] [([], root)] start_ok) as (fs & E & memo & Hs); [cbn; lia|].
  exists (([], root) :: fs). split; [unfold named_modules; change (map name_it [([], root)]) with [(""%string, root)] in E; rewrite E; reflexivity|].
  destruct Hs as [H1 H2 H3 H4 H5 H6]. rewrite app_nil_r in *. cbn [app] in *. repeat (split; [easy|]).
  intros ns. induction ns as [|n ns IH] using rev_ind; intros m Hp.
  - inversion Hp; subst. exists ([], m). split; [now left|]. split; [easy|]. unfold depth. cbn. lia.
  - apply path_snoc_inv in Hp as (b & Hb & Hin). destruct (IH _ Hb) as (f & Hf & <- & Hd).
    destruct (H6 f n m Hf Hin) as (g & Hg' & Hm & Hd'). exists g. split; [easy|]. split; [easy|].
    rewrite app_length. cbn. lia.
Qed.

Lemma found_inj fs : Forall (fun f => path h root (fst f) (snd f)) fs -> NoDup (map snd fs) -> NoDup (map fst (map name_it fs)).
Proof.
  intros Hp Hn. rewrite map_map. cbn. induction fs as [|(ns, m) fs IH]; [constructor|]. cbn in *. inversion Hp as [|? ? Hp1 Hp2]; subst.
  inversion Hn as [|? ? Hn1 Hn2]; subst. constructor; [|now apply IH]. intros Hin. apply in_map_iff in Hin as ((ns', m') & E & Hin). cbn in E.
  rewrite Forall_forall in Hp2. pose proof (Hp2 _ Hin) as Hp'. cbn in *.
  apply dotted_inj in E; [|eapply path_good; eauto..]. subst ns'. apply Hn1.
  assert (m = m'); [|subst; now apply (in_map snd) in Hin].
  clear -Hp1 Hp' Hg. revert Hp'. induction Hp1 as [|m0 n k ns m1 Hin _ IH]; intros H; inversion H as [|? ? k' ? ? Hin' Hp]; subst; [easy|].
  apply IH. assert (k = k'); [|now subst]. destruct (Hg m0) as (Hok & _).
  apply (In_dget (vars h m0) n (AMod k)) in Hin; [|easy]. apply (In_dget (vars h m0) n (AMod k')) in Hin'; [|easy]. congruence.
Qed.

Theorem modules_spec : exists l, named_modules h root true true = Ok l /\ names_of (path h root) l.
Proof.
  destruct search as (fs & E & Hp & Hn & Hsort & Hall). exists (map name_it fs). split; [easy|].
  assert (Hs : map snd (map name_it fs) = map snd fs) by (rewrite map_map; reflexivity).
  split; [now apply found_inj|]. rewrite Hs. split; [easy|]. split.
  - intros x. split.
    + intros Hx. apply in_map_iff in Hx as (f & <- & Hf). rewrite Forall_forall in Hp. eexists. now apply Hp.
    + intros (ns & Hns). destruct (Hall _ _ Hns) as (f & Hf & <- & _). now apply in_map.
  - intros n x Hin. apply in_map_iff in Hin as (f & Ef & Hf). apply pair_equal_spec in Ef as [<- <-]. exists (fst f). split; [easy|].
    rewrite Forall_forall in Hp. split; [now apply Hp|]. intros ns' Hns'. destruct (Hall _ _ Hns') as (f' & Hf' & Em & Hd).
    assert (f' = f); [|subst f'; exact Hd]. now apply (nodup_inj snd fs).
Qed.
End Search.
