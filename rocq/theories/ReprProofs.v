From Coq Require Import Ascii String DecimalString DecimalZ Permutation Sorted.
From Verif Require Import Base ListLemmas PyDict ReprModel ReprSpec.
Local Open Scope string_scope. Local Open Scope nat_scope. Local Open Scope list_scope.
Local Notation length := List.length.
Local Infix "+++" := String.append (right associativity, at level 60).

Lemma app_s_assoc a b c : ((a +++ b) +++ c = a +++ (b +++ c))%string.
Proof. induction a as [|x a IH]; cbn; [reflexivity|now rewrite IH]. Qed.
Lemma app_s_nil a : a +++ "" = a.
Proof. induction a as [|x a IH]; cbn; [reflexivity|now rewrite IH]. Qed.
Lemma app_s_len a b : String.length (a +++ b) = String.length a + String.length b.
Proof. induction a as [|x a IH]; cbn; [reflexivity|now rewrite IH]. Qed.

Ltac feed H := match type of H with ?P -> _ => let h := fresh in assert (h : P); [|specialize (H h); clear h] end.
Section Ind.
  Variable P : pyv -> Prop.
  Hypothesis Hatom : forall v, (match v with VList _ | VTuple _ | VDict _ | VCall _ _ => False | _ => True end) -> P v.
  Hypothesis Hlist : forall l, Forall P l -> P (VList l).
  Hypothesis Htuple : forall l, Forall P l -> P (VTuple l).
  Hypothesis Hdict : forall d, Forall (fun kv => P (snd kv)) d -> P (VDict d).
  Hypothesis Hcall : forall a b, P a -> P b -> P (VCall a b).
  Fixpoint pyv_ind' (v : pyv) : P v :=
    match v with
    | VList l => Hlist l ((fix go l := match l return Forall P l with [] => Forall_nil _ | x :: l' => Forall_cons x (pyv_ind' x) (go l') end) l)
    | VTuple l => Htuple l ((fix go l := match l return Forall P l with [] => Forall_nil _ | x :: l' => Forall_cons x (pyv_ind' x) (go l') end) l)
    | VDict d => Hdict d ((fix go (d : list (key * pyv)) := match d return Forall (fun kv => P (snd kv)) d with [] => Forall_nil _ | x :: d' => Forall_cons x (pyv_ind' (snd x)) (go d') end) d)
    | VCall a b => Hcall a b (pyv_ind' a) (pyv_ind' b)
    | v => Hatom v I
    end.
End Ind.

(** What reading gives back: dictionaries are sorted. *)
Fixpoint norm (v : pyv) : pyv :=
  match v with
  | VList l => VList (map norm l)
  | VTuple l => VTuple (map norm l)
  | VDict d => VDict (sort_items (map (fun kv => (fst kv, norm (snd kv))) d))
  | VCall a b => VCall (norm a) (norm b)
  | v => v
  end.

(** * Sorting *)
Lemma insert_perm {X} (x : key * X) l : Permutation (insert_item x l) (x :: l).
Proof. induction l as [|y l IH]; cbn; [reflexivity|]. destruct (key_leb _ _); [reflexivity|]. rewrite IH. apply perm_swap. Qed.
Lemma sort_perm {X} (l : list (key * X)) : Permutation (sort_items l) l.
Proof. induction l as [|x l IH]; cbn; [reflexivity|]. rewrite insert_perm. now apply perm_skip. Qed.
Lemma sort_map {X Y} (f : X -> Y) (l : list (key * X)) :
  sort_items (map (fun kv => (fst kv, f (snd kv))) l) = map (fun kv => (fst kv, f (snd kv))) (sort_items l).
Proof.
  induction l as [|x l IH]; cbn; [reflexivity|]. rewrite IH. generalize (sort_items l). clear. intros l. induction l as [|y l IH]; cbn; [reflexivity|].
  destruct (key_leb (fst x) (fst y)); cbn; [reflexivity|now rewrite IH].
Qed.
Lemma ascii_compare_lt a b : Ascii.compare a b = Lt <-> (N_of_ascii a < N_of_ascii b)%N.
Proof. unfold Ascii.compare. now rewrite N.compare_lt_iff. Qed.
Lemma ascii_compare_eq a b : Ascii.compare a b = Eq <-> a = b.
Proof. unfold Ascii.compare. rewrite N.compare_eq_iff. split; [|congruence]. intros H. apply (f_equal ascii_of_N) in H. now rewrite !ascii_N_embedding in H. Qed.
Lemma compare_lt_trans : forall a b c, String.compare a b = Lt -> String.compare b c = Lt -> String.compare a c = Lt.
Proof.
  induction a as [|x a IH]; intros [|y b] [|z c]; cbn; try discriminate; auto.
  destruct (Ascii.compare x y) eqn:E1; try discriminate.
  - apply ascii_compare_eq in E1. subst y. destruct (Ascii.compare x z) eqn:E2; try discriminate; [apply IH|auto].
  - intros _. apply ascii_compare_lt in E1. destruct (Ascii.compare y z) eqn:E2; try discriminate.
    + apply ascii_compare_eq in E2. subst z. apply ascii_compare_lt in E1. now rewrite E1.
    + intros _. apply ascii_compare_lt in E2. assert (E : Ascii.compare x z = Lt) by (apply ascii_compare_lt; eapply N.lt_trans; eassumption). now rewrite E.
Qed.
Lemma sleb_trans a b c : String.leb a b = true -> String.leb b c = true -> String.leb a c = true.
Proof.
  unfold String.leb. destruct (String.compare a b) eqn:E1; try discriminate; destruct (String.compare b c) eqn:E2; try discriminate; intros _ _.
  - apply String.compare_eq_iff in E1. subst. now rewrite E2.
  - apply String.compare_eq_iff in E1. subst. now rewrite E2.
  - apply String.compare_eq_iff in E2. subst. now rewrite E1.
  - now rewrite (compare_lt_trans _ _ _ E1 E2).
Qed.
Lemma key_leb_trans a b c : key_leb a b = true -> key_leb b c = true -> key_leb a c = true.
Proof. destruct a, b, c; cbn; try discriminate; auto; [apply sleb_trans|rewrite !Z.leb_le; lia]. Qed.
Lemma key_leb_total a b : key_leb a b = true \/ key_leb b a = true.
Proof. destruct a, b; cbn; auto; [apply String.leb_total|rewrite !Z.leb_le; lia]. Qed.
Lemma key_leb_antisym a b : key_leb a b = true -> key_leb b a = true -> a = b.
Proof. destruct a, b; cbn; try discriminate; intros H1 H2; f_equal; [now apply String.leb_antisym|apply Z.leb_le in H1, H2; lia]. Qed.

Definition kle {X} (a b : key * X) : Prop := key_leb (fst a) (fst b) = true.
Lemma insert_sorted {X} (x : key * X) l : StronglySorted kle l -> StronglySorted kle (insert_item x l).
Proof.
  induction 1 as [|y l Hs IH Hf]; cbn; [repeat constructor|]. destruct (key_leb (fst x) (fst y)) eqn:E.
  - constructor; [now constructor|]. constructor; [exact E|]. eapply Forall_impl; [|exact Hf]. intros z Hz. eapply key_leb_trans; eauto.
  - constructor; [exact IH|]. eapply Permutation_Forall; [symmetry; apply insert_perm|]. constructor; [|exact Hf]. destruct (key_leb_total (fst x) (fst y)); [congruence|assumption].
Qed.
Lemma sort_sorted {X} (l : list (key * X)) : StronglySorted kle (sort_items l).
Proof. induction l; cbn; [constructor|now apply insert_sorted]. Qed.
Lemma sorted_unique {X} (l l' : list (key * X)) : StronglySorted kle l -> StronglySorted kle l' -> NoDup (map fst l) -> Permutation l l' -> l = l'.
Proof.
  revert l'. induction l as [|x l IH]; intros l' Hs Hs' Hn Hp; [apply Permutation_nil in Hp; now subst|].
  destruct l' as [|y l']; [symmetry in Hp; apply Permutation_nil in Hp; discriminate|].
  apply StronglySorted_inv in Hs. apply StronglySorted_inv in Hs'. destruct Hs as [Hs Hf], Hs' as [Hs' Hf'].
  assert (Hxy : x = y).
  { assert (Hy : In y (x :: l)) by (eapply Permutation_in; [symmetry; exact Hp|now left]). assert (Hx : In x (y :: l')) by (eapply Permutation_in; [exact Hp|now left]).
    destruct Hy as [->|Hy]; [reflexivity|]. destruct Hx as [<-|Hx]; [reflexivity|]. rewrite Forall_forall in Hf, Hf'.
    assert (fst x = fst y) by (apply key_leb_antisym; [exact (Hf _ Hy)|exact (Hf' _ Hx)]). cbn in Hn. apply NoDup_cons_iff in Hn. destruct Hn as [Hn _].
    exfalso. apply Hn. rewrite H. now apply in_map. }
  subst y. f_equal. apply IH; auto; [cbn in Hn; now apply NoDup_cons_iff in Hn|now apply Permutation_cons_inv in Hp].
Qed.
Lemma sort_unique {X} (l l' : list (key * X)) : NoDup (map fst l) -> Permutation l l' -> sort_items l = sort_items l'.
Proof.
  intros Hn Hp. apply sorted_unique; try apply sort_sorted; [eapply Permutation_NoDup; [symmetry; apply Permutation_map, sort_perm|exact Hn]|].
  now rewrite !sort_perm.
Qed.

(** * Scanning *)
Fixpoint all_chars (p : ascii -> bool) (s : string) : bool := match s with "" => true | String c s' => p c && all_chars p s' end%string.
Definition stops (p : ascii -> bool) (s : string) : Prop := match s with ""%string => True | String c _ => p c = false end.
Lemma span_app p a r : all_chars p a = true -> stops p r -> span p (a +++ r) = (a, r).
Proof.
  intros Ha Hr. induction a as [|c a IH]; cbn in *.
  - destruct r as [|c r]; cbn in *; [reflexivity|now rewrite Hr].
  - apply andb_true_iff in Ha. destruct Ha as [Hc Ha]. now rewrite Hc, (IH Ha).
Qed.
Lemma span_spec p s : let (a, b) := span p s in s = a +++ b /\ all_chars p a = true /\ stops p b.
Proof.
  induction s as [|c s IH]; cbn; [auto|]. destruct (p c) eqn:E; cbn; [|auto]. destruct (span p s) as [a b]. destruct IH as (->&Ha&Hb). cbn. rewrite E. auto.
Qed.
Lemma all_chars_app p a b : all_chars p (a +++ b) = all_chars p a && all_chars p b.
Proof. induction a as [|c a IH]; cbn; [reflexivity|]. now rewrite IH, andb_assoc. Qed.
Lemma all_chars_impl (p q : ascii -> bool) a : (forall c, p c = true -> q c = true) -> all_chars p a = true -> all_chars q a = true.
Proof. intros H. induction a as [|c a IH]; cbn; [auto|]. rewrite !andb_true_iff. intuition. Qed.
Lemma eqb_s_false a b : negb (String.eqb a b) = true -> a <> b.
Proof. rewrite negb_true_iff. apply String.eqb_neq. Qed.

Lemma digit_number c : is_digit c = true -> is_number_char c = true.
Proof. unfold is_number_char. now intros ->. Qed.
Lemma all_digits_chars s : all_digits s = true -> all_chars is_digit s = true.
Proof.
  unfold all_digits. pose proof (span_spec is_digit s) as H. destruct (span is_digit s) as [a b]. destruct H as (->&Ha&_). rewrite andb_true_iff. intros [_ Hb]. apply String.eqb_eq in Hb. subst b.
  now rewrite app_s_nil.
Qed.
Lemma exponent_chars s : exponent s = true -> all_chars is_number_char s = true.
Proof.
  unfold exponent. destruct s as [|c s]; [discriminate|]. destruct (Ascii.eqb c "-" || Ascii.eqb c "+") eqn:E; intros H; apply all_digits_chars in H.
  - cbn. rewrite (all_chars_impl _ _ _ digit_number H), andb_true_r. unfold is_number_char. apply orb_true_iff in E. destruct E as [-> | ->]; rewrite ?orb_true_r; reflexivity.
  - eapply all_chars_impl; [apply digit_number|exact H].
Qed.
Lemma float_text_chars s : float_text s = true ->
  all_chars is_number_char s = true /\ match s with ""%string => False | String c _ => is_digit c || Ascii.eqb c "-" = true end.
Proof.
  intros H.
  assert (Hs : all_chars is_number_char (strip_sign s) = true /\ stops (fun c => negb (is_digit c)) (strip_sign s) /\ strip_sign s <> ""%string).
  { unfold float_text in H. generalize dependent (strip_sign s). clear s. intros s H. pose proof (span_spec is_digit s) as Hp. destruct (span is_digit s) as [a b]. destruct Hp as (->&Ha&Hb).
    apply andb_true_iff in H. destruct H as [Hn H]. apply eqb_s_false in Hn. destruct a as [|c0 a]; [congruence|]. split; [|split; [cbn in *; apply andb_true_iff in Ha; destruct Ha as [-> _]; reflexivity|discriminate]].
    rewrite all_chars_app, (all_chars_impl _ _ _ digit_number Ha). cbn [andb]. destruct b as [|c b]; [reflexivity|]. cbn [all_chars].
    destruct (Ascii.eqb c ".") eqn:Ec.
    - unfold is_number_char at 1. rewrite Ec, orb_true_r. cbn [orb andb]. pose proof (span_spec is_digit b) as Hp. destruct (span is_digit b) as [f e]. destruct Hp as (->&Hf&He).
      apply andb_true_iff in H. destruct H as [_ H]. rewrite all_chars_app, (all_chars_impl _ _ _ digit_number Hf). cbn [andb]. destruct e as [|c' e]; [reflexivity|].
      apply andb_true_iff in H. destruct H as [H1 H2]. cbn. rewrite (exponent_chars _ H2). unfold is_number_char. rewrite H1, !orb_true_r. reflexivity.
    - apply andb_true_iff in H. destruct H as [H1 H2]. rewrite (exponent_chars _ H2). unfold is_number_char. rewrite H1, !orb_true_r. reflexivity. }
  destruct Hs as (Hc&Hd&Hne). destruct s as [|c s]; [cbn in Hne; congruence|]. cbn in Hc, Hd, Hne. destruct (Ascii.eqb c "-") eqn:E.
  - cbn. rewrite Hc. unfold is_number_char. rewrite E, !orb_true_r. auto.
  - split; [exact Hc|]. cbn in Hd. apply negb_false_iff in Hd. now rewrite Hd.
Qed.

Lemma uint_digits u : all_chars is_digit (NilEmpty.string_of_uint u) = true.
Proof. induction u; cbn; auto. Qed.
Lemma uint_digits' u : all_chars is_digit (NilZero.string_of_uint u) = true /\ NilZero.string_of_uint u <> ""%string.
Proof. destruct u; cbn; auto; split; try discriminate; try reflexivity; apply uint_digits. Qed.
Lemma span_all p a : all_chars p a = true -> span p a = (a, ""%string).
Proof. intros H. rewrite <- (app_s_nil a) at 1. apply span_app; cbn; auto. Qed.
Lemma strip_digits s : all_chars is_digit s = true -> strip_sign s = s.
Proof.
  destruct s as [|c s]; cbn; [auto|]. destruct (Ascii.eqb c "-") eqn:E; [|auto]. apply Ascii.eqb_eq in E. subst c. discriminate.
Qed.
Lemma repr_int_spec z : number (repr_int z) = Ok (VInt z) /\ all_chars is_number_char (repr_int z) = true /\
  match repr_int z with ""%string => False | String c _ => is_digit c || Ascii.eqb c "-" = true end.
Proof.
  assert (Hd : Z.to_int z <> Decimal.Pos Decimal.Nil /\ Z.to_int z <> Decimal.Neg Decimal.Nil).
  { split; intros E; apply (f_equal NilZero.string_of_int) in E as E2; pose proof (of_to z) as E3; rewrite E in E3; cbn in E3; subst z; discriminate. }
  unfold repr_int. split.
  - unfold number. replace (float_text _) with false; [rewrite NilZero.isi by apply Hd; now rewrite of_to|]. symmetry. unfold float_text.
    destruct (Z.to_int z) as [u|u]; cbn [NilZero.string_of_int].
    + destruct (uint_digits' u) as [H1 H2]. rewrite strip_digits, span_all by assumption. apply andb_false_r.
    + destruct (uint_digits' u) as [H1 H2]. cbn [strip_sign]. cbn [Ascii.eqb Bool.eqb]. rewrite span_all by assumption. apply andb_false_r.
  - destruct (Z.to_int z) as [u|u]; cbn [NilZero.string_of_int]; destruct (uint_digits' u) as [H1 H2].
    + split; [eapply all_chars_impl; [apply digit_number|exact H1]|]. destruct (NilZero.string_of_uint u); [congruence|]. cbn in H1. apply andb_true_iff in H1. destruct H1 as [-> _]. reflexivity.
    + split; [|reflexivity]. cbn. eapply all_chars_impl; [apply digit_number|exact H1].
Qed.

Lemma hex_read c : unhex (hex_digit (code c / 16)) = Some (code c / 16) /\ unhex (hex_digit (code c mod 16)) = Some (code c mod 16) /\ ascii_of_nat (code c / 16 * 16 + code c mod 16) = c.
Proof. destruct c as [[] [] [] [] [] [] [] []]; vm_compute; auto. Qed.
Lemma has_code_eq n c : n < 256 -> has_code n c = true -> c = ascii_of_nat n.
Proof. intros Hn H. apply Nat.eqb_eq in H. unfold code in H. rewrite <- H. symmetry. apply ascii_nat_embedding. Qed.
Lemma string_rest_esc q d t : Ascii.eqb "\" q = false -> Ascii.eqb d "x" = false ->
  string_rest q (String "\" (String d t)) =
  (let* r := string_rest q t in
   if Ascii.eqb d "n" then Ok (String (ascii_of_nat 10) (fst r), snd r)
   else if Ascii.eqb d "r" then Ok (String (ascii_of_nat 13) (fst r), snd r)
   else if Ascii.eqb d "t" then Ok (String (ascii_of_nat 9) (fst r), snd r)
   else if Ascii.eqb d "\" || Ascii.eqb d quote || Ascii.eqb d dquote then Ok (String d (fst r), snd r)
   else Err OtherException).
Proof. intros H1 H2. cbn [string_rest]. rewrite H1, H2. reflexivity. Qed.
Lemma escape_char_read q c t : q = quote \/ q = dquote ->
  string_rest q (escape_char q c +++ t) = (let* r := string_rest q t in Ok (String c (fst r), snd r)).
Proof.
  intros Hq. assert (Hb : Ascii.eqb "\" q = false) by (destruct Hq as [-> | ->]; reflexivity). unfold escape_char.
  destruct (Ascii.eqb c q || Ascii.eqb c "\") eqn:E1.
  { cbn [String.append]. apply orb_true_iff in E1. rewrite !Ascii.eqb_eq in E1.
    rewrite string_rest_esc; [|exact Hb|destruct E1 as [-> | ->]; [destruct Hq as [-> | ->]|]; reflexivity].
    destruct E1 as [-> | ->]; [destruct Hq as [-> | ->]|]; reflexivity. }
  destruct (has_code 10 c) eqn:E2; [apply has_code_eq in E2; [|lia]; subst c; cbn [String.append]; rewrite string_rest_esc by (exact Hb || reflexivity); reflexivity|].
  destruct (has_code 13 c) eqn:E3; [apply has_code_eq in E3; [|lia]; subst c; cbn [String.append]; rewrite string_rest_esc by (exact Hb || reflexivity); reflexivity|].
  destruct (has_code 9 c) eqn:E4; [apply has_code_eq in E4; [|lia]; subst c; cbn [String.append]; rewrite string_rest_esc by (exact Hb || reflexivity); reflexivity|].
  apply orb_false_iff in E1. destruct E1 as [E1 E1']. destruct (printable c).
  - cbn [String.append string_rest]. rewrite E1, E2, E1'. reflexivity.
  - destruct (hex_read c) as (H1&H2&H3). cbn [String.append string_rest]. rewrite Hb. change (has_code 10 "\") with false. cbn [Ascii.eqb Bool.eqb]. rewrite H1, H2. rewrite H3. reflexivity.
Qed.
Lemma escape_read q s t : q = quote \/ q = dquote -> string_rest q (escape q s +++ String q t) = Ok (s, t).
Proof.
  intros Hq. induction s as [|c s IH]; cbn [escape].
  - cbn. now rewrite Ascii.eqb_refl.
  - rewrite app_s_assoc, escape_char_read by exact Hq. rewrite IH. reflexivity.
Qed.

(** * Items *)
Definition starts (close : ascii) (t : string) : Prop := match t with ""%string => False | String c _ => is_space c = false /\ Ascii.eqb c close = false end.
Definition delim (r : string) : Prop := stops is_number_char r /\ stops is_letter r.
Definition closing (c : ascii) : Prop := is_space c = false /\ Ascii.eqb c "," = false /\ is_number_char c = false /\ is_letter c = false.
Lemma delim_close c r : closing c -> delim (String c r).
Proof. intros (_&_&H1&H2). split; assumption. Qed.
Lemma delim_comma r : delim (String "," r).
Proof. split; reflexivity. Qed.
Lemma skip_starts close t r : starts close t -> skip (t +++ r) = t +++ r.
Proof. destruct t as [|c t]; cbn; [tauto|]. now intros [-> _]. Qed.
Lemma items_step {A} (item : string -> res (A * string)) close n t a r : starts close t -> item (t +++ r) = Ok (a, r) ->
  items item close (S n) (t +++ r) =
    match skip r with
    | ""%string => Err OtherException
    | String d r' =>
        if Ascii.eqb d "," then let* y := items item close n r' in Ok (a :: fst (fst y), true, snd y)
        else if Ascii.eqb d close then Ok ([a], false, r')
        else Err OtherException
    end.
Proof.
  intros Ht Hi. cbn [items]. rewrite (skip_starts close) by exact Ht. destruct t as [|c t]; [easy|]. cbn [String.append] in *. destruct Ht as [_ Hc]. rewrite Hc, Hi. reflexivity.
Qed.
Lemma items_skip {A} (item : string -> res (A * string)) close n s s' : skip s = skip s' -> items item close n s = items item close n s'.
Proof. intros H. destruct n as [|n]; cbn [items]; [reflexivity|]. now rewrite H. Qed.
Lemma items_end {A} (item : string -> res (A * string)) close n r : closing close -> items item close (S n) (String close r) = Ok ([], false, r).
Proof. intros (Hs&_). cbn [items skip]. rewrite Hs. now rewrite Ascii.eqb_refl. Qed.
Lemma skip_newline s : skip (newline +++ s) = skip s.
Proof. reflexivity. Qed.

Lemma items_lines {A} (item : string -> res (A * string)) close (tas : list (string * A)) n r : closing close ->
  (forall t a, In (t, a) tas -> starts close t /\ forall r, delim r -> item (t +++ r) = Ok (a, r)) -> length tas < n ->
  exists b, items item close n (join "" (map (fun v => v +++ "," +++ newline) (map fst tas)) +++ String close r) = Ok (map snd tas, b, r).
Proof.
  intros Hc H. revert n. induction tas as [|[t a] tas IH]; intros n Hn; (destruct n as [|n]; [cbn in Hn; lia|]); cbn [map fst snd].
  - exists false. unfold join. cbn [String.concat String.append]. now apply items_end.
  - destruct (H t a) as [Ht Hi]; [now left|]. destruct (IH ltac:(intros t' a' Hin; apply H; now right) n) as [b Hb]; [cbn in Hn; lia|]. exists true.
    replace (join "" ((t +++ "," +++ newline) :: map (fun v => v +++ "," +++ newline) (map fst tas)) +++ String close r)
      with (t +++ String "," (newline +++ (join "" (map (fun v => v +++ "," +++ newline) (map fst tas)) +++ String close r))).
    2:{ unfold join. cbn [String.concat]. destruct (map (fun v => v +++ "," +++ newline) (map fst tas)) as [|x l]; cbn [String.append String.concat]; rewrite !app_s_assoc; reflexivity. }
    rewrite (items_step item close n t a) by (auto using delim_comma). cbn [skip]. cbn [is_space code]. 
    change (is_space ",") with false. cbn [Ascii.eqb Bool.eqb]. rewrite (items_skip item close n _ _ (skip_newline _)), Hb. reflexivity.
Qed.
Lemma items_sep {A} (item : string -> res (A * string)) close (tas : list (string * A)) n r : closing close ->
  (forall t a, In (t, a) tas -> starts close t /\ forall r, delim r -> item (t +++ r) = Ok (a, r)) -> length tas < n ->
  exists b, items item close n (join ", " (map fst tas) +++ String close r) = Ok (map snd tas, b, r) /\ (b = true <-> 1 < length tas).
Proof.
  intros Hc H. revert n. induction tas as [|[t a] tas IH]; intros n Hn; (destruct n as [|n]; [cbn in Hn; lia|]); cbn [map fst snd].
  - exists false. unfold join. cbn [String.concat String.append]. split; [now apply items_end|cbn; split; [discriminate|lia]].
  - destruct (H t a) as [Ht Hi]; [now left|]. destruct tas as [|[t2 a2] tas].
    + exists false. unfold join. cbn [map String.concat]. split; [|cbn; split; [discriminate|lia]]. rewrite (items_step item close n t a) by (auto using delim_close).
      destruct Hc as (Hs&Hcm&_). cbn [skip]. rewrite Hs, Hcm, Ascii.eqb_refl. reflexivity.
    + destruct (IH ltac:(intros t' a' Hin; apply H; now right) n) as (b&Hb&_); [cbn in *; lia|]. exists true. split; [|cbn; split; [lia|auto]].
      set (rest := map fst ((t2, a2) :: tas)) in *.
      replace (join ", " (t :: rest) +++ String close r) with (t +++ String "," (" " +++ (join ", " rest +++ String close r))).
      2:{ unfold join. subst rest. cbn [map String.concat fst]. rewrite !app_s_assoc. reflexivity. }
      rewrite (items_step item close n t a) by (auto using delim_comma). cbn [skip]. change (is_space ",") with false. cbn [Ascii.eqb Bool.eqb].
      rewrite (items_skip item close n (" " +++ _) (join ", " rest +++ String close r)) by reflexivity. rewrite Hb. reflexivity.
Qed.

Lemma expr_skip f s s' : skip s = skip s' -> expr f s = expr f s'.
Proof. intros H. destruct f; cbn [expr]; [reflexivity|]. now rewrite H. Qed.

Lemma expr_number f t v r : number t = Ok v -> all_chars is_number_char t = true -> match t with ""%string => False | String c _ => is_digit c || Ascii.eqb c "-" = true end ->
  delim r -> expr (S f) (t +++ r) = Ok (v, r).
Proof.
  intros Hn Hc Hs [Hd _]. pose proof (span_app _ _ _ Hc Hd) as Hsp. destruct t as [|c t]; [easy|]. cbn [String.append] in *. cbn [expr].
  assert (Hc' : is_space c = false /\ Ascii.eqb c quote || Ascii.eqb c dquote = false).
  { clear - Hs. destruct c as [[] [] [] [] [] [] [] []]; cbv in Hs |- *; auto; discriminate. }
  destruct Hc' as [H1 H2]. cbn [skip]. rewrite H1, H2, Hs, Hsp, Hn. reflexivity.
Qed.
Lemma repr_str_q s : exists q, (q = quote \/ q = dquote) /\ repr_str s = String q (escape q s +++ String q "").
Proof. unfold repr_str. cbv zeta. destruct (_ && _); eauto. Qed.
Lemma expr_str f s r : expr (S f) (repr_str s +++ r) = Ok (VStr s, r).
Proof.
  destruct (repr_str_q s) as (q&Hq&->). cbn [String.append expr]. rewrite app_s_assoc. cbn [String.append].
  assert (H : is_space q = false /\ Ascii.eqb q quote || Ascii.eqb q dquote = true) by (destruct Hq as [-> | ->]; split; reflexivity). destruct H as [H1 H2].
  cbn [skip]. rewrite H1, H2, escape_read by exact Hq. reflexivity.
Qed.
Lemma expr_key f k r : delim r -> expr (S f) (repr_key k +++ r) = Ok (match k with KStr s => VStr s | KInt z => VInt z end, r).
Proof.
  intros Hr. destruct k as [s|z]; [apply expr_str|]. destruct (repr_int_spec z) as (A&B&C). now apply expr_number.
Qed.
Lemma key_starts k : starts "}" (repr_key k).
Proof.
  destruct k as [s|z]; cbn [repr_key].
  - destruct (repr_str_q s) as (q&[-> | ->]&->); split; reflexivity.
  - destruct (repr_int_spec z) as (_&_&C). destruct (repr_int z) as [|c t]; [easy|]. revert C. clear. cbn. destruct c as [[] [] [] [] [] [] [] []]; cbv; auto; discriminate.
Qed.

(** * Reading what was written *)
Lemma join_cons sep x y l : join sep (x :: y :: l) = x +++ sep +++ join sep (y :: l).
Proof. reflexivity. Qed.
Lemma join_len_In sep t l : In t l -> String.length t <= String.length (join sep l).
Proof.
  induction l as [|x l IH]; [easy|]. destruct l as [|y l].
  - intros [->|[]]. reflexivity.
  - rewrite join_cons, !app_s_len. intros [->|H]; [lia|]. specialize (IH H). lia.
Qed.
Lemma join_len_count sep l : (forall t, In t l -> t <> ""%string) -> length l <= String.length (join sep l).
Proof.
  induction l as [|x l IH]; intros H; [cbn; lia|]. assert (Hx : 1 <= String.length x) by (specialize (H x (or_introl eq_refl)); destruct x; [congruence|cbn; lia]).
  destruct l as [|y l]; [cbn in *; exact Hx|]. rewrite join_cons, !app_s_len. specialize (IH (fun t Ht => H t (or_intror Ht))). cbn [List.length] in *. lia.
Qed.
Lemma starts_ne c t : starts c t -> t <> ""%string.
Proof. destruct t; [easy|discriminate]. Qed.

Lemma brepr_tuple l : no_singletons (VTuple l) -> brepr (VTuple l) = ("(" +++ join ", " (map brepr l) +++ ")")%string.
Proof. destruct l as [|x [|y l]]; [reflexivity|cbn; tauto|]. intros _. destruct x as [| | | | | | | | |l0| |]; try reflexivity. destruct l0 as [|p [|p2 l0]]; try reflexivity; destruct p; reflexivity. Qed.
Lemma no_singletons_in l x : no_singletons (VTuple l) \/ no_singletons (VList l) -> In x l -> no_singletons x.
Proof.
  intros H. assert (H' : fold_right (fun x P => no_singletons x /\ P) True l) by (destruct H as [H|H]; [destruct l as [|y [|z l]]; [exact I|cbn in H; tauto|exact H]|exact H]).
  clear H. induction l as [|y l IH]; [easy|]. cbn in H'. intros [->|Hin]; tauto.
Qed.
Lemma no_singletons_dict d kv : no_singletons (VDict d) -> In kv d -> no_singletons (snd kv).
Proof. cbn. induction d as [|y l IH]; [easy|]. cbn. intros H [->|Hin]; tauto. Qed.
Lemma well_formed_in l x : well_formed (VList l) -> In x l -> well_formed x.
Proof. cbn. induction l as [|y l IH]; [easy|]. cbn. intros H [->|Hin]; tauto. Qed.
Lemma well_formed_dict d kv : well_formed (VDict d) -> In kv d -> well_formed (snd kv).
Proof. cbn. intros [_ H]. revert H. induction d as [|y l IH]; [easy|]. cbn. intros H [->|Hin]; tauto. Qed.

Lemma brepr_starts close v : (close = "]" \/ close = ")" \/ close = "}")%char -> well_formed v -> no_singletons v -> starts close (brepr v).
Proof.
  intros Hc Hw Hn.
  assert (Hd : forall t, (match t with ""%string => False | String c _ => is_digit c || Ascii.eqb c "-" = true end) -> starts close t).
  { intros [|c t]; [easy|]. destruct Hc as [-> |[-> | ->]]; destruct c as [[] [] [] [] [] [] [] []]; vm_compute; auto; discriminate. }
  destruct v; cbn [brepr repr]; try (destruct Hc as [-> |[-> | ->]]; split; reflexivity).
  - destruct b, Hc as [-> |[-> | ->]]; split; reflexivity.
  - apply Hd. apply (repr_int_spec z).
  - apply Hd. now apply float_text_chars.
  - destruct (repr_str_q s) as (q&[-> | ->]&->); destruct Hc as [-> |[-> | ->]]; split; reflexivity.
  - change (starts close (brepr (VTuple l))). rewrite brepr_tuple by exact Hn. destruct Hc as [-> |[-> | ->]]; split; reflexivity.
  - unfold dict_text. destruct (40 <=? _); destruct Hc as [-> |[-> | ->]]; split; reflexivity.
Qed.

Lemma make_dict_id l : NoDup (map fst l) -> make_dict l = l.
Proof.
  unfold make_dict. assert (H : forall acc, NoDup (map fst (acc ++ l)) -> fold_left (fun d kv => dset d (fst kv) (snd kv)) l acc = acc ++ l).
  { induction l as [|[k v] l IH]; intros acc Hn; cbn [fold_left fst snd]; [now rewrite app_nil_r|].
    assert (E : dset acc k v = acc ++ [(k, v)]).
    { assert (Hk : ~ In k (map fst acc)). { rewrite map_app in Hn. cbn in Hn. apply NoDup_remove_2 in Hn. rewrite in_app_iff in Hn. tauto. }
      clear - Hk. induction acc as [|[k' v'] acc IH]; cbn; [reflexivity|]. destruct (keqb_key k' k) eqn:E; [exfalso; apply Hk; left; exact (proj1 (keqb_eq (K := key) k' k) E)|]. f_equal. apply IH. cbn in Hk. tauto. }
    rewrite E, IH; [now rewrite <- app_assoc|]. now rewrite <- app_assoc. }
  intros Hn. now apply (H []).
Qed.

Lemma closing_all c : (c = "]" \/ c = ")" \/ c = "}")%char -> closing c.
Proof. intros [-> |[-> | ->]]; repeat split. Qed.
Lemma expr_word (f : nat) name r : all_chars is_letter name = true -> (name <> "")%string -> delim r ->
  skip (name +++ r) = name +++ r /\ span is_letter (name +++ r) = (name, r) /\ 
  match name with ""%string => False | String c _ => Ascii.eqb c quote || Ascii.eqb c dquote = false /\ is_digit c || Ascii.eqb c "-" = false /\ Ascii.eqb c "[" = false /\ Ascii.eqb c "(" = false /\ Ascii.eqb c "{" = false /\ is_letter c = true end.
Proof.
  intros Ha Hn [_ Hl]. split; [|split; [now apply span_app|]].
  - destruct name as [|c n]; [congruence|]. cbn in *. apply andb_true_iff in Ha. destruct Ha as [Ha _]. replace (is_space c) with false; [reflexivity|]. revert Ha. clear. destruct c as [[] [] [] [] [] [] [] []]; vm_compute; auto; discriminate.
  - destruct name as [|c n]; [congruence|]. cbn in *. apply andb_true_iff in Ha. destruct Ha as [Ha _]. revert Ha. clear. destruct c as [[] [] [] [] [] [] [] []]; vm_compute; auto 6; discriminate.
Qed.

Lemma entry_read f k v r : (forall r, delim r -> expr f (brepr v +++ r) = Ok (norm v, r)) -> delim r -> 1 <= f ->
  entry (expr f) ((repr_key k +++ ": " +++ brepr v) +++ r) = Ok ((k, norm v), r).
Proof.
  intros Hv Hr Hf. destruct f as [|f]; [lia|]. unfold entry. rewrite !app_s_assoc. rewrite expr_key by (split; reflexivity). cbn [bind snd fst].
  cbn [String.append]. change (expect ":" (String ":" (String " " (brepr v +++ r)))) with (Ok (String " " (brepr v +++ r))). cbn [bind].
  rewrite (expr_skip (S f) (String " " (brepr v +++ r)) (brepr v +++ r)) by reflexivity. rewrite Hv by exact Hr. cbn [bind]. destruct k; reflexivity.
Qed.


Lemma s1 c s : String c "" +++ s = String c s.
Proof. reflexivity. Qed.
(** Where an opening bracket leads. *)
Lemma expr_list f s : expr (S f) (String "[" s) = (let* x := items (expr f) "]" (S (String.length s)) s in Ok (VList (fst (fst x)), snd x)).
Proof. reflexivity. Qed.
Lemma expr_tuple f s : expr (S f) (String "(" s) =
  (let* x := items (expr f) ")" (S (String.length s)) s in Ok (match fst (fst x), snd (fst x) with [v], false => v | l, _ => VTuple l end, snd x)).
Proof. reflexivity. Qed.
Lemma expr_dict f s : expr (S f) (String "{" s) = (let* x := items (entry (expr f)) "}" (S (String.length s)) s in Ok (VDict (make_dict (fst (fst x))), snd x)).
Proof. reflexivity. Qed.

Lemma read_back v : well_formed v -> no_singletons v -> forall f r, String.length (brepr v) <= f -> delim r -> expr f (brepr v +++ r) = Ok (norm v, r).
Proof.
  induction v as [v Hv|l IH|l IH|d IH|a b IHa IHb] using pyv_ind'; intros Hw Hn f r Hf Hr.
  - assert (Hp : 1 <= String.length (brepr v)). { assert (starts "]" (brepr v)) by (apply brepr_starts; auto). destruct (brepr v); [easy|cbn; lia]. }
    destruct f as [|f]; [lia|]. clear Hp.
    destruct v; cbn in Hv; try tauto; cbn [brepr repr norm].
    + destruct (expr_word f "None" r) as (A&B&C); [reflexivity|discriminate|exact Hr|]. cbn [expr]. rewrite A. cbn [String.append] in *. cbn -[span]. rewrite B. reflexivity.
    + destruct b.
      * destruct (expr_word f "True" r) as (A&B&C); [reflexivity|discriminate|exact Hr|]. cbn [expr]. rewrite A. cbn [String.append] in *. cbn -[span]. rewrite B. reflexivity.
      * destruct (expr_word f "False" r) as (A&B&C); [reflexivity|discriminate|exact Hr|]. cbn [expr]. rewrite A. cbn [String.append] in *. cbn -[span]. rewrite B. reflexivity.
    + destruct (repr_int_spec z) as (A&B&C). now apply expr_number.
    + cbn in Hw. destruct (float_text_chars _ Hw) as [A B]. apply expr_number; auto. unfold number. now rewrite Hw.
    + cbn in Hf. destruct f as [|f]; [lia|]. reflexivity.
    + cbn in Hf. destruct f as [|f]; [lia|]. reflexivity.
    + cbn in Hf. destruct f as [|f]; [lia|]. reflexivity.
    + apply expr_str.
  - cbn [brepr] in *. destruct f as [|f]; [cbn in Hf; lia|]. set (ts := map brepr l). 
    assert (E : map (fun x => brepr x +++ "," +++ newline) l = map (fun v => v +++ "," +++ newline) ts) by (subst ts; now rewrite map_map).
    rewrite E in *. clear E. rewrite !app_s_assoc, (s1 "["), (s1 "]"). rewrite expr_list, (items_skip _ _ _ (newline +++ _) _ (skip_newline _)).
    set (fu := S (String.length _)).
    destruct (items_lines (expr f) "]" (map (fun x => (brepr x, norm x)) l) fu r) as [bb Hb].
    + apply closing_all; auto.
    + intros t a Hin. apply in_map_iff in Hin. destruct Hin as (x&E&Hin). injection E as <- <-. split; [apply brepr_starts; auto; [eapply well_formed_in; eauto|eapply no_singletons_in; eauto]|].
      intros r' Hr'. rewrite Forall_forall in IH. apply IH; auto; [eapply well_formed_in; eauto|eapply no_singletons_in; eauto|].
      cbn in Hf. rewrite app_s_len in Hf. pose proof (join_len_In "" (brepr x +++ "," +++ newline) (map (fun v => v +++ "," +++ newline) ts)) as HL. rewrite app_s_len in HL. cbn in HL.
      feed HL; [apply in_map_iff; exists (brepr x); split; [reflexivity|now apply in_map]|]. lia.
    + subst fu. rewrite map_length, !app_s_len. pose proof (join_len_count "" (map (fun v => v +++ "," +++ newline) ts)) as HL. feed HL; [intros t Ht; apply in_map_iff in Ht; destruct Ht as (x&<-&_); destruct x; discriminate|].
      unfold ts at 1 in HL. rewrite !map_length in HL. cbn [String.append] in *. lia.
    + rewrite !map_map in Hb. cbn [fst snd] in Hb. subst ts. rewrite map_map. rewrite Hb. reflexivity.
  - rewrite brepr_tuple in * by exact Hn. destruct f as [|f]; [cbn in Hf; lia|]. rewrite !app_s_assoc. cbn [String.append]. rewrite expr_tuple. set (fu := S (String.length _)).
    destruct (items_sep (expr f) ")" (map (fun x => (brepr x, norm x)) l) fu r) as (bb&Hb&Hbb).
    + apply closing_all; auto.
    + intros t a Hin. apply in_map_iff in Hin. destruct Hin as (x&E&Hin). injection E as <- <-. split; [apply brepr_starts; auto; [eapply well_formed_in; eauto|eapply no_singletons_in; eauto]|].
      intros r' Hr'. rewrite Forall_forall in IH. apply IH; auto; [eapply well_formed_in; eauto|eapply no_singletons_in; eauto|].
      cbn in Hf. rewrite app_s_len in Hf. pose proof (join_len_In ", " (brepr x) (map brepr l) (in_map _ _ _ Hin)) as HL. lia.
    + subst fu. rewrite map_length, !app_s_len. pose proof (join_len_count ", " (map brepr l)) as HL. feed HL.
      { intros t Ht. apply in_map_iff in Ht. destruct Ht as (x&<-&Hin). apply (starts_ne ")"). apply brepr_starts; auto; [eapply well_formed_in; eauto|eapply no_singletons_in; eauto]. }
      rewrite map_length in HL. lia.
    + rewrite !map_map in Hb. cbn [fst snd] in Hb. change (map (fun x => brepr x) l) with (map brepr l) in Hb. rewrite Hb. cbn [bind fst snd]. destruct l as [|x [|y l]]; [reflexivity|cbn in Hn; tauto|]. reflexivity.
  - destruct f as [|f]; [cbn in Hf; unfold dict_text in Hf; destruct (40 <=? _); cbn in Hf; lia|].
    cbn [brepr norm] in *. set (ds := sort_items d). rewrite (sort_map brepr), (sort_map norm), map_map in *. fold ds in Hf |- *. cbn [fst snd] in *.
    set (entries := map (fun kv => (repr_key (fst kv) +++ ": " +++ brepr (snd kv), (fst kv, norm (snd kv)))) ds).
    assert (Hin_d : forall kv, In kv ds -> In kv d) by (intros kv; apply Permutation_in, sort_perm).
    assert (Et : map (fun kv => repr_key (fst kv) +++ ": " +++ brepr (snd kv)) ds = map fst entries) by (subst entries; now rewrite map_map).
    rewrite Et in *. clear Et.
    assert (Hlen : forall t a, In (t, a) entries -> String.length t <= f).
    { intros t a Hin. unfold dict_text in Hf. destruct (40 <=? _).
      - cbn in Hf. rewrite app_s_len in Hf. pose proof (join_len_In "" (t +++ "," +++ newline) (map (fun v => v +++ "," +++ newline) (map fst entries))) as HL. rewrite app_s_len in HL.
        feed HL; [apply in_map_iff; exists t; split; [reflexivity|]; apply in_map_iff; exists (t, a); auto|]. cbn in HL. lia.
      - cbn in Hf. rewrite app_s_len in Hf. pose proof (join_len_In ", " t (map fst entries)) as HL. feed HL; [apply in_map_iff; exists (t, a); auto|]. cbn in HL. lia. }
    assert (Hitems : forall t a, In (t, a) entries -> starts "}" t /\ forall r, delim r -> entry (expr f) (t +++ r) = Ok (a, r)).
    { intros t a Hin. pose proof (Hlen _ _ Hin) as HL. apply in_map_iff in Hin. destruct Hin as (kv&E&Hin). injection E as <- <-. rewrite app_s_len in HL. cbn in HL. split.
      - pose proof (key_starts (fst kv)) as Hk. destruct (repr_key (fst kv)); [easy|exact Hk].
      - intros r' Hr'. apply entry_read; auto; [|lia]. intros r2 Hr2. rewrite Forall_forall in IH. apply IH; auto; [eapply well_formed_dict; eauto|eapply no_singletons_dict; eauto|]. lia. }
    assert (Hmk : make_dict (map snd entries) = map (fun kv => (fst kv, norm (snd kv))) ds).
    { subst entries. rewrite map_map. cbn [snd]. apply make_dict_id. rewrite map_map. cbn [fst]. eapply Permutation_NoDup; [apply Permutation_map; symmetry; apply sort_perm|]. apply Hw. }
    assert (Hne : forall t, In t (map fst entries) -> t <> ""%string).
    { intros t Ht. apply in_map_iff in Ht. destruct Ht as ([t' a]&<-&Hin). apply (starts_ne "}"). now apply (Hitems t' a). }
    unfold dict_text in *. destruct (40 <=? _).
    + rewrite !app_s_assoc, (s1 "{"), (s1 "}"). rewrite expr_dict, (items_skip _ _ _ (newline +++ _) _ (skip_newline _)). set (fu := S (String.length _)).
      destruct (items_lines (entry (expr f)) "}" entries fu r) as [bb Hb]; [apply closing_all; auto|exact Hitems| |rewrite Hb; cbn [bind fst snd]; rewrite Hmk; reflexivity].
      subst fu. rewrite !app_s_len. pose proof (join_len_count "" (map (fun v => v +++ "," +++ newline) (map fst entries))) as HL. feed HL; [intros t Ht; apply in_map_iff in Ht; destruct Ht as (x&<-&_); destruct x; discriminate|].
      rewrite !map_length in HL. cbn [String.append] in *. lia.
    + rewrite !app_s_assoc. cbn [String.append]. rewrite expr_dict. set (fu := S (String.length _)).
      destruct (items_sep (entry (expr f)) "}" entries fu r) as (bb&Hb&_); [apply closing_all; auto|exact Hitems| |rewrite Hb; cbn [bind fst snd]; rewrite Hmk; reflexivity].
      subst fu. rewrite !app_s_len. pose proof (join_len_count ", " (map fst entries) Hne) as HL. rewrite map_length in HL. lia.
  - cbn [brepr norm] in *. cbn in Hw, Hn. destruct f as [|f]; [cbn in Hf; lia|]. rewrite !app_s_assoc.
    assert (Hla : String.length (brepr a) <= f /\ String.length (brepr b) <= f). { cbn in Hf. rewrite !app_s_len in Hf. cbn in Hf. rewrite !app_s_len in Hf. lia. }
    set (tas := [("learningRate=" +++ brepr a, ("learningRate"%string, norm a)); ("error=" +++ brepr b, ("error"%string, norm b))]).
    assert (Hkw : forall (name : string) v r', all_chars is_letter name = true -> starts "}" name -> (forall r, delim r -> expr f (brepr v +++ r) = Ok (norm v, r)) -> delim r' ->
      keyword (expr f) ((name +++ String "=" (brepr v)) +++ r') = Ok ((name, norm v), r')).
    { intros name v r' Hnm Hst Hv Hr'. unfold keyword. rewrite app_s_assoc, (skip_starts "}") by exact Hst. cbn [String.append]. rewrite span_app by (auto; reflexivity). cbn [bind]. unfold expect. cbn [skip]. change (is_space "=") with false. cbn [Ascii.eqb Bool.eqb bind].
      rewrite Hv by exact Hr'. reflexivity. }
    change (expr (S f) (("EpochData(learningRate=" +++ (brepr a +++ (", error=" +++ (brepr b +++ (")" +++ r)))))))
      with (let* x := items (keyword (expr f)) ")" (S (String.length ("learningRate=" +++ (brepr a +++ (", error=" +++ (brepr b +++ (")" +++ r))))))) ("learningRate=" +++ (brepr a +++ (", error=" +++ (brepr b +++ (")" +++ r))))) in
              match fst (fst x) with
              | [(n1, a); (n2, b)] => if String.eqb n1 "learningRate" && String.eqb n2 "error" then Ok (VCall a b, snd x) else Err TypeError
              | _ => Err TypeError
              end).
    replace ("learningRate=" +++ (brepr a +++ (", error=" +++ (brepr b +++ (")" +++ r))))) with (join ", " (map fst tas) +++ String ")" r)
      by (subst tas; unfold join; cbn [map fst String.concat]; rewrite !app_s_assoc; cbn [String.append]; rewrite ?app_s_assoc; reflexivity).
    set (fu := S (String.length _)). destruct (items_sep (keyword (expr f)) ")" tas fu r) as (bb&Hb&_).
    + apply closing_all; auto.
    + intros t x [E|[E|[]]]; injection E as <- <-; (split; [split; reflexivity|]); intros r' Hr'; [apply (Hkw "learningRate"%string)|apply (Hkw "error"%string)]; auto; try reflexivity; try (split; reflexivity); intros r2 Hr2; [apply IHa|apply IHb]; tauto.
    + subst fu. rewrite !app_s_len. cbn. lia.
    + rewrite Hb. reflexivity.
Qed.

Lemma norm_same v : well_formed v -> same v (norm v).
Proof.
  induction v as [v Hv|l IH|l IH|d IH|a b IHa IHb] using pyv_ind'; intros Hw.
  - destruct v; cbn in *; try tauto; apply same_refl.
  - cbn [norm]. apply same_list. assert (H : forall x, In x l -> same x (norm x)) by (intros x Hin; rewrite Forall_forall in IH; apply IH; auto; eapply well_formed_in; eauto).
    clear - H. induction l as [|x l IH]; cbn; constructor; [apply H; now left|apply IH; intros; apply H; now right].
  - cbn [norm]. apply same_tuple. assert (H : forall x, In x l -> same x (norm x)) by (intros x Hin; rewrite Forall_forall in IH; apply IH; auto; eapply well_formed_in; eauto).
    clear - H. induction l as [|x l IH]; cbn; constructor; [apply H; now left|apply IH; intros; apply H; now right].
  - cbn [norm]. rewrite (sort_map norm). apply (same_dict d (sort_items d)); [symmetry; apply sort_perm|].
    assert (H : forall kv, In kv (sort_items d) -> same (snd kv) (norm (snd kv))).
    { intros kv Hin. assert (Hin' : In kv d) by (eapply Permutation_in; [apply sort_perm|exact Hin]). rewrite Forall_forall in IH. apply IH; auto. eapply well_formed_dict; eauto. }
    clear - H. induction (sort_items d) as [|x l IH]; cbn; constructor; [split; [reflexivity|apply H; now left]|apply IH; intros; apply H; now right].
  - cbn in *. apply same_call; tauto.
Qed.

Lemma eval_better_repr v t r : well_formed v -> no_singletons v -> better_repr v = Ok t -> r = ""%string \/ r = newline -> eval (t +++ r) = Ok (norm v).
Proof.
  intros Hw Hn Ht Hr. unfold better_repr in Ht. destruct (printable_value v); [|discriminate]. apply Ok_inj in Ht. subst t. unfold eval.
  rewrite read_back; auto; [|rewrite app_s_len; lia|destruct Hr as [-> | ->]; split; reflexivity]. cbn [bind fst snd]. destruct Hr as [-> | ->]; reflexivity.
Qed.

(** * The text does not depend on the order *)
Lemma brepr_tuple' l : length l <> 1 -> brepr (VTuple l) = ("(" +++ join ", " (map brepr l) +++ ")")%string /\ printable_value (VTuple l) = forallb printable_value l.
Proof.
  destruct l as [|x [|y l]]; [split; reflexivity|cbn; lia|]. intros _. split; [|destruct x as [| | | | | | | | |l0| |]; try reflexivity; destruct l0 as [|p [|p2 l0]]; reflexivity].
  destruct x as [| | | | | | | | |l0| |]; try reflexivity. destruct l0 as [|p [|p2 l0]]; try reflexivity; destruct p; reflexivity.
Qed.
Lemma forallb_perm {A} (f : A -> bool) l l' : Permutation l l' -> forallb f l = forallb f l'.
Proof. induction 1; cbn; auto; [now rewrite IHPermutation|destruct (f x), (f y); reflexivity|congruence]. Qed.
Lemma map_eq_Forall2 {A B} (f : A -> B) l l' : Forall2 (fun a b => f a = f b) l l' -> map f l = map f l'.
Proof. induction 1; cbn; congruence. Qed.
Lemma forallb_eq_Forall2 {A} (f : A -> bool) l l' : Forall2 (fun a b => f a = f b) l l' -> forallb f l = forallb f l'.
Proof. induction 1; cbn; congruence. Qed.
Lemma Forall2_strengthen {A} (R Q : A -> A -> Prop) l l' : Forall2 R l l' -> (forall a b, In a l -> R a b -> Q a b) -> Forall2 Q l l'.
Proof. induction 1; intros HQ; constructor; [apply HQ; [now left|assumption]|apply IHForall2; intros; apply HQ; [now right|assumption]]. Qed.

Lemma same_text v v' : same v v' -> well_formed v -> no_singletons v -> brepr v = brepr v' /\ printable_value v = printable_value v'.
Proof.
  revert v'. induction v as [v Hv|l IH|l IH|d IH|a b IHa IHb] using pyv_ind'; intros v' Hs Hw Hn.
  - destruct v; cbn in Hv; try tauto; inversion Hs; auto.
  - inversion Hs as [|? l' H| | |]; subst; [auto|]. rewrite Forall_forall in IH.
    assert (H' : Forall2 (fun a b => brepr a = brepr b /\ printable_value a = printable_value b) l l').
    { eapply Forall2_strengthen; [exact H|]. intros a b Hin Hab. apply IH; auto; [eapply well_formed_in; eauto|eapply no_singletons_in; eauto]. }
    cbn [brepr printable_value]. split; [|apply forallb_eq_Forall2; eapply Forall2_impl'; [|exact H']; cbn; tauto].
    rewrite <- (map_map brepr (fun t => t +++ "," +++ newline) l), <- (map_map brepr (fun t => t +++ "," +++ newline) l'). do 5 f_equal. apply map_eq_Forall2. eapply Forall2_impl'; [|exact H']; cbn; tauto.
  - inversion Hs as [| |? l' H| |]; subst; [auto|]. rewrite Forall_forall in IH.
    assert (H' : Forall2 (fun a b => brepr a = brepr b /\ printable_value a = printable_value b) l l').
    { eapply Forall2_strengthen; [exact H|]. intros a b Hin Hab. apply IH; auto; [exact (well_formed_in l a Hw Hin)|eapply no_singletons_in; eauto]. }
    assert (Hl : length l <> 1) by (destruct l as [|x [|y l]]; cbn in *; try lia; tauto).
    destruct (brepr_tuple' l Hl) as [-> ->]. destruct (brepr_tuple' l') as [-> ->]; [rewrite <- (Forall2_len _ _ _ H'); exact Hl|].
    split; [|apply forallb_eq_Forall2; eapply Forall2_impl'; [|exact H']; cbn; tauto]. do 3 f_equal. apply map_eq_Forall2. eapply Forall2_impl'; [|exact H']; cbn; tauto.
  - inversion Hs as [| | |? d1 d2 Hp H|]; subst; [auto|]. rewrite Forall_forall in IH.
    assert (H' : Forall2 (fun a b => fst a = fst b /\ brepr (snd a) = brepr (snd b) /\ printable_value (snd a) = printable_value (snd b)) d1 d2).
    { eapply Forall2_strengthen; [exact H|]. intros a b Hin [Hk Hab]. assert (Hin' : In a d) by (eapply Permutation_in; [symmetry; exact Hp|exact Hin]). split; [exact Hk|]. apply IH; auto; [eapply well_formed_dict; eauto|eapply no_singletons_dict; eauto]. }
    cbn [brepr printable_value]. split.
    + f_equal. f_equal. replace (map (fun kv => (fst kv, brepr (snd kv))) d2) with (map (fun kv => (fst kv, brepr (snd kv))) d1).
      * apply sort_unique; [rewrite map_map; cbn [fst]; apply Hw|now apply Permutation_map].
      * apply map_eq_Forall2. eapply Forall2_impl'; [|exact H']. cbn. intros a b (->&->&_). reflexivity.
    + f_equal.
      * unfold sortable. f_equal; (erewrite forallb_perm by exact Hp); apply forallb_eq_Forall2; (eapply Forall2_impl'; [|exact H']); cbn; intros a b (->&_); reflexivity.
      * erewrite forallb_perm by exact Hp. apply forallb_eq_Forall2. eapply Forall2_impl'; [|exact H']. cbn. tauto.
  - inversion Hs; subst; [auto|]. cbn in Hw, Hn |- *. destruct (IHa a') as [Ea Pa], (IHb b') as [Eb Pb]; try tauto. rewrite Ea, Eb, Pa, Pb. auto.
Qed.
