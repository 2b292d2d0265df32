(** The description of a dim determines its size: descriptions are read back. *)
From Coq Require Import String Ascii DecimalString DecimalZ DecimalFacts.
From Verif Require Import Base ListLemmas DimModel DimSpec.
Local Open Scope list_scope.
Local Open Scope Z_scope.
Local Notation length := List.length.
Local Open Scope string_scope.
Local Open Scope list_scope.

(** ** Words and special characters *)
Inductive tok := W (w : string) | T (c : ascii).
Fixpoint render (ts : list tok) : string :=
  match ts with [] => ""%string | W w :: r => (w ++ render r)%string | T c :: r => String c (render r) end.
Fixpoint scan (s : string) : list tok :=
  match s with
  | EmptyString => []
  | String c s' => if special c then T c :: scan s'
                   else match scan s' with W w :: r => W (String c w) :: r | r => W (String c "") :: r end
  end.
Definition starts_word (ts : list tok) : bool := match ts with W _ :: _ => true | _ => false end.
Fixpoint sep (ts : list tok) : Prop :=
  match ts with
  | [] => True
  | W w :: r => w <> ""%string /\ plain_word w = true /\ starts_word r = false /\ sep r
  | T c :: r => special c = true /\ sep r
  end.

Lemma scan_word : forall w s, w <> ""%string -> plain_word w = true -> starts_word (scan s) = false -> scan (w ++ s)%string = W w :: scan s.
Proof.
  induction w as [|c w IH]; intros s Hn Hw Hs; [congruence|]. cbn [plain_word] in Hw. apply andb_true_iff in Hw. destruct Hw as (Hc & Hw).
  cbn [append scan]. apply negb_true_iff in Hc. rewrite Hc. destruct w as [|c' w].
  - cbn [append]. destruct (scan s) as [|[]]; try discriminate Hs; reflexivity.
  - rewrite IH; [reflexivity|discriminate|exact Hw|exact Hs].
Qed.
Lemma scan_render : forall ts, sep ts -> scan (render ts) = ts.
Proof.
  induction ts as [|[w|c] ts IH]; intros H; [reflexivity| |]; cbn [sep render] in *.
  - destruct H as (H1 & H2 & H3 & H4). specialize (IH H4). rewrite scan_word; rewrite ?IH; auto.
  - destruct H as (H1 & H2). cbn [scan]. rewrite H1, (IH H2). reflexivity.
Qed.
Lemma render_app : forall a b, render (a ++ b) = (render a ++ render b)%string.
Proof.
  assert (Happ : forall x y z : string, ((x ++ y) ++ z = x ++ (y ++ z))%string) by (induction x as [|c x IH]; intros; cbn; [reflexivity|rewrite IH; reflexivity]).
  induction a as [|[w|c] a IH]; intros b; cbn [app render append]; rewrite ?IH, ?Happ; reflexivity.
Qed.
Lemma sep_app : forall a c b, sep a -> special c = true -> sep b -> sep (a ++ T c :: b).
Proof.
  induction a as [|[w|d] a IH]; intros c b Ha Hc Hb; cbn [app sep] in *; [split; assumption| |].
  - destruct Ha as (H1 & H2 & H3 & H4). repeat split; auto. destruct a as [|[] a]; try discriminate H3; reflexivity.
  - destruct Ha. split; auto.
Qed.

(** ** The words of a description *)
Fixpoint toks (d : dim) : list tok :=
  let tshown (br : bool) (d : dim) :=
    match d with
    | Const _ z => [W (int_str z)]
    | _ => if br && has_op_char (desc d) then T "(" :: toks d ++ [T ")"] else toks d
    end%char in
  match d with
  | Var _ name _ _ => [W name]
  | Const _ _ => [W (desc d)]
  | Der OAdd a b => tshown true a ++ T "+" :: tshown true b
  | Der OMul a b => tshown true a ++ T "*" :: tshown true b
  | Der (ODiv Floor true) a b => tshown true a ++ T "/" :: T "/" :: tshown true b
  | Der (ODiv Ceil true) a b => W "c" :: T "[" :: tshown true a ++ T "/" :: tshown true b ++ [T "]"; W "c"]
  | Der (ODiv k r) a b =>
      W (divk_str k ++ (if r then "_right" else "_left")) :: T "(" :: tshown false a ++ T "," :: T " " :: tshown false b ++ [T ")"]
  end%char.
Definition tshown (br : bool) (d : dim) :=
  match d with
  | Const _ z => [W (int_str z)]
  | _ => if br && has_op_char (desc d) then T "(" :: toks d ++ [T ")"] else toks d
  end%char.
Lemma toks_der : forall o a b, toks (Der o a b) =
  match o with
  | OAdd => tshown true a ++ T "+" :: tshown true b
  | OMul => tshown true a ++ T "*" :: tshown true b
  | ODiv Floor true => tshown true a ++ T "/" :: T "/" :: tshown true b
  | ODiv Ceil true => W "c" :: T "[" :: tshown true a ++ T "/" :: tshown true b ++ [T "]"; W "c"]
  | ODiv k r =>
      W (divk_str k ++ (if r then "_right" else "_left")) :: T "(" :: tshown false a ++ T "," :: T " " :: tshown false b ++ [T ")"]
  end%char.
Proof. intros [| |[] []] a b; destruct a, b; reflexivity. Qed.


(** ** Numbers *)
Lemma uint_plain : forall d, plain_word (NilEmpty.string_of_uint d) = true /\ String.prefix "unnamed_" (NilEmpty.string_of_uint d) = false.
Proof. induction d as [|d IH|d IH|d IH|d IH|d IH|d IH|d IH|d IH|d IH|d IH]; (split; [|reflexivity]); [reflexivity|..]; cbn; apply IH. Qed.
Lemma int_str_word : forall z, int_str z <> ""%string /\ plain_word (int_str z) = true /\ String.prefix "unnamed_" (int_str z) = false.
Proof.
  intros z. unfold int_str. set (d := Z.to_int z). destruct d as [d|d]; cbn [NilZero.string_of_int].
  - unfold NilZero.string_of_uint. destruct d; (split; [discriminate|split]); try reflexivity; apply uint_plain.
  - unfold NilZero.string_of_uint. split; [discriminate|]. split; [|reflexivity].
    destruct d; try reflexivity; cbn; apply (uint_plain d).
Qed.
Lemma int_str_back : forall z, NilZero.int_of_string (int_str z) = Some (Z.to_int z).
Proof.
  intros z. unfold int_str. apply NilZero.isi; destruct z as [|p|p]; cbn; intros E; try discriminate E; injection E as E;
    exact (DecimalPos.Unsigned.to_uint_nonnil p E).
Qed.

(** ** Descriptions of dims with distinguishable names *)
Section Named.
Variable vars : list dim.
Hypothesis Hvars : well_named vars.

Lemma name_word : forall id nm k s, In (Var id nm k s) vars ->
  nm <> ""%string /\ plain_word nm = true /\ String.prefix "unnamed_" nm = false /\ NilZero.int_of_string nm = None.
Proof.
  intros id nm k s H. destruct Hvars as (Hf & _). rewrite Forall_forall in Hf. destruct (Hf _ H) as (Hg & _). cbn [desc] in Hg.
  unfold good_name in Hg. apply andb_true_iff in Hg. destruct Hg as (Hg & H4). apply andb_true_iff in Hg. destruct Hg as (Hg & H3).
  apply andb_true_iff in Hg. destruct Hg as (H1 & H2). split; [|split; [exact H2|split]].
  - intros ->. discriminate H1.
  - apply negb_true_iff in H3. exact H3.
  - destruct (NilZero.int_of_string nm); [discriminate H4|reflexivity].
Qed.
Lemma const_word : forall k z, desc (Const k z) <> ""%string /\ plain_word (desc (Const k z)) = true.
Proof.
  intros k z. cbn [desc]. split; [discriminate|]. destruct (int_str_word z) as (_ & H & _).
  destruct k as [[]|]; cbn -[int_str]; exact H.
Qed.

Definition opens_ok (ts : list tok) : Prop :=
  match ts with W w :: _ => String.prefix "unnamed_" w = false | T _ :: _ => True | [] => False end.
Lemma opens_app : forall a b, opens_ok a -> opens_ok (a ++ b).
Proof. intros [|[] a] b H; [destruct H|exact H|exact I]. Qed.

Lemma toks_ok : forall d, over vars d -> sep (toks d) /\ (is_const d = false -> opens_ok (toks d)).
Proof.
  induction d as [id nm k s|k z|o a IHa b IHb]; intros H.
  - cbn in H. destruct (name_word _ _ _ _ H) as (H1 & H2 & H3 & _). cbn. split; auto.
  - split; [|intros E; discriminate E]. cbn [toks sep]. destruct (const_word k z). auto.
  - destruct H as (Ha & Hb). destruct (IHa Ha) as (Sa & Oa), (IHb Hb) as (Sb & Ob).
    assert (Hs : forall br d, sep (toks d) -> sep (tshown br d)).
    { intros br d S. unfold tshown. destruct d as [id nm k s|k z|o' a' b'];
        [|cbn; destruct (int_str_word z) as (I1 & I2 & _); auto|];
        (destruct (_ && _); [cbn [sep]; split; [reflexivity|apply sep_app; [exact S|reflexivity|exact I]]|exact S]). }
    assert (Ho : forall br d, (is_const d = false -> opens_ok (toks d)) -> opens_ok (tshown br d)).
    { intros br d S. unfold tshown. destruct d as [id nm k s|k z|o' a' b'];
        [|cbn; apply int_str_word|]; (destruct (_ && _); [exact I|apply S; reflexivity]). }
    pose proof (Hs true a Sa) as Sa1. pose proof (Hs true b Sb) as Sb1. pose proof (Hs false a Sa) as Sa0. pose proof (Hs false b Sb) as Sb0.
    rewrite toks_der. split.
    + assert (Hfun : forall w, w <> ""%string -> plain_word w = true ->
        sep (W w :: T "(" :: tshown false a ++ T "," :: T " " :: tshown false b ++ [T ")"])%char).
      { intros w W1 W2. cbn [sep starts_word]. repeat (split; [assumption || reflexivity|]). apply sep_app; [exact Sa0|reflexivity|].
        split; [reflexivity|]. apply sep_app; [exact Sb0|reflexivity|exact I]. }
      destruct o as [| |[] []].
      * apply sep_app; [exact Sa1|reflexivity|exact Sb1].
      * apply sep_app; [exact Sa1|reflexivity|exact Sb1].
      * apply sep_app; [exact Sa1|reflexivity|]. split; [reflexivity|exact Sb1].
      * apply Hfun; [discriminate|reflexivity].
      * apply Hfun; [discriminate|reflexivity].
      * apply Hfun; [discriminate|reflexivity].
      * cbn [sep starts_word]. repeat (split; [discriminate || reflexivity|]). apply sep_app; [exact Sa1|reflexivity|].
        apply sep_app; [exact Sb1|reflexivity|]. cbn. repeat split; discriminate.
      * apply Hfun; [discriminate|reflexivity].
    + intros _. destruct o as [| |[] []]; try (apply opens_app; apply Ho; exact Oa); reflexivity.
Qed.

Lemma prefix_word : forall p w s, plain_word p = true -> (forall c s', s = String c s' -> special c = true) ->
  String.prefix p (w ++ s)%string = true -> String.prefix p w = true.
Proof.
  induction p as [|c p IH]; intros w s Hp Hs H; [destruct w; reflexivity|]. cbn [plain_word] in Hp. apply andb_true_iff in Hp. destruct Hp as (Hc & Hp).
  destruct w as [|d w].
  - exfalso. cbn [append] in H. destruct s as [|d s]; cbn [String.prefix] in H; [discriminate H|]. destruct (ascii_dec c d) as [-> |]; [|discriminate H].
    rewrite (Hs d s eq_refl) in Hc. discriminate Hc.
  - cbn [append String.prefix] in *. destruct (ascii_dec c d); [|discriminate H]. apply (IH w s); assumption.
Qed.
Lemma render_opens : forall ts, sep ts -> opens_ok ts -> String.prefix "unnamed_" (render ts) = false.
Proof.
  intros [|[w|c] r] Hs Ho; [destruct Ho| |]; cbn [sep opens_ok render] in *.
  - destruct (String.prefix "unnamed_" (w ++ render r)%string) eqn:E; [|reflexivity]. exfalso.
    apply prefix_word in E; [rewrite E in Ho; discriminate Ho|reflexivity|]. intros c s' Er. destruct Hs as (_ & _ & H3 & H4).
    destruct r as [|[w'|c'] r]; [discriminate Er|discriminate H3|]. cbn [render] in Er. injection Er as <- _. apply H4.
  - destruct Hs as (Hc & _). cbn [String.prefix]. destruct (ascii_dec "u" c) as [<- |]; [discriminate Hc|reflexivity].
Qed.

Lemma desc_toks : forall d, over vars d -> desc d = render (toks d).
Proof.
  assert (Happ : forall x : string, (x ++ "" = x)%string) by (induction x as [|c x IH]; cbn; [reflexivity|rewrite IH; reflexivity]).
  induction d as [id nm k s|k z|o a IHa b IHb]; intros H.
  - cbn. rewrite Happ. reflexivity.
  - cbn [toks render]. rewrite Happ. reflexivity.
  - destruct H as (Ha & Hb).
    assert (Hs : forall br d, over vars d -> desc d = render (toks d) -> shown br (size d) (desc d) = render (tshown br d)).
    { intros br d Hd E. destruct (toks_ok d Hd) as (Sd & Od). unfold shown. destruct d as [id nm k s|k z|o' a' b'].
      - rewrite E at 1. rewrite (render_opens _ Sd (Od eq_refl)). unfold tshown. destruct (_ && _); [|exact E].
        cbn [render]. rewrite render_app, <- E. reflexivity.
      - cbn [tshown render size desc]. rewrite Happ. destruct k as [[]|]; reflexivity.
      - rewrite E at 1. rewrite (render_opens _ Sd (Od eq_refl)). unfold tshown. destruct (_ && _); [|exact E].
        cbn [render]. rewrite render_app, <- E. reflexivity. }
    rewrite toks_der.
    assert (E : forall br d, over vars d -> desc d = render (toks d) -> render (tshown br d) = shown br (size d) (desc d)) by (intros; symmetry; apply Hs; assumption).
    destruct o as [| |[] []]; cbn [desc render divk_str]; rewrite ?render_app; cbn [render]; rewrite ?render_app; cbn [render];
      rewrite ?(E _ _ Ha (IHa Ha)), ?(E _ _ Hb (IHb Hb)); reflexivity.
Qed.

(** ** Reading a description *)
Variable env : nat -> Z.
Definition rd : Type := Z * bool.
Definition rmul (x y : rd) : rd := (fst x * fst y, snd x || snd y).
Definition radd (x y : rd) : rd := (fst x + fst y, snd x || snd y).
Definition rdiv (k : divk) (x y : rd) : rd := (divide k (fst x) (fst y), true).
Fixpoint has_div (d : dim) : bool :=
  match d with Der (ODiv _ _) _ _ => true | Der _ a b => has_div a || has_div b | _ => false end.
Definition ev (d : dim) : rd := (val env d, has_div d).
Definition word (w : string) : rd :=
  match NilZero.int_of_string w with
  | Some i => (Z.of_int i, false)
  | None => match find (fun d => String.eqb (desc d) w) vars with Some d => (val env d, false) | None => (0, false) end
  end.
Definition fn (w : string) : option divk :=
  if String.eqb w "floordiv_left" then Some Floor
  else if String.eqb w "truediv_left" || String.eqb w "truediv_right" then Some Exact
  else if String.eqb w "ceildiv_left" then Some Ceil else None.
Definition expect (c : ascii) (ts : list tok) : option (list tok) :=
  match ts with T c' :: r => if Ascii.eqb c c' then Some r else None | _ => None end.
Definition next_is (c : ascii) (ts : list tok) : bool := match ts with T c' :: _ => Ascii.eqb c c' | _ => false end.
Definition is_fn (ts : list tok) : bool := match ts with W _ :: r => next_is "(" r | _ => false end.
Definition is_ceil (ts : list tok) : bool := match ts with W _ :: r => next_is "[" r | _ => false end.
Local Notation "'opt' x <- e ; f" := (match e with Some x => f | None => None end) (at level 200, x pattern, e at level 100, f at level 200).

Fixpoint p_desc (n : nat) (ts : list tok) : option (rd * list tok) :=
  match n with
  | O => None
  | S n =>
      if is_fn ts then
        match ts with
        | W w :: _ :: r =>
            opt k <- fn w; opt (x, r) <- p_desc n r; opt r <- expect "," r; opt r <- expect " " r;
            opt (y, r) <- p_desc n r; opt r <- expect ")" r; Some (rdiv k x y, r)
        | _ => None
        end
      else if is_ceil ts then
        match ts with
        | _ :: _ :: r =>
            opt (x, r) <- p_chain n (1, false) r; opt r <- expect "/" r; opt (y, r) <- p_chain n (1, false) r; opt r <- expect "]" r;
            match r with W _ :: r => Some (rdiv Ceil x y, r) | _ => None end
        | _ => None
        end
      else
        opt (x, r) <- p_chain n (1, false) ts;
        if next_is "+" r then opt r <- expect "+" r; opt (y, r) <- p_chain n (1, false) r; Some (radd x y, r)
        else if next_is "/" r then opt r <- expect "/" r; opt r <- expect "/" r; opt (y, r) <- p_chain n (1, false) r; Some (rdiv Floor x y, r)
        else Some (x, r)
  end%char
with p_chain (n : nat) (acc : rd) (ts : list tok) : option (rd * list tok) :=
  match n with
  | O => None
  | S n =>
      match ts with
      | W w :: r =>
          let acc := rmul acc (word w) in
          if next_is "*" r then opt r <- expect "*" r; p_chain n acc r else Some (acc, r)
      | T _ :: r =>
          opt (x, r) <- p_desc n r; opt r <- expect ")" r;
          let acc := rmul acc x in
          if next_is "*" r then opt r <- expect "*" r; p_chain n acc r else Some (acc, r)
      | [] => None
      end
  end%char.

Definition d_reads (ts : list tok) (res : rd * list tok) : Prop := exists n, forall m, (n <= m)%nat -> p_desc m ts = Some res.
Definition c_reads (acc : rd) (ts : list tok) (res : rd * list tok) : Prop := exists n, forall m, (n <= m)%nat -> p_chain m acc ts = Some res.
(** What a chain does after the product so far. *)
Definition cont (acc : rd) (rest : list tok) (res : rd * list tok) : Prop :=
  match rest with
  | T c :: r => if Ascii.eqb "*" c then c_reads acc r res else res = (acc, rest)
  | _ => res = (acc, rest)
  end.

Lemma cont_stop : forall acc rest, next_is "*" rest = false -> cont acc rest (acc, rest).
Proof. intros acc [|[w|c] r] H; try reflexivity. cbn [next_is cont] in *. rewrite H. reflexivity. Qed.
Lemma chain_word : forall acc w rest res, cont (rmul acc (word w)) rest res -> c_reads acc (W w :: rest) res.
Proof.
  intros acc w rest res H. unfold cont in H. destruct rest as [|[w'|c] r].
  - exists 1%nat. intros [|m] Hm; [lia|]. subst res. reflexivity.
  - exists 1%nat. intros [|m] Hm; [lia|]. subst res. reflexivity.
  - destruct (Ascii.eqb "*" c) eqn:E.
    + destruct H as (n & H). exists (S n). intros [|m] Hm; [lia|]. cbn [p_chain next_is expect]. rewrite E. apply H. lia.
    + exists 1%nat. intros [|m] Hm; [lia|]. cbn [p_chain next_is]. rewrite E. subst res. reflexivity.
Qed.
Lemma chain_paren : forall acc c ts x rest res, d_reads (ts ++ T ")" :: rest) (x, T ")" :: rest)%char -> cont (rmul acc x) rest res ->
  c_reads acc (T c :: ts ++ T ")" :: rest)%char res.
Proof.
  intros acc c ts x rest res (n1 & H1) H. unfold cont in H. destruct rest as [|[w'|c'] r].
  - exists (S n1)%nat. intros [|m] Hm; [lia|]. cbn [p_chain]. rewrite H1 by lia. subst res. reflexivity.
  - exists (S n1)%nat. intros [|m] Hm; [lia|]. cbn [p_chain]. rewrite H1 by lia. subst res. reflexivity.
  - destruct (Ascii.eqb "*" c') eqn:E.
    + destruct H as (n & H). exists (S (max n n1)). intros [|m] Hm; [lia|]. cbn [p_chain]. rewrite H1 by lia.
      cbn [expect next_is]. rewrite Ascii.eqb_refl. cbn [expect next_is]. rewrite E. apply H. lia.
    + exists (S n1)%nat. intros [|m] Hm; [lia|]. cbn [p_chain]. rewrite H1 by lia. cbn [expect next_is]. rewrite Ascii.eqb_refl. cbn [next_is]. rewrite E. subst res. reflexivity.
Qed.

Lemma word_int : forall z, word (int_str z) = (z, false).
Proof. intros z. unfold word. rewrite int_str_back, DecimalZ.of_to. reflexivity. Qed.
Lemma word_var : forall id nm k s, In (Var id nm k s) vars -> word nm = ev (Var id nm k s).
Proof.
  intros id nm k s H. destruct (name_word _ _ _ _ H) as (_ & _ & _ & Hi). unfold word. rewrite Hi.
  destruct (find (fun d => String.eqb (desc d) nm) vars) as [d|] eqn:E.
  - apply find_some in E. destruct E as (Hin & E). apply String.eqb_eq in E. destruct Hvars as (_ & Hu).
    rewrite (Hu d _ Hin H E). reflexivity.
  - exfalso. pose proof (find_none _ _ E _ H) as F. cbn [desc] in F. rewrite String.eqb_refl in F. discriminate F.
Qed.
Lemma op_char_app : forall x y, has_op_char (x ++ y)%string = has_op_char x || has_op_char y.
Proof. induction x as [|c x IH]; intros y; cbn; [reflexivity|]. rewrite IH, orb_assoc. reflexivity. Qed.
Lemma flat_is_product : forall o a b, has_op_char (desc (Der o a b)) = false -> o = OMul.
Proof.
  intros [| |[] []] a b H; try reflexivity; exfalso; cbn [desc] in H; repeat rewrite ?op_char_app, ?orb_assoc in H; cbn [has_op_char op_char] in H;
    cbn in H; rewrite ?orb_true_r, ?orb_false_r in H; cbn in H; rewrite ?orb_true_r in H; discriminate H.
Qed.

Definition stops (rest : list tok) : Prop := Forall (fun c => next_is c rest = false) ["*"; "+"; "/"; "("; "["]%char.
Definition not_open (rest : list tok) : Prop := next_is "(" rest = false /\ next_is "[" rest = false.
Lemma stops_c : forall c rest, In c ["*"; "+"; "/"; "("; "["]%char -> stops rest -> next_is c rest = false.
Proof. intros c rest H Hs. unfold stops in Hs. rewrite Forall_forall in Hs. apply Hs. exact H. Qed.

Lemma not_opening : forall d rest, not_open rest -> is_fn (tshown true d ++ rest) = false /\ is_ceil (tshown true d ++ rest) = false.
Proof.
  induction d as [id nm k s|k z|o a IHa b IHb]; intros rest H; unfold tshown; fold (tshown true).
  - destruct (_ && _); [split; reflexivity|]. cbn. exact H.
  - exact H.
  - destruct (true && has_op_char (desc (Der o a b))) eqn:E; [split; reflexivity|]. apply flat_is_product in E. subst o.
    rewrite toks_der, <- app_assoc. apply IHa. split; reflexivity.
Qed.
Lemma desc_chain : forall ts x rest, is_fn ts = false -> is_ceil ts = false -> c_reads (1, false) ts (x, rest) -> stops rest -> d_reads ts (x, rest).
Proof.
  intros ts x rest H1 H2 (n & H) Hs. exists (S n). intros [|m] Hm; [lia|]. cbn [p_desc]. rewrite H1, H2, H by lia.
  rewrite (stops_c "+" rest), (stops_c "/" rest); [reflexivity|cbn; tauto|exact Hs|cbn; tauto|exact Hs].
Qed.
Lemma rmul_1 : forall x, rmul (1, false) x = x.
Proof. intros [z b]. unfold rmul. cbn [fst snd orb]. rewrite Z.mul_1_l. reflexivity. Qed.
Lemma rmul_assoc : forall x y z, rmul (rmul x y) z = rmul x (rmul y z).
Proof. intros [x bx] [y b_y] [z bz]. unfold rmul. cbn [fst snd]. rewrite Z.mul_assoc, orb_assoc. reflexivity. Qed.

Lemma reads : forall d, over vars d ->
  (forall rest, stops rest -> is_const d = false -> d_reads (toks d ++ rest) (ev d, rest)) /\
  (forall acc rest res, cont (rmul acc (ev d)) rest res -> c_reads acc (tshown true d ++ rest) res).
Proof.
  induction d as [id nm k s|k z|o a IHa b IHb]; intros H.
  - pose proof (word_var _ _ _ _ H) as Hw.
    assert (Hd : forall rest, stops rest -> d_reads (toks (Var id nm k s) ++ rest) (ev (Var id nm k s), rest)).
    { intros rest Hs. apply desc_chain; [| | |exact Hs]; cbn [toks app].
      - apply (stops_c "("); [cbn; tauto|exact Hs].
      - apply (stops_c "["); [cbn; tauto|exact Hs].
      - apply chain_word. rewrite rmul_1, Hw. apply cont_stop. apply stops_c; [cbn; tauto|exact Hs]. }
    split; [intros; apply Hd; assumption|]. intros acc rest res Hc. unfold tshown. destruct (_ && _).
    + change ((T "(" :: toks (Var id nm k s) ++ [T ")"]) ++ rest)%char with (T "(" :: ((toks (Var id nm k s) ++ [T ")"]) ++ rest))%char.
      rewrite <- app_assoc. cbn [app]. eapply chain_paren; [|exact Hc]. apply (Hd (T ")" :: rest)%char). repeat constructor.
    + cbn [toks app]. apply chain_word. rewrite Hw. exact Hc.
  - split; [intros rest _ E; discriminate E|]. intros acc rest res Hc. unfold tshown. cbn [app]. apply chain_word. rewrite word_int. exact Hc.
  - destruct H as (Ha & Hb). destruct (IHa Ha) as (Da & Ca), (IHb Hb) as (Db & Cb). clear IHa IHb.
    assert (Hchain : forall d rest, (forall acc rest res, cont (rmul acc (ev d)) rest res -> c_reads acc (tshown true d ++ rest) res) ->
      next_is "*" rest = false -> c_reads (1, false) (tshown true d ++ rest) (ev d, rest)).
    { intros d rest C Hr. apply C. rewrite rmul_1. apply cont_stop. exact Hr. }
    assert (Harg : forall d rest, (forall rest, stops rest -> is_const d = false -> d_reads (toks d ++ rest) (ev d, rest)) ->
      stops rest -> d_reads (tshown false d ++ rest) (ev d, rest)).
    { intros d rest D Hr. destruct d as [id nm k s|k z|o' a' b']; [apply (D rest Hr eq_refl)| |apply (D rest Hr eq_refl)].
      unfold tshown. cbn [app]. apply desc_chain; [| | |exact Hr].
      - apply (stops_c "("); [cbn; tauto|exact Hr].
      - apply (stops_c "["); [cbn; tauto|exact Hr].
      - apply chain_word. rewrite rmul_1, word_int. apply cont_stop. apply stops_c; [cbn; tauto|exact Hr]. }
    assert (Hfun : forall w k rest, fn w = Some k -> stops rest ->
      d_reads ((W w :: T "(" :: tshown false a ++ T "," :: T " " :: tshown false b ++ [T ")"]) ++ rest)%char (rdiv k (ev a) (ev b), rest)).
    { intros w k rest Hk Hr. cbn [app]. rewrite <- app_assoc. cbn [app]. rewrite <- app_assoc. cbn [app].
      destruct (Harg a (T "," :: T " " :: tshown false b ++ T ")" :: rest)%char Da) as (n1 & H1); [repeat constructor|].
      destruct (Harg b (T ")" :: rest)%char Db) as (n2 & H2); [repeat constructor|].
      exists (S (max n1 n2)). intros [|m] Hm; [lia|]. cbn [p_desc is_fn next_is]. rewrite Ascii.eqb_refl, Hk, H1 by lia.
      cbn [expect]. rewrite Ascii.eqb_refl. cbn [expect]. rewrite Ascii.eqb_refl, H2 by lia. cbn [expect]. rewrite Ascii.eqb_refl. reflexivity. }
    assert (Hmul : forall acc rest res, o = OMul -> cont (rmul acc (ev (Der OMul a b))) rest res -> c_reads acc (toks (Der OMul a b) ++ rest) res).
    { intros acc rest res -> Hc. rewrite toks_der, <- app_assoc. cbn [app]. apply Ca. cbn [cont]. rewrite Ascii.eqb_refl. apply Cb.
      rewrite rmul_assoc. exact Hc. }
    assert (Hd : forall rest, stops rest -> d_reads (toks (Der o a b) ++ rest) (ev (Der o a b), rest)).
    { intros rest Hr. destruct o as [| |[] []]; rewrite toks_der.
      - rewrite <- app_assoc. cbn [app]. destruct (not_opening a (T "+" :: tshown true b ++ rest)%char) as (N1 & N2); [split; reflexivity|].
        destruct (Hchain a (T "+" :: tshown true b ++ rest)%char Ca eq_refl) as (n1 & H1).
        destruct (Hchain b rest Cb) as (n2 & H2); [apply stops_c; [cbn; tauto|exact Hr]|].
        exists (S (max n1 n2)). intros [|m] Hm; [lia|]. cbn [p_desc]. rewrite N1, N2, H1 by lia. cbn [next_is expect]. rewrite Ascii.eqb_refl, H2 by lia. reflexivity.
      - rewrite <- app_assoc. cbn [app]. destruct (not_opening a (T "*" :: tshown true b ++ rest)%char) as (N1 & N2); [split; reflexivity|].
        apply desc_chain; [exact N1|exact N2| |exact Hr].
        specialize (Hmul (1, false) rest (ev (Der OMul a b), rest) eq_refl). rewrite toks_der, <- app_assoc in Hmul. apply Hmul.
        rewrite rmul_1. apply cont_stop. apply stops_c; [cbn; tauto|exact Hr].
      - rewrite <- app_assoc. cbn [app]. destruct (not_opening a (T "/" :: T "/" :: tshown true b ++ rest)%char) as (N1 & N2); [split; reflexivity|].
        destruct (Hchain a (T "/" :: T "/" :: tshown true b ++ rest)%char Ca eq_refl) as (n1 & H1).
        destruct (Hchain b rest Cb) as (n2 & H2); [apply stops_c; [cbn; tauto|exact Hr]|].
        exists (S (max n1 n2)). intros [|m] Hm; [lia|]. cbn [p_desc]. rewrite N1, N2, H1 by lia. cbn [next_is expect].
        change (Ascii.eqb "+" "/") with false. rewrite Ascii.eqb_refl. cbn [expect]. rewrite Ascii.eqb_refl, H2 by lia. reflexivity.
      - apply Hfun; [reflexivity|exact Hr].
      - apply Hfun; [reflexivity|exact Hr].
      - apply Hfun; [reflexivity|exact Hr].
      - cbn [app]. rewrite <- app_assoc. cbn [app]. rewrite <- app_assoc. cbn [app].
        destruct (Hchain a (T "/" :: tshown true b ++ T "]" :: W "c" :: rest)%char Ca eq_refl) as (n1 & H1).
        destruct (Hchain b (T "]" :: W "c" :: rest)%char Cb eq_refl) as (n2 & H2).
        exists (S (max n1 n2)). intros [|m] Hm; [lia|]. cbn [p_desc is_fn is_ceil next_is]. change (Ascii.eqb "(" "[") with false.
        rewrite Ascii.eqb_refl, H1 by lia. cbn [expect]. rewrite Ascii.eqb_refl, H2 by lia. cbn [expect]. rewrite Ascii.eqb_refl. reflexivity.
      - apply Hfun; [reflexivity|exact Hr]. }
    split; [intros; apply Hd; assumption|]. intros acc rest res Hc. unfold tshown. destruct (true && has_op_char (desc (Der o a b))) eqn:E.
    + change ((T "(" :: toks (Der o a b) ++ [T ")"]) ++ rest)%char with (T "(" :: ((toks (Der o a b) ++ [T ")"]) ++ rest))%char.
      rewrite <- app_assoc. cbn [app]. eapply chain_paren; [|exact Hc]. apply (Hd (T ")" :: rest)%char). repeat constructor.
    + apply flat_is_product in E. subst o. apply Hmul; [reflexivity|exact Hc].
Qed.

Lemma str_app_inv : forall p x y, (p ++ x)%string = (p ++ y)%string -> x = y.
Proof. induction p as [|c p IH]; intros x y H; cbn in H; [exact H|]. injection H as H. apply IH. exact H. Qed.
Lemma int_str_inj : forall x y, int_str x = int_str y -> x = y.
Proof. intros x y H. pose proof (word_int x) as Hx. rewrite H, word_int in Hx. injection Hx as Hx. auto. Qed.
Lemma const_desc : forall k k' z z', desc (Const k z) = desc (Const k' z') -> z = z'.
Proof.
  intros k k' z z' H. cbn [desc] in H. apply str_app_inv in H.
  destruct k as [[]|], k' as [[]|]; cbn [kind_str] in H; cbn -[int_str] in H; try discriminate H; repeat (injection H as H); apply int_str_inj; exact H.
Qed.
Lemma const_prefix : forall k z, String.prefix "unnamed_" (desc (Const k z)) = true.
Proof. intros [[]|] z; reflexivity. Qed.

Lemma has_div_no_div : forall d, no_div d <-> has_div d = false.
Proof.
  induction d as [id nm k s|k z|o a IHa b IHb]; cbn; [tauto|tauto|]. destruct o; rewrite ?orb_false_iff, ?IHa, ?IHb; try tauto.
  split; [intros []|discriminate].
Qed.

(** Two dims with the same description have the same size, and both or none contain a division. *)
Lemma desc_determines : forall a b, over vars a -> over vars b -> desc a = desc b -> ev a = ev b.
Proof.
  intros a b Ha Hb E. destruct (toks_ok a Ha) as (Sa & Oa), (toks_ok b Hb) as (Sb & Ob).
  assert (Et : toks a = toks b) by (rewrite <- (scan_render _ Sa), <- (scan_render _ Sb), <- !desc_toks, E by assumption; reflexivity).
  destruct (is_const a) eqn:Ca, (is_const b) eqn:Cb.
  - destruct a as [|k z|], b as [|k' z'|]; try discriminate Ca; try discriminate Cb. unfold ev. cbn. apply const_desc in E. rewrite E. reflexivity.
  - exfalso. destruct a as [|k z|]; try discriminate Ca. pose proof (const_prefix k z) as Hp. rewrite E, (desc_toks b Hb), render_opens in Hp; [discriminate Hp|exact Sb|auto].
  - exfalso. destruct b as [|k z|]; try discriminate Cb. pose proof (const_prefix k z) as Hp. rewrite <- E, (desc_toks a Ha), render_opens in Hp; [discriminate Hp|exact Sa|auto].
  - assert (Hs : stops []) by (repeat constructor). destruct (proj1 (reads a Ha) [] Hs Ca) as (n1 & H1). destruct (proj1 (reads b Hb) [] Hs Cb) as (n2 & H2).
    specialize (H1 (max n1 n2) ltac:(lia)). specialize (H2 (max n1 n2) ltac:(lia)). rewrite app_nil_r in *. rewrite Et, H2 in H1. injection H1 as H1 H3. unfold ev. congruence.
Qed.

Lemma over_kind : forall d, over vars d -> kind_of d <> Some KBatch.
Proof.
  induction d as [id nm k s|k z|o a IHa b IHb]; intros H.
  - destruct Hvars as (Hf & _). rewrite Forall_forall in Hf. destruct (Hf _ H) as (_ & Hb). cbn in *. intros ->. discriminate Hb.
  - exact H.
  - destruct H as (Ha & Hb). specialize (IHa Ha). specialize (IHb Hb).
    assert (Hm : forall x y, x <> Some KBatch -> y <> Some KBatch ->
      (if kind_eqb x (Some KBatch) || kind_eqb y (Some KBatch) then Some KBatch
       else if kind_eqb x (Some KFeature) || kind_eqb y (Some KFeature) then Some KFeature else Some KSpatial) <> Some KBatch).
    { intros [[]|] [[]|] Hx Hy; cbn; congruence. }
    destruct o; cbn [kind_of]; [apply Hm; assumption|apply Hm; assumption|exact IHa].
Qed.
Lemma dim_eq_determines : forall a b, over vars a -> over vars b -> dim_eq a b = true -> ev a = ev b.
Proof.
  intros a b Ha Hb H. unfold dim_eq, eq_simple in H. apply orb_true_iff in H. destruct H as [H|H].
  - apply orb_true_iff in H. destruct H as [H|H].
    + unfold same_dim in H. destruct (dim_eq_dec a b) as [-> |]; [reflexivity|discriminate H].
    + exfalso. apply andb_true_iff in H. destruct H as (H & _). unfold is_batch in H. pose proof (over_kind a Ha) as Hk.
      destruct (kind_of a) as [[]|]; try discriminate H. apply Hk. reflexivity.
  - apply andb_true_iff in H. destruct H as (_ & H). apply String.eqb_eq in H. apply desc_determines; assumption.
Qed.
End Named.
