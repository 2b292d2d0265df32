(* C100: which setting counts. C101: the settings as they are read, and the old text format. *)
From Coq Require Import List ZArith Ascii String Lia Bool.
From Verif Require Import Base ListLemmas ConfigModel ConfigSpec ConfigProofs.
Import ListNotations.
Local Open Scope Z_scope.

(* a Python for the examples: digits are ints, letters are names which are not defined, quotes give a str *)
Definition ex_digits (s : text) : res Z :=
  match s with
  | [] => Err ValueError
  | _ => fold_left (fun r c => let* n := r in
                     let d := Z.of_nat (nat_of_ascii c) - 48 in
                     if (0 <=? d) && (d <=? 9) then Ok (10 * n + d) else Err ValueError) s (Ok 0)
  end.
Definition ex_repr (v : pyval) : text :=
  match v with VInt z => [ascii_of_nat (48 + Z.to_nat z)] | VNone => t "None" | _ => t "?" end.
Definition ex_eval (s : text) : evres :=
  match ex_digits s with
  | Ok z => EvOk (VInt z)
  | Err _ =>
    match s with
    | "034"%char :: r => EvOk (VStr (firstn (List.length r - 1) r))
    | c :: _ => if (97 <=? nat_of_ascii c)%nat then EvRaise OtherException else EvSyntaxError
    | [] => EvSyntaxError
    end
  end.
Definition ex_py : python :=
  {| py_eval := ex_eval; py_repr := ex_repr; py_int := ex_digits; py_float := fun _ => Err ValueError;
     py_truth := fun _ => true |}.

(* C100: after any changes, the last one for a key is the one that counts: a value which was set is there as it is; a
   text is there as text, or in place of a Python value as one. *)
Theorem C100_last_change py c l1 x l2 c' :
  (forall s, ~ In (Line (t "include") s) (l1 ++ x :: l2)) ->
  apply_changes py c (l1 ++ x :: l2) = Ok c' -> ~ In (change_key x) (map change_key l2) ->
  match x with
  | Set_ k v => setting_of c' k = Some (Typed v)
  | Line k s => exists c1 st, apply_changes py c l1 = Ok c1 /\ interpret py (setting_of c1 k) s = Ok st /\
                  setting_of c' k = Some st
  end.
Proof.
  intros Hn H Hx. apply (apply_settle py _ c c' (change_key x) Hn) in H as E.
  rewrite settle_app in E. apply bind_Ok in E as (st1 & E1 & E).
  destruct x as [k v|k s]; cbn [change_key] in *; cbn [settle] in E; rewrite teqb_refl in E.
  - rewrite settle_other in E by exact Hx. apply Ok_inj in E. congruence.
  - apply bind_Ok in E as (st & E2 & E). rewrite settle_other in E by exact Hx. apply Ok_inj in E.
    assert (A : exists c1, apply_changes py c l1 = Ok c1).
    { clear -H. revert c H. induction l1 as [|y l1 IH]; intros c H; [exists c; reflexivity|]. cbn [app apply_changes] in *.
      apply bind_Ok in H as (d & Hd & H). rewrite Hd. cbn [bind]. apply (IH d H). }
    destruct A as [c1 A]. exists c1, st. split; [exact A|]. split; [|congruence].
    assert (Hn1 : forall u, ~ In (Line t_include u) l1) by (intros u Hu; apply (Hn u); apply in_or_app; auto).
    apply (apply_settle py _ c c1 k Hn1) in A. congruence.
Qed.
Print Assumptions C100_last_change.

Example C100_ex_changes :
  match apply_changes ex_py empty_config
    [Line (t "a") (t "1,2"); Set_ (t "b") (VInt 3); Line (t "b") (t "45"); Set_ (t "a") VNone; Line (t "c") (t "x")] with
  | Ok c => (setting_of c (t "a"), setting_of c (t "b"), setting_of c (t "c"))
  | Err _ => (None, None, None)
  end = (Some (Typed VNone), Some (Typed (VInt 45)), Some (Text (t "x"))).
Proof. vm_compute. reflexivity. Qed.

(* C100: the sources of init_config. What is given on the command line counts before the extra updates, these before the
   config files, and these before the default config. *)
Theorem C100_priority fuel py fs optparse fn files args l default updates c k :
  Forall is_file_arg files -> command_line optparse args l -> no_include l ->
  init_config fuel py fs optparse fn (files ++ args) default updates = Ok c ->
  (forall s, last_given k l = Some s ->
     setting_of c k = Some (Text s) \/ setting_of c k = Some (Typed (VStr s)) \/
     exists v, py_eval py s = EvOk v /\ setting_of c k = Some (Typed v)) /\
  (last_given k l = None ->
     (forall v, last_given k updates = Some v -> setting_of c k = Some (Typed v)) /\
     (last_given k updates = None ->
        (forall fl f sets v, match fn with Some f => [f] | None => [] end ++ files = fl ++ [f] ->
           fs f = Some (Code sets) -> (forall d u, sets d = Ok u -> last_given k u = Some v) ->
           setting_of c k = Some (Typed v)) /\
        ((forall f, In f (match fn with Some f => [f] | None => [] end ++ files) ->
            exists sets, fs f = Some (Code sets) /\ forall d u, sets d = Ok u -> last_given k u = None) ->
           setting_of c k = option_map Typed (last_given k default)))).
Proof.
  intros Hf Hc Hn H. destruct (init_phases _ _ _ _ _ _ _ _ _ _ _ Hf Hc Hn H) as (c0 & c1 & Hl & H0 & H1).
  specialize (H0 k). specialize (H1 k). split.
  - intros s Hs. apply given_last_split in Hs as [p Hp]. rewrite Hp in H1. apply interpret_last in H1. exact H1.
  - intros Hs. apply given_none in Hs. rewrite Hs in H0, H1. cbn [interpret_all] in H0, H1.
    apply Ok_inj in H0, H1. split.
    + intros v Hv. rewrite Hv in H1. auto.
    + intros Hu. rewrite Hu in H0, H1. split.
      * intros fl f sets v Ef Efs Hsets. rewrite Ef, load_all_app in Hl.
        apply bind_Ok in Hl as (d & _ & Hl). cbn [load_all] in Hl. apply bind_Ok in Hl as (d1 & Hd & Hl).
        apply Ok_inj in Hl. subst d1. destruct (load_code _ _ _ _ _ _ _ Hd Efs) as (u & Hu1 & ->).
        rewrite update_typed_setting, (Hsets d u Hu1) in H1. auto.
      * intros Hfr. rewrite (load_codes_frame _ _ _ _ _ _ _ Hl Hfr) in H1. congruence.
Qed.
Print Assumptions C100_priority.

(* test_rnn_init_config_py_cmd_type, and the others of tests/test_Config.py *)
Definition ex_fs (name : text) : option file :=
  if teqb name (t "cfg") then Some (Code (fun c =>
    Ok [(t "task", match value ex_py c (t "task") (VStr (t "train")) None [] with Ok v => v | _ => VNone end);
        (t "test_value", VInt 42); (t "max_seq_length", VOther 1 true)]))
  else None.
Definition ex_optparse (args : list text) : res cmd :=
  match args with
  | [a; b] => if teqb a (t "--task") then Ok {| o_opts := [(t "task", b)]; o_config := None; o_args := [] |}
              else Ok {| o_opts := []; o_config := None; o_args := args |}
  | _ => Ok {| o_opts := []; o_config := None; o_args := args |}
  end.

Example C100_ex_global_var :
  (let* c := init_config 3 ex_py ex_fs ex_optparse None [t "cfg"; t "--task"; t "search"] [] [] in
   Ok (setting_of c (t "task"), setting_of c (t "test_value"))) =
  Ok (Some (Typed (VStr (t "search"))), Some (Typed (VInt 42))).
Proof. vm_compute. reflexivity. Qed.

Example C100_ex_cmd_type :
  (let* c := init_config 3 ex_py ex_fs ex_optparse None [t "cfg"; t "++max_seq_length"; t "0"] [] [] in
   Ok (setting_of c (t "max_seq_length"))) = Ok (Some (Typed (VInt 0))).
Proof. vm_compute. reflexivity. Qed.

Example C100_ex_command_line :
  command_line ex_optparse [t "++max_seq_length"; t "0"] [(t "max_seq_length", t "0")].
Proof.
  right. exists (t "++max_seq_length"), [t "0"], [], [(t "max_seq_length", t "0")].
  split; [reflexivity|]. split; [right; reflexivity|]. split; [reflexivity|]. split; [|reflexivity].
  repeat constructor. cbn. auto.
Qed.

(* Options like --batch_size are applied before the file of --config is loaded, so the file wins over the command
   line. *)
Theorem C100_config_option_refuted :
  ~ (forall py fs optparse args k s f opts c,
       optparse args = Ok {| o_opts := opts; o_config := Some f; o_args := [] |} -> In (k, s) opts ->
       no_include opts -> NoDup (map fst opts) -> Forall is_option_arg (firstn 1 args) ->
       init_config 3 py fs optparse None args [] [] = Ok c ->
       setting_of c k = Some (Text s) \/ setting_of c k = Some (Typed (VStr s)) \/
       exists v, py_eval py s = EvOk v /\ setting_of c k = Some (Typed v)).
Proof.
  intros H.
  specialize (H ex_py ex_fs (fun _ => Ok {| o_opts := [(t "test_value", t "7")]; o_config := Some (t "cfg"); o_args := [] |})
    [t "--test_value"; t "7"; t "--config"; t "cfg"] (t "test_value") (t "7") (t "cfg") [(t "test_value", t "7")]).
  destruct (init_config 3 ex_py ex_fs _ None [t "--test_value"; t "7"; t "--config"; t "cfg"] [] []) as [c|] eqn:E in H;
    [|vm_compute in E; discriminate].
  specialize (H c eq_refl (or_introl eq_refl)).
  assert (X : setting_of c (t "test_value") = Some (Typed (VInt 42))).
  { vm_compute in E. apply Ok_inj in E. subst c. vm_compute. reflexivity. }
  rewrite X in H. destruct H as [H|[H|(v & H1 & H2)]].
  - intros [Hi|[]]. vm_compute in Hi. discriminate.
  - repeat constructor. intros [].
  - repeat constructor.
  - exact eq_refl.
  - discriminate.
  - discriminate.
  - vm_compute in H1. injection H1 as <-. discriminate.
Qed.
Print Assumptions C100_config_option_refuted.

(* The command line is applied twice; for a key which is None in the default config, a quoted str is evaluated the first
   time, and then, in place of a str, taken with its quotes. Applied once it would be without. *)
Theorem C100_applied_twice_refuted :
  ~ (forall py optparse args l default k s v c,
       command_line optparse args l -> no_include l -> l = [(k, s)] ->
       last_given k default = Some VNone -> py_eval py s = EvOk v ->
       init_config 3 py (fun _ => None) optparse None args default [] = Ok c ->
       setting_of c k = Some (Typed v)).
Proof.
  intros H.
  set (s := ["034"%char; "x"%char; "034"%char]).
  specialize (H ex_py ex_optparse [t "++model"; s] [(t "model", s)] [(t "model", VNone)] (t "model") s (VStr (t "x"))).
  destruct (init_config 3 ex_py (fun _ => None) ex_optparse None [t "++model"; s] [(t "model", VNone)] []) as [c|] eqn:E;
    [|vm_compute in E; discriminate].
  specialize (H c).
  assert (X : setting_of c (t "model") = Some (Typed (VStr s))).
  { vm_compute in E. apply Ok_inj in E. subst c. vm_compute. reflexivity. }
  rewrite X in H. assert (Y : Some (Typed (VStr s)) = Some (Typed (VStr (t "x")))).
  { apply H; try reflexivity.
    - right. exists (t "++model"), [s], [], [(t "model", s)]. split; [reflexivity|]. split; [right; reflexivity|].
      split; [reflexivity|]. split; [|reflexivity]. repeat constructor. cbn. intros [Hb _]. discriminate.
    - intros [Hi|[]]. vm_compute in Hi. discriminate. }
  discriminate Y.
Qed.
Print Assumptions C100_applied_twice_refuted.

(* A text in place of a Python value which is no valid expression is kept as a str; but a name which is not defined
   (NameError) fails instead. *)
Theorem C100_name_error_refuted :
  ~ (forall py c k s, is_ok (add_line py (fun c _ => Ok c) c k s) = true).
Proof.
  intros H. specialize (H ex_py (set_typed empty_config (t "device") VNone) (t "device") (t "gpu")).
  vm_compute in H. discriminate.
Qed.
Print Assumptions C100_name_error_refuted.

(* ---- C101 ---- *)

Lemma text_lookup c k s : setting_of c k = Some (Text s) ->
  lookup k (c_typed c) = None /\ exists l, lookup k (c_dict c) = Some l /\ join [comma] l = s.
Proof.
  unfold setting_of. destruct (lookup k (c_typed c)); [discriminate|].
  destruct (lookup k (c_dict c)) as [l|]; [|discriminate]. cbn [option_map]. intros H. injection H as <-. eauto.
Qed.

Lemma split_parts parts :
  parts <> [] -> Forall (fun p : text => ~ In ","%char p) parts -> split_comma (join [comma] parts) = parts.
Proof.
  induction parts as [|p parts IH]; [congruence|]. intros _ H. inversion H as [|? ? Hp Hr]; subst.
  assert (E : forall q r, ~ In ","%char q -> (r = [] \/ exists r', r = comma :: r') ->
     split_comma (q ++ r) = match r with [] => [q] | _ :: r' => q :: split_comma r' end).
  { intros q r Hq Hr'. induction q as [|c q IHq].
    - destruct Hr' as [-> |[r' ->]]; reflexivity.
    - cbn [app split_comma]. destruct (Ascii.eqb c comma) eqn:Ec.
      + apply Ascii.eqb_eq in Ec. subst. exfalso. apply Hq. left. reflexivity.
      + rewrite IHq by (intros Hi; apply Hq; right; exact Hi). destruct Hr' as [-> |[r' ->]]; reflexivity. }
  destruct parts as [|p2 parts].
  - cbn [join]. specialize (E p [] Hp (or_introl eq_refl)). rewrite app_nil_r in E. exact E.
  - rewrite join_cons by discriminate. cbn [app]. rewrite (E p (comma :: _) Hp) by eauto.
    rewrite IH; [reflexivity|discriminate|exact Hr].
Qed.

Lemma find_comma p r i : ~ In ","%char p -> find_from i (p ++ comma :: r) = i + Z.of_nat (List.length p).
Proof.
  revert i. induction p as [|c p IH]; intros i H; cbn [app find_from List.length].
  - rewrite Ascii.eqb_refl. lia.
  - destruct (Ascii.eqb c comma) eqn:E.
    + apply Ascii.eqb_eq in E. subst. exfalso. apply H. left. reflexivity.
    + rewrite IH by (intros Hi; apply H; right; exact Hi). lia.
Qed.

Lemma find_none p i : ~ In ","%char p -> find_from i p = -1.
Proof.
  revert i. induction p as [|c p IH]; intros i H; cbn [find_from]; [reflexivity|].
  destruct (Ascii.eqb c comma) eqn:E.
  - apply Ascii.eqb_eq in E. subst. exfalso. apply H. left. reflexivity.
  - apply IH. intros Hi. apply H. right. exact Hi.
Qed.

Lemma stored_parts parts :
  parts <> [] -> Forall (fun p : text => ~ In ","%char p) parts -> (hd [] parts <> [] \/ List.length parts = 1%nat) ->
  (if 0 <? find_from 0 (join [comma] parts) then split_comma (join [comma] parts) else [join [comma] parts]) = parts.
Proof.
  intros Hn Hf Hh. destruct parts as [|p [|p2 parts]]; [congruence| |].
  - cbn [join]. inversion Hf as [|? ? Hp _]; subst. rewrite find_none by exact Hp. reflexivity.
  - inversion Hf as [|? ? Hp _]; subst. rewrite split_parts by assumption.
    rewrite join_cons by discriminate. cbn [app]. rewrite find_comma by exact Hp.
    destruct Hh as [Hh|Hh]; [|discriminate]. cbn [hd] in Hh.
    replace (0 <? 0 + Z.of_nat (List.length p)) with true; [reflexivity|].
    symmetry. apply Z.ltb_lt. destruct p; [congruence|cbn [List.length]; lia].
Qed.

Lemma add_line_parts py load c k parts :
  lookup k (c_typed c) = None -> k <> t "include" ->
  parts <> [] -> Forall (fun p : text => ~ In ","%char p) parts -> (hd [] parts <> [] \/ List.length parts = 1%nat) ->
  add_line py load c k (join [comma] parts) = Ok {| c_dict := update k parts (c_dict c); c_typed := c_typed c |}.
Proof.
  intros L Hk Hn Hf Hh. unfold add_line. rewrite L. apply teqb_neq in Hk. change (t "include") with t_include in Hk.
  rewrite Hk, stored_parts by assumption. reflexivity.
Qed.

(* C101: a text of parts with commas, given on the command line, is read back as this text, as the list of its parts,
   and part by part. *)
Theorem C101_text py load c k parts c' default sep :
  is_typed c k = false -> k <> t "include" ->
  parts <> [] -> Forall (fun p : text => ~ In ","%char p) parts -> (hd [] parts <> [] \/ List.length parts = 1%nat) ->
  add_line py load c k (join (t ",") parts) = Ok c' ->
  has c' k = true /\ is_typed c' k = false /\
  value py c' k default None (t ",") = Ok (VStr (join (t ",") parts)) /\
  value py c' k default None sep = Ok (VStr (join sep parts)) /\
  get_list c' k [] = map VStr parts /\
  (forall i p, nth_error parts i = Some p ->
     value py c' k default (Some (Z.of_nat i)) sep = Ok (VStr p) /\
     get_int py c' k default (Z.of_nat i) = (let* z := py_int py p in Ok (VInt z)) /\
     (p <> [] -> get_bool py c' k default (Z.of_nat i) = (let* b := to_bool py p in Ok (VBool b)))).
Proof.
  intros Ht Hk Hn Hf Hh H. unfold is_typed in Ht. destruct (lookup k (c_typed c)) eqn:L; [discriminate|].
  change (t ",") with [comma] in *. rewrite add_line_parts in H by assumption. apply Ok_inj in H. subst c'.
  set (c' := {| c_dict := update k parts (c_dict c); c_typed := c_typed c |}).
  assert (L1 : lookup k (c_typed c') = None) by exact L.
  assert (L2 : lookup k (c_dict c') = Some parts) by (cbn [c' c_dict]; rewrite lookup_update, teqb_refl; reflexivity).
  assert (V : forall i p, nth_error parts i = Some p -> forall d sp, value py c' k d (Some (Z.of_nat i)) sp = Ok (VStr p)).
  { intros i p Hi d sp. unfold value. rewrite L1, L2. unfold at_index.
    destruct (Z.ltb_spec (Z.of_nat i) 0); [lia|]. destruct (Z.ltb_spec (Z.of_nat i) 0); [lia|].
    rewrite Nat2Z.id, Hi. reflexivity. }
  split; [unfold has; rewrite L1, L2; reflexivity|]. split; [unfold is_typed; rewrite L1; reflexivity|].
  split; [unfold value; rewrite L1, L2; reflexivity|]. split; [unfold value; rewrite L1, L2; reflexivity|].
  split; [unfold get_list; rewrite L1, L2; reflexivity|].
  intros i p Hi. split; [apply V; exact Hi|]. split.
  - unfold get_int, is_typed. rewrite L1, L2. cbn [is_some]. rewrite (V i p Hi). reflexivity.
  - intros Hp. unfold get_bool, is_typed. rewrite L1, L2. cbn [is_some]. rewrite (V i p Hi). cbn [bind str_of].
    destruct p; [congruence|reflexivity].
Qed.
Print Assumptions C101_text.

(* test_old_format *)
Example C101_ex_text :
  (let* l := parse_text (flat_map (fun s => t s ++ ["010"%char]) [""; "  # comment"; "  num_inputs 3"; "  hidden_type forward,lstm"; "  "]%string) in
   let* c := add_lines ex_py (fun c _ => Ok c) empty_config l in
   let* n := get_int ex_py c (t "num_inputs") (VInt (-1)) 0 in
   let* h := value ex_py c (t "hidden_type") (VStr (t "x")) None (t ",") in
   let* h0 := value ex_py c (t "hidden_type") (VStr (t "x")) (Some 0) (t ",") in
   let* h1 := value ex_py c (t "hidden_type") (VStr (t "x")) (Some 1) (t ",") in
   Ok (n, h, h0, h1, get_list c (t "hidden_type") [VStr (t "x")], is_typed c (t "num_inputs"))) =
  Ok (VInt 3, VStr (t "forward,lstm"), VStr (t "forward"), VStr (t "lstm"), [VStr (t "forward"); VStr (t "lstm")], false).
Proof. vm_compute. reflexivity. Qed.

(* test_json_format, test_py_config *)
Example C101_ex_typed :
  (let c := update_typed empty_config
      [(t "num_inputs", VInt 3); (t "hidden_type", VSeq [VStr (t "forward"); VStr (t "lstm")])] in
   let* n := get_int ex_py c (t "num_inputs") (VInt (-1)) 0 in
   let* h := value ex_py c (t "hidden_type") (VStr (t "x")) None (t ",") in
   let* h0 := value ex_py c (t "hidden_type") (VStr (t "x")) (Some 0) (t ",") in
   let* h1 := value ex_py c (t "hidden_type") (VStr (t "x")) (Some 1) (t ",") in
   Ok (n, h, h0, h1, get_list c (t "hidden_type") [VStr (t "x")], is_typed c (t "num_inputs"))) =
  Ok (VInt 3, VStr (t "forward,lstm"), VStr (t "forward"), VStr (t "lstm"), [VStr (t "forward"); VStr (t "lstm")], true).
Proof. vm_compute. reflexivity. Qed.

(* C101: a list of ints is the same whether it comes from a Python config or as a text on the command line. *)
Theorem C101_int_list py c1 c2 k (show : Z -> text) zs default c2' :
  zs <> [] -> Forall (fun z => py_int py (show z) = Ok z /\ ~ In ","%char (show z) /\ show z <> []) zs ->
  is_typed c2 k = false -> k <> t "include" ->
  add_line py (fun c _ => Ok c) c2 k (join (t ",") (map show zs)) = Ok c2' ->
  get_int_list py (set_typed c1 k (VSeq (map VInt zs))) k default = Ok (map VInt zs) /\
  get_int_list py c2' k default = Ok (map VInt zs) /\
  forall i z, nth_error zs i = Some z ->
    get_int py (set_typed c1 k (VSeq (map VInt zs))) k VNone (Z.of_nat i) = Ok (VInt z) /\
    get_int py c2' k VNone (Z.of_nat i) = Ok (VInt z).
Proof.
  intros Hn Hs Ht Hk H. unfold is_typed in Ht. destruct (lookup k (c_typed c2)) eqn:L; [discriminate|].
  change (t ",") with [comma] in *. rewrite add_line_parts in H; auto.
  2:{ destruct zs; [congruence|discriminate]. }
  2:{ apply Forall_map. eapply Forall_impl; [|exact Hs]. intros z Hz. apply Hz. }
  2:{ left. destruct zs as [|z zs]; [congruence|]. inversion Hs as [|? ? Hz _]; subst. cbn [map hd]. apply Hz. }
  apply Ok_inj in H. subst c2'.
  set (d := {| c_dict := update k (map show zs) (c_dict c2); c_typed := c_typed c2 |}).
  assert (L1 : lookup k (c_typed d) = None) by exact L.
  assert (L2 : lookup k (c_dict d) = Some (map show zs)) by (cbn [d c_dict]; rewrite lookup_update, teqb_refl; reflexivity).
  set (e := set_typed c1 k (VSeq (map VInt zs))).
  assert (L3 : lookup k (c_typed e) = Some (VSeq (map VInt zs)))
    by (cbn [e set_typed c_typed]; rewrite lookup_update, teqb_refl; reflexivity).
  split; [|split].
  - unfold get_int_list. rewrite L3. cbn [as_list].
    replace (forallb is_int (map VInt zs)) with true; [reflexivity|].
    symmetry. apply forallb_forall. intros x Hx. apply in_map_iff in Hx as (z & <- & _). reflexivity.
  - unfold get_int_list, get_list. rewrite L1, L2. rewrite map_map. clear -Hs.
    induction Hs as [|z zs (Hz & _) _ IH]; [reflexivity|].
    cbn [map mapM to_int]. rewrite Hz. cbn [bind]. rewrite IH. reflexivity.
  - intros i z Hi. split.
    + unfold get_int, is_typed. rewrite L3. cbn [is_some]. unfold typed_value. rewrite L3. cbn [item].
      unfold at_index. destruct (Z.ltb_spec (Z.of_nat i) 0); [lia|]. destruct (Z.ltb_spec (Z.of_nat i) 0); [lia|].
      rewrite Nat2Z.id, (map_nth_error VInt i zs Hi). reflexivity.
    + unfold get_int, is_typed. rewrite L1, L2. cbn [is_some]. unfold value. rewrite L1, L2.
      unfold at_index. destruct (Z.ltb_spec (Z.of_nat i) 0); [lia|]. destruct (Z.ltb_spec (Z.of_nat i) 0); [lia|].
      rewrite Nat2Z.id, (map_nth_error show i zs Hi). cbn [bind to_int].
      rewrite Forall_forall in Hs. destruct (Hs z (nth_error_In _ _ Hi)) as [-> _]. reflexivity.
Qed.
Print Assumptions C101_int_list.

Lemma lower_case s w : Forall (fun c => lower c = c) w -> case_of s w -> map lower s = w.
Proof.
  intros Hw H. induction H as [|a b s w Hab H IH]; [reflexivity|]. inversion Hw as [|? ? Hb Hw']; subst. cbn [map]. f_equal; [|apply IH; exact Hw'].
  destruct Hab as [->|(n & Hn & -> & ->)]; [exact Hb|].
  unfold lower. rewrite nat_ascii_embedding by lia.
  replace ((65 <=? n) && (n <=? 90))%nat with true; [reflexivity|]. symmetry. apply andb_true_intro. split; apply Nat.leb_le; lia.
Qed.

(* C101: a flag given as text: a number, or one of the words in any case. The same as a Python bool or int. *)
Theorem C101_bool py load c k s c' default :
  is_typed c k = false -> k <> t "include" -> s <> [] -> ~ In ","%char s ->
  add_line py load c k s = Ok c' ->
  (forall z, py_int py s = Ok z -> is_true py c' k default = Ok (VBool (negb (z =? 0)))) /\
  (py_int py s = Err ValueError -> forall w, case_of s w ->
     (In w [t "true"; t "yes"; t "on"] -> is_true py c' k default = Ok (VBool true)) /\
     (In w [t "false"; t "no"; t "off"] -> is_true py c' k default = Ok (VBool false))) /\
  (forall b, is_true py (set_typed c k (VBool b)) k default = Ok (VBool b) /\ get_bool py (set_typed c k (VBool b)) k VNone 0 = Ok (VBool b)) /\
  (forall z, is_true py (set_typed c k (VInt z)) k default = Ok (VBool (negb (z =? 0))) /\
     get_bool py (set_typed c k (VInt z)) k VNone 0 = Ok (VBool (negb (z =? 0)))).
Proof.
  intros Ht Hk Hs Hc H.
  destruct (C101_text py load c k [s] c' (VBool default) (t ",") Ht Hk) as (_ & T & _ & _ & _ & P); [discriminate|constructor; [exact Hc|constructor]|right; reflexivity|exact H|].
  destruct (P 0%nat s eq_refl) as (_ & _ & B). specialize (B Hs). cbn [Z.of_nat] in B.
  assert (E : is_true py c' k default = get_bool py c' k (VBool default) 0).
  { unfold is_true. unfold is_typed in T. destruct (lookup k (c_typed c')); [discriminate|reflexivity]. }
  rewrite E, B. unfold to_bool.
  split; [intros z ->; reflexivity|]. split.
  { intros ->. intros w Hw. split; intros Hi.
    - assert (L : map lower s = w) by (apply lower_case; [|exact Hw]; repeat (destruct Hi as [<-|Hi]; [vm_compute; repeat constructor|]); destruct Hi).
      rewrite L. repeat (destruct Hi as [<-|Hi]; [reflexivity|]). destruct Hi.
    - assert (L : map lower s = w) by (apply lower_case; [|exact Hw]; repeat (destruct Hi as [<-|Hi]; [vm_compute; repeat constructor|]); destruct Hi).
      rewrite L. repeat (destruct Hi as [<-|Hi]; [reflexivity|]). destruct Hi. }
  assert (L3 : forall v, lookup k (c_typed (set_typed c k v)) = Some v) by (intros v; cbn [set_typed c_typed]; rewrite lookup_update, teqb_refl; reflexivity).
  split; intros v; (split; [unfold is_true; rewrite L3; reflexivity|unfold get_bool, is_typed, typed_value; rewrite L3; reflexivity]).
Qed.
Print Assumptions C101_bool.

Example C101_ex_bool :
  (let* c := add_line ex_py (fun c _ => Ok c) empty_config (t "a") (t "TrUe") in is_true ex_py c (t "a") false) = Ok (VBool true) /\
  case_of (t "TrUe") (t "true") /\
  (let* c := add_line ex_py (fun c _ => Ok c) empty_config (t "a") (t "0") in is_true ex_py c (t "a") true) = Ok (VBool false) /\
  (let* c := add_line ex_py (fun c _ => Ok c) empty_config (t "a") (t "maybe") in is_true ex_py c (t "a") true) = Err ValueError.
Proof.
  split; [vm_compute; reflexivity|]. split; [|split; vm_compute; reflexivity].
  constructor; [right; exists 84%nat; repeat split; lia|]. constructor; [left; reflexivity|]. constructor; [right; exists 85%nat; repeat split; lia|]. constructor; [left; reflexivity|constructor].
Qed.

(* C101: a number as float, given as text or as Python value; the default if it is not given. *)
Theorem C101_float py load c k s c' default v :
  is_typed c k = false -> k <> t "include" -> ~ In ","%char s -> add_line py load c k s = Ok c' -> is_number v = true ->
  (py_float py s = Ok v -> get_float py c' k default 0 = Ok v) /\
  get_float py (set_typed c k v) k default 0 = Ok v /\
  (has c k = false -> get_float py c k v 0 = Ok v).
Proof.
  intros Ht Hk Hc H Hv.
  destruct (C101_text py load c k [s] c' default comma_text Ht Hk) as (_ & T & _ & _ & _ & P); [discriminate|constructor; [exact Hc|constructor]|right; reflexivity|exact H|].
  destruct (P 0%nat s eq_refl) as (V & _). cbn [Z.of_nat] in V.
  assert (L3 : lookup k (c_typed (set_typed c k v)) = Some v) by (cbn [set_typed c_typed]; rewrite lookup_update, teqb_refl; reflexivity).
  split; [|split].
  - intros F. unfold get_float. rewrite T, V. cbn [bind is_none]. rewrite F. cbn [bind]. rewrite Hv. reflexivity.
  - unfold get_float, is_typed, typed_value. rewrite L3. cbn [is_some]. destruct v; try discriminate; reflexivity.
  - intros N. unfold has in N. apply orb_false_iff in N as [N1 N2]. unfold get_float, is_typed, value. rewrite N1.
    destruct (lookup k (c_typed c)); [discriminate|]. destruct (lookup k (c_dict c)); [discriminate|]. destruct v; try discriminate; reflexivity.
Qed.
Print Assumptions C101_float.

Lemma cut_none s : ~ In ":"%char s -> cut_colon s = (s, None).
Proof.
  induction s as [|a s IH]; intros H; cbn [cut_colon]; [reflexivity|]. destruct (Ascii.eqb a colon) eqn:E.
  - apply Ascii.eqb_eq in E. subst a. exfalso. apply H. left. reflexivity.
  - rewrite IH by (intros Hi; apply H; right; exact Hi). reflexivity.
Qed.
Lemma cut_some s r : ~ In ":"%char s -> cut_colon (s ++ ":"%char :: r) = (s, Some r).
Proof.
  induction s as [|a s IH]; intros H; cbn [app cut_colon]; [reflexivity|]. destruct (Ascii.eqb a colon) eqn:E.
  - apply Ascii.eqb_eq in E. subst a. exfalso. apply H. left. reflexivity.
  - rewrite IH by (intros Hi; apply H; right; exact Hi). reflexivity.
Qed.
Lemma add_line_one py load c k s : is_typed c k = false -> k <> t "include" -> ~ In ","%char s ->
  add_line py load c k s = Ok {| c_dict := update k [s] (c_dict c); c_typed := c_typed c |}.
Proof.
  intros Ht Hk Hc. unfold is_typed in Ht. change s with (join [comma] [s]) at 1. apply add_line_parts; [destruct (lookup k (c_typed c)); [discriminate|reflexivity]|exact Hk|discriminate|constructor; [exact Hc|constructor]|right; reflexivity].
Qed.
(* C101: a pair of ints as text "a:b", or "a" for twice the same; or as Python tuple, or int. *)
Theorem C101_int_pair py load c k sa sb a b default :
  is_typed c k = false -> k <> t "include" -> py_int py sa = Ok a -> py_int py sb = Ok b ->
  Forall (fun x => x <> ","%char /\ x <> ":"%char) (sa ++ sb) ->
  (let* c' := add_line py load c k (sa ++ ":"%char :: sb) in get_int_pair py c' k default) = Ok (a, b) /\
  (let* c' := add_line py load c k sa in get_int_pair py c' k default) = Ok (a, a) /\
  get_int_pair py (set_typed c k (VSeq [VInt a; VInt b])) k default = Ok (a, b) /\
  get_int_pair py (set_typed c k (VInt a)) k default = Ok (a, a) /\
  (has c k = false -> get_int_pair py c k default = Ok default).
Proof.
  intros Ht Hk Ha Hb Hf. rewrite Forall_forall in Hf.
  assert (Ca : forall x, In x [","; ":"]%char -> ~ In x sa) by (intros x Hx Hi; destruct (Hf x) as [A B]; [apply in_or_app; left; exact Hi|]; destruct Hx as [<-|[<-|[]]]; congruence).
  assert (Cb : forall x, In x [","; ":"]%char -> ~ In x sb) by (intros x Hx Hi; destruct (Hf x) as [A B]; [apply in_or_app; right; exact Hi|]; destruct Hx as [<-|[<-|[]]]; congruence).
  assert (L1 : lookup k (c_typed c) = None) by (unfold is_typed in Ht; destruct (lookup k (c_typed c)); [discriminate|reflexivity]).
  assert (L3 : forall v, lookup k (c_typed (set_typed c k v)) = Some v) by (intros v; cbn [set_typed c_typed]; rewrite lookup_update, teqb_refl; reflexivity).
  split; [|split; [|split; [|split]]].
  - rewrite add_line_one; [|exact Ht|exact Hk|]. 2:{ intros Hi. apply in_app_or in Hi as [Hi|[Hi|Hi]]; [exact (Ca ","%char (or_introl eq_refl) Hi)|discriminate|exact (Cb ","%char (or_introl eq_refl) Hi)]. }
    cbn [bind]. unfold get_int_pair. cbn [c_typed c_dict]. rewrite L1, lookup_update, teqb_refl. cbn [join].
    rewrite cut_some by (apply Ca; right; left; reflexivity). rewrite Ha. cbn [bind]. rewrite cut_none by (apply Cb; right; left; reflexivity). cbn [fst]. rewrite Hb. reflexivity.
  - rewrite add_line_one; [|exact Ht|exact Hk|apply Ca; left; reflexivity].
    cbn [bind]. unfold get_int_pair. cbn [c_typed c_dict]. rewrite L1, lookup_update, teqb_refl. cbn [join].
    rewrite cut_none by (apply Ca; right; left; reflexivity). rewrite Ha. reflexivity.
  - unfold get_int_pair. rewrite L3. reflexivity.
  - unfold get_int_pair. rewrite L3. reflexivity.
  - intros N. unfold has in N. rewrite L1 in N. unfold get_int_pair. rewrite L1. destruct (lookup k (c_dict c)); [discriminate|reflexivity].
Qed.
Print Assumptions C101_int_pair.
Example C101_ex_pair :
  (let* c := add_line ex_py (fun c _ => Ok c) empty_config (t "a") (t "12:3") in get_int_pair ex_py c (t "a") (0, 0)) = Ok (12, 3).
Proof. vm_compute. reflexivity. Qed.

Example C101_ex_ints :
  (let* c := add_line ex_py (fun c _ => Ok c) empty_config (t "a") (t "12,3,0") in get_int_list ex_py c (t "a") []) =
  Ok [VInt 12; VInt 3; VInt 0].
Proof. vm_compute. reflexivity. Qed.

(* A pair of ints is not: a text with a comma is refused, only a colon is accepted. *)
Theorem C101_int_pair_refuted :
  ~ (forall py c1 c2 k (show : Z -> text) a b c2' default,
       (forall z, In z [a; b] -> py_int py (show z) = Ok z /\ ~ In ","%char (show z) /\ show z <> []) ->
       is_typed c2 k = false -> k <> t "include" ->
       add_line py (fun c _ => Ok c) c2 k (join (t ",") [show a; show b]) = Ok c2' ->
       get_int_pair py (set_typed c1 k (VSeq [VInt a; VInt b])) k default = get_int_pair py c2' k default).
Proof.
  intros H. specialize (H ex_py empty_config empty_config (t "chunking") (fun z => ex_repr (VInt z)) 5 3).
  destruct (add_line ex_py (fun c _ => Ok c) empty_config (t "chunking") (join (t ",") [ex_repr (VInt 5); ex_repr (VInt 3)]))
    as [c'|] eqn:E in H; [|vm_compute in E; discriminate].
  specialize (H c' (0, 0)). vm_compute in E. apply Ok_inj in E. subst c'.
  assert (X : Ok (5, 3) = @Err (Z * Z) ValueError); [|discriminate X].
  refine (eq_trans _ (eq_trans (H _ _ _ _) _)); try (vm_compute; reflexivity).
  - intros z [<-|[<-|[]]]; vm_compute; repeat split; try discriminate; intros [Hc|[]]; discriminate.
  - vm_compute. discriminate.
Qed.
Print Assumptions C101_int_pair_refuted.

(* is_true of the text "false" is False, but of the str "false" of a Python config (or given on the command line in place
   of a str) it is True. *)
Theorem C101_is_true_refuted :
  ~ (forall py c k s b b', is_typed c k = false -> k <> t "include" ->
       is_true py (set_typed c k (VStr s)) k false = Ok (VBool b) ->
       (let* c' := add_line py (fun c _ => Ok c) c k s in is_true py c' k false) = Ok (VBool b') -> b = b').
Proof.
  intros H. specialize (H ex_py empty_config (t "flag") (t "false") true false).
  assert (X : true = false); [|discriminate X]. apply H; vm_compute; try reflexivity. discriminate.
Qed.
Print Assumptions C101_is_true_refuted.

(* value() of a key which is None gives the default; int() gives None, even with an int as default. *)
Theorem C101_none_refuted :
  ~ (forall py c k d v, value py c k (VInt d) None (t ",") = Ok (VInt d) ->
       get_int py c k (VInt d) 0 = Ok v -> is_int v = true).
Proof.
  intros H. specialize (H ex_py (set_typed empty_config (t "seed") VNone) (t "seed") 1 VNone).
  assert (X : false = true); [|discriminate X]. apply H; vm_compute; reflexivity.
Qed.
Print Assumptions C101_none_refuted.

(* C101: a file in the old text format gives the keys and values of its lines, in order, whatever spaces, blank lines and
   comments it has. *)
Theorem C101_text_file l : Forall line_ok l -> parse_text (flat_map line_text l) = Ok (settings l).
Proof. exact (text_file_ok l). Qed.
Print Assumptions C101_text_file.

Example C101_ex_newlines : splitlines ["a"; "010"; "b"; "011"; "012"; "c"; "028"; "d"; "030"; "e"; "031"; "133"; "f"]%char = [["a"]; ["b"]; []; ["c"]; ["d"]; ["e"; "031"]; ["f"]]%char.
Proof. vm_compute. reflexivity. Qed.

Definition ex_lines : list line :=
  [Blank (t "  ") None; Setting (t " ") (t "learning_rate") (t "  ") (t "0.1") [] (Some (t " # initial")); Blank [] (Some []);
   Setting [] (t "log") ["009"%char] (t "| a b") (t " ") None].

Example C101_ex_lines : Forall line_ok ex_lines /\ settings ex_lines = [(t "learning_rate", t "0.1"); (t "log", t "| a b")].
Proof.
  split; [|reflexivity].
  assert (V : forall c, existsb (Ascii.eqb c) (t "learning_rate0.1log|ab") = true -> visible c).
  { intros c H. apply existsb_exists in H as (x & Hx & E). apply Ascii.eqb_eq in E. subst x.
    unfold visible. vm_compute in Hx.
    repeat (destruct Hx as [<-|Hx]; [split; [vm_compute; lia|discriminate]|]). destruct Hx. }
  assert (B : forall s, forallb (fun c => Ascii.eqb c " " || Ascii.eqb c "009") s = true -> blank s).
  { intros s H. apply Forall_forall. intros c Hc. rewrite forallb_forall in H. apply H, orb_true_iff in Hc.
    destruct Hc as [Hc|Hc]; apply Ascii.eqb_eq in Hc; auto. }
  assert (C : forall s, forallb (fun c => existsb (Ascii.eqb c) (t "learning_rate0.1log|ab ")) s = true ->
              Forall (fun c => visible c \/ c = " "%char) s).
  { intros s H. apply Forall_forall. intros c Hc. rewrite forallb_forall in H. apply H in Hc.
    change (t "learning_rate0.1log|ab ") with (t "learning_rate0.1log|ab" ++ t " ") in Hc.
    rewrite existsb_app in Hc. apply orb_true_iff in Hc as [Hc|Hc]; [left; apply V; exact Hc|right].
    cbn in Hc. rewrite orb_false_r in Hc. apply Ascii.eqb_eq in Hc. exact Hc. }
  assert (K : forall s, forallb (fun c => existsb (Ascii.eqb c) (t "learning_rate0.1log|ab")) s = true -> Forall visible s).
  { intros s H. apply Forall_forall. intros c Hc. rewrite forallb_forall in H. apply V, H, Hc. }
  unfold ex_lines. repeat apply Forall_cons; [| | | |apply Forall_nil]; cbn [line_ok];
    repeat match goal with |- _ /\ _ => split end;
    try (apply B; reflexivity); try (apply K; reflexivity); try (apply C; reflexivity); try discriminate;
    try (intros x Hx; discriminate).
  - exists "0"%char, (t ".1"). split; [reflexivity|apply V; reflexivity].
  - exists "1"%char, (t "0."). split; [reflexivity|apply V; reflexivity].
  - intros x Hx. injection Hx as <-. repeat constructor; vm_compute; lia.
  - intros x Hx. injection Hx as <-. constructor.
  - exists "|"%char, (t " a b"). split; [reflexivity|apply V; reflexivity].
  - exists "b"%char, (t "| a "). split; [reflexivity|apply V; reflexivity].
Qed.
