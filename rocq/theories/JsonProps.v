(** C35: comments are stripped from JSON without touching strings. *)
From Coq Require Import Ascii String.
From Verif Require Import Base ListLemmas JsonModel JsonSpec JsonProofs.
Local Open Scope string_scope. Local Open Scope nat_scope. Local Open Scope list_scope.

(** Every text made of plain characters, strings and comments is reduced to its plain characters and its strings. What comes after the last string, comment or line break ([tail]) is kept as it is. *)
Theorem C35_comments_removed strip items tail :
  Forall item_ok items -> (items = [] \/ exists front i, items = front ++ [i] /\ is_mark i = true) ->
  Forall (fun c => item_ok (Char c) /\ is_newline c = false) tail ->
  json_remove_comments strip (render items ++ tail) = keep strip items ++ tail.
Proof.
  intros Hi Hm Ht. change (json_remove_comments strip (render items ++ tail)) with (sc strip (render items ++ tail) [] Outside [] []).
  assert (Hnil : flush strip Outside [] = []) by (cbn; destruct strip; reflexivity).
  destruct Hm as [-> |(front&i&->&Hm)]; [cbn [render keep flat_map app]; now rewrite tail_lemma|].
  apply Forall_app in Hi. destruct Hi as [Hf Hi]. inversion Hi as [|? ? Hi' _]; subst. unfold render, keep. rewrite !flat_map_app. cbn [flat_map]. rewrite !app_nil_r, <- !app_assoc. fold (render front). fold (keep strip front).
  destruct (items_lemma strip front Hf [] [] [] (render1 i ++ tail)) as (p1&q1&o1&->&E1). destruct (item_lemma strip i p1 q1 o1 tail Hi') as (p2&q2&o2&->&E2&E3). rewrite tail_lemma by exact Ht. rewrite <- (E3 Hm), app_assoc, E2, app_assoc, E1, Hnil. cbn [app]. now rewrite <- app_assoc.
Qed.
Print Assumptions C35_comments_removed.

(** Without comments and without white space outside of the strings the text is unchanged. *)
Theorem C35_no_comments_unchanged items tail :
  Forall item_ok items -> Forall (fun i => match i with Char c => is_space c = false | Str _ => True | Block _ | Line _ _ => False end) items ->
  (items = [] \/ exists front i, items = front ++ [i] /\ is_mark i = true) ->
  Forall (fun c => item_ok (Char c) /\ is_newline c = false) tail ->
  json_remove_comments true (render items ++ tail) = render items ++ tail.
Proof.
  intros Hi Hp Hm Ht. rewrite C35_comments_removed by assumption. f_equal. clear -Hp. unfold keep, render. induction Hp as [|i items H Hp IH]; [reflexivity|]. cbn [flat_map]. rewrite IH. f_equal. destruct i; try contradiction; [|reflexivity]. cbn [keep1 render1 andb]. rewrite H, orb_false_r. destruct (is_newline c) eqn:E; [|reflexivity]. unfold is_space in H. rewrite E, orb_true_r in H. discriminate.
Qed.
Print Assumptions C35_no_comments_unchanged.

(** A line comment at the end of the text, without a line break, is not removed: the text after the two slashes stays. *)
Theorem C35_line_comment_at_end_refuted : exists strip text comment,
  forallb (fun c => negb (is_newline c)) comment = true /\
  json_remove_comments strip (text ++ slash :: slash :: comment) = text ++ comment /\ text <> [] /\ comment <> [] /\
  json_remove_comments strip text = text.
Proof. exists true, (list_ascii_of_string "{}"), (list_ascii_of_string " done"). repeat split; discriminate || reflexivity. Qed.
Print Assumptions C35_line_comment_at_end_refuted.

(** A block comment whose text ends with a slash is not closed; everything until the next end mark is lost. *)
Theorem C35_slash_at_end_of_comment_refuted : exists body text,
  contains_close body = false /\
  json_remove_comments true (render [Block body] ++ text) <> json_remove_comments true text /\
  json_remove_comments true (render [Block body] ++ text ++ render [Block []] ++ text) = json_remove_comments true text.
Proof. exists (list_ascii_of_string " see /home/"), (list_ascii_of_string "[1]"). repeat split; discriminate || reflexivity. Qed.
Print Assumptions C35_slash_at_end_of_comment_refuted.

(** A line break inside a string is dropped if white space is stripped: the string is changed. *)
Theorem C35_line_break_in_string_refuted : exists a b, json_remove_comments true (quote :: a ++ LF :: b ++ [quote]) = quote :: a ++ b ++ [quote].
Proof. exists (list_ascii_of_string "x"), (list_ascii_of_string "y"). reflexivity. Qed.
Print Assumptions C35_line_break_in_string_refuted.

Definition q : string := String quote EmptyString.
Definition nl : string := String LF EmptyString.
Example C35_run : string_of_list_ascii (json_remove_comments true (list_ascii_of_string ("{ " ++ q ++ "a//b /* c" ++ q ++ " : 1, // note" ++ nl ++ " /* x */ " ++ q ++ "d\" ++ q ++ " e" ++ q ++ ": [2 , 3] } ")%string))
  = ("{" ++ q ++ "a//b /* c" ++ q ++ ":1," ++ q ++ "d\" ++ q ++ " e" ++ q ++ ": [2 , 3] } ")%string.
Proof. reflexivity. Qed.
Example C35_items : Forall item_ok [Char "{"%char; Str (list_ascii_of_string "a//b\\"); Char ":"%char; Block (list_ascii_of_string " x // "); Line (list_ascii_of_string " note */") LF].
Proof. repeat constructor; discriminate. Qed.
