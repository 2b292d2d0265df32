(** C142: the journal of random numbers. Model: JournalModel, WalkModel; vocabulary: JournalSpec, WalkSpec. *)
From Coq Require Import String.
From Verif Require Import Base ListLemmas WalkModel WalkSpec WalkProofs WalkProps JournalModel JournalSpec JournalProofs.
Local Open Scope nat_scope. Local Open Scope list_scope.

(** Whatever was appended and read so far, also with failed reads, what was read are the first entries, in the order in which they were appended, and none twice. The end is reached if all were read. The next read gives the next entry,
    exactly if there is one and it fits to the template; otherwise it is an error, and nothing is lost. *)
Theorem C142_journal : forall (V : Type) (ops : list (@op V)) j rs t, run new_journal ops = (j, rs) ->
  (exists unread, appended ops = read rs ++ unread /\ (reached_end j = true <-> unread = [])) /\
  (forall e, snd (get_next j t) = Ok e <-> nth_error (appended ops) (length (read rs)) = Some e /\ fits t e) /\
  (forall x, snd (get_next j t) = Err x -> fst (get_next j t) = j /\ (Forall has_out (appended ops) -> x = AssertionError)).
Proof.
  intros V ops j rs t E. destruct (run_new ops j rs E) as (H1 & _ & H3 & H4 & H5). split; [|split].
  - exists (skipn (length (read rs)) (appended ops)). split; [rewrite H5 at 1; symmetry; apply firstn_skipn|]. unfold reached_end. rewrite H1, H3, Nat.leb_le. pose proof (skipn_length (length (read rs)) (appended ops)) as Hs. split.
    + intros H. apply length_zero_iff_nil. lia.
    + intros H. rewrite H in Hs. cbn in Hs. lia.
  - intros e. unfold get_next. rewrite H1, H3. destruct (nth_error _ _) as [e'|] eqn:En; [|cbn; split; [discriminate|intros [H _]; discriminate]]. pose proof (check_iff t e') as C. destruct (check_template t e') as [[]|x]; cbn.
    + split; [intros H; injection H as ->; split; [reflexivity|now apply C]|intros [H _]; congruence].
    + split; [discriminate|]. intros [H F]. injection H as ->. apply C in F. discriminate.
  - intros x. unfold get_next. destruct (nth_error _ _) as [e'|] eqn:En; [|cbn; intros H; injection H as <-; auto]. destruct (check_template t e') as [[]|y] eqn:Ec; cbn; [discriminate|]. intros H. injection H as ->. split; [reflexivity|].
    intros F. rewrite H1 in En. apply nth_error_In in En. rewrite Forall_forall in F. exact (check_err t e' x (F _ En) Ec).
Qed.
Print Assumptions C142_journal.

(** So a replay with the same calls as in the recording gives the same numbers, and then it is at the end. *)
Theorem C142_replay : forall (V : Type) (es : list (@entry V)) ts, Forall2 fits ts es ->
  exists j, random_journal_replay (fst (run new_journal (map Append es))) (map Next ts) = (j, map Ok es) /\ reached_end j = true.
Proof.
  intros V es ts F. destruct (run_appends es) as (j & -> & He & Hi). cbn [fst]. unfold random_journal_replay. destruct (run_reads ts es [] j F) as (j1 & E & R1 & R2); [rewrite Hi, He; now rewrite app_nil_r|].
  exists j1. split; [exact E|]. unfold reached_end. apply Nat.leb_le. rewrite R1, R2, He. lia.
Qed.
Print Assumptions C142_replay.

(** The control dependency of the next read in a graph: nothing without a node or if the last one is of another run; the last node if its context is accessible; otherwise a nearest tensor that depends on it and is accessible, or an error if there is none.
    The index of the next read is the number of nodes. *)
Theorem C142_recent : forall (V : Type) (ops : list (@op V)) j rs n consumers ctx_of cur run_ctx, run new_journal ops = (j, rs) ->
  get_graph_reader_idx j = length (nodes ops) /\
  (nodes ops = [] -> get_recent n consumers ctx_of j cur run_ctx = Ok None) /\
  (forall before prev r, nodes ops = before ++ [(prev, r)] -> graph_ok n consumers [prev] ->
    (r <> run_ctx -> get_recent n consumers ctx_of j cur run_ctx = Ok None) /\
    (r = run_ctx -> ctx_accessible (ctx_of prev) cur -> get_recent n consumers ctx_of j cur run_ctx = Ok (Some prev)) /\
    (r = run_ctx -> (forall x, reachable consumers [prev] x -> ~ ctx_accessible (ctx_of x) cur) -> get_recent n consumers ctx_of j cur run_ctx = Err OtherException) /\
    (r = run_ctx -> (exists x, reachable consumers [prev] x /\ ctx_accessible (ctx_of x) cur) ->
      exists x, get_recent n consumers ctx_of j cur run_ctx = Ok (Some x) /\ reachable consumers [prev] x /\ ctx_accessible (ctx_of x) cur /\
        forall y, reachable consumers [prev] y -> ctx_accessible (ctx_of y) cur -> not_farther consumers [prev] x y)).
Proof.
  intros V ops j rs n consumers ctx_of cur run_ctx E. destruct (run_new ops j rs E) as (_ & H2 & _). unfold get_graph_reader_idx, get_recent. rewrite H2. split; [reflexivity|]. split; [now intros ->|].
  intros before prev r Hn Hg. rewrite Hn, rev_app_distr. cbn [rev app]. split; [|split; [|split]].
  - intros H. apply Nat.eqb_neq in H. now rewrite H.
  - intros -> H. rewrite Nat.eqb_refl. cbn [negb]. apply accessible_iff in H. now rewrite H.
  - intros -> H. rewrite Nat.eqb_refl. cbn [negb]. destruct (is_parent_or_same (ctx_of prev) cur) eqn:Ep; [apply accessible_iff in Ep; destruct (H prev); [exists 0; now left|exact Ep]|].
    destruct (C140_nearest n consumers [prev] (fun x => is_parent_or_same (ctx_of x) cur) Hg) as [[W _]|(x & _ & Hr & Hx & _)]; [now rewrite W|]. apply accessible_iff in Hx. destruct (H x Hr Hx).
  - intros -> (z & Hz & Hza). rewrite Nat.eqb_refl. cbn [negb]. destruct (is_parent_or_same (ctx_of prev) cur) eqn:Ep.
    + exists prev. split; [reflexivity|]. split; [exists 0; now left|]. split; [now apply accessible_iff|]. intros y _ _ k _. induction k as [|k IH]; [now left|now left].
    + destruct (C140_nearest n consumers [prev] (fun x => is_parent_or_same (ctx_of x) cur) Hg) as [[_ W]|(x & W & Hr & Hx & Hd)]; [apply accessible_iff in Hza; rewrite (W z Hz) in Hza; discriminate|].
      rewrite W. cbn [bind]. exists x. split; [reflexivity|]. split; [exact Hr|]. split; [now apply accessible_iff|]. intros y Hy Hya. apply Hd; [exact Hy|now apply accessible_iff].
Qed.
Print Assumptions C142_recent.

(** It is not the most recent node in an accessible context, as the description says: with such a node, there is still an error if the last one is in another branch. *)
Theorem C142_recent_refuted : exists n consumers ctx_of (j : @journal unit) cur node, (forall x y, In y (consumers x) -> y < n) /\ In (node, 0) (j_nodes j) /\ ctx_accessible (ctx_of node) cur /\
  get_recent n consumers ctx_of j cur 0 = Err OtherException.
Proof.
  exists 2, (fun _ => []), (fun x => match x with 0 => [] | _ => [1] end), {| j_entries := []; j_idx := 0; j_nodes := [(0, 0); (1, 0)] |}, [2], 0. split; [intros x y []|]. split; [now left|]. split; [now exists [2]|reflexivity].
Qed.
Print Assumptions C142_recent_refuted.

(** A replay does not check that all was replayed, and does not clear the journal, as its description says: with fewer calls than in the recording there is no error, and all entries are still there. *)
Theorem C142_end_refuted : forall (V : Type) (es more : list (@entry V)) ts, Forall2 fits ts es -> more <> [] ->
  exists j, random_journal_replay (fst (run new_journal (map Append (es ++ more)))) (map Next ts) = (j, map Ok es) /\ reached_end j = false /\ j_entries j = es ++ more.
Proof.
  intros V es more ts F Hm. destruct (run_appends (es ++ more)) as (j & -> & He & Hi). cbn [fst]. unfold random_journal_replay. destruct (run_reads ts es more j F) as (j1 & E & R1 & R2); [now rewrite Hi, He|].
  exists j1. split; [exact E|]. split; [|congruence]. unfold reached_end. apply Nat.leb_gt. rewrite R1, R2, He, Hi, app_length. destruct more; [congruence|cbn; lia].
Qed.
Print Assumptions C142_end_refuted.

Definition ex_entry (n v : nat) : @entry nat := {| e_out := Some {| x_dtype := "float32"; x_dims := [Some n; None] |}; e_rest := v |}.
Example C142_ex :
  let ops := [Append (ex_entry 3 7); Next (Some {| x_dtype := "int32"; x_dims := [Some 3; None] |}); Next (Some {| x_dtype := "float32"; x_dims := [Some 3; None] |}); Next None; Append (ex_entry 2 8); Append (ex_entry 1 9); Next None] in
  snd (run new_journal ops) = [Err AssertionError; Ok (ex_entry 3 7); Err AssertionError; Ok (ex_entry 2 8)] /\ reached_end (fst (run new_journal ops)) = false /\
  Forall2 fits [None; Some {| x_dtype := "float32"; x_dims := [Some 2; None] |}] [ex_entry 3 7; ex_entry 2 8] /\ Forall has_out [ex_entry 3 7] /\
  get_recent 3 (fun x => match x with 1 => [2] | _ => [] end) (fun x => match x with 1 => [1] | _ => [] end) (fst (run (V := nat) new_journal [AddNode 0 0; AddNode 1 0])) [2] 0 = Ok (Some 2).
Proof.
  cbv zeta. split; [reflexivity|]. split; [reflexivity|]. split; [constructor; [intros x H; discriminate|constructor; [intros x H; injection H as <-; reflexivity|constructor]]|]. split; [constructor; [discriminate|constructor]|reflexivity].
Qed.
