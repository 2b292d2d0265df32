(** Property C22: the learning rate file. *)
From Coq Require Import Ascii String.
From Verif Require Import Base ListLemmas PyDict ReprModel ReprSpec LrSaveModel LrSaveSpec LrSaveProofs.
Local Open Scope string_scope. Local Open Scope nat_scope. Local Open Scope list_scope.

(** C22: at every moment of every history of saves, kills and restarts, whatever an interrupted save has left in the temporary file: the file is the complete text of the last
    completed save (or is missing, if there was none). *)
Theorem C22_always_complete : forall tmp es s,
  steps (mk_disk None tmp, Down) es s ->
  match d_file (fst s) with
  | Some text => ever_saved es /\ text_of (last_saved [] es) = Ok text
  | None => ~ ever_saved es
  end.
Proof.
  intros tmp es s H. apply inv_steps in H; [exact (proj1 H)|]. split; [|exact I]. cbn. intros (d&[]).
Qed.
Print Assumptions C22_always_complete.

(** C22: so the next start always works, and finds the scores, learning rates and meta data of the last completed save. *)
Theorem C22_restart : forall tmp es disk,
  steps (mk_disk None tmp, Down) es (disk, Down) -> (forall d, In (Saved d) es -> good_data d) ->
  exists d, step (disk, Down) [Loaded d] (disk, Idle d) /\ same_data (last_saved [] es) d.
Proof.
  intros tmp es disk H Hg. pose proof (C22_always_complete _ _ _ H) as Hf. destruct disk as [[t|] t2]; cbn in Hf.
  - destruct Hf as [Hs Ht]. assert (Hgd : good_data (last_saved [] es)).
    { assert (Hl : forall es acc, (good_data acc \/ ever_saved es) -> (forall d, In (Saved d) es -> good_data d) -> good_data (last_saved acc es)); [|apply Hl; auto].
      clear. induction es as [|[d|d] es IH]; intros acc Ha Hg; cbn.
      - destruct Ha as [Ha|(d&[])]; exact Ha.
      - apply IH; [|intros; apply Hg; now right]. destruct Ha as [Ha|(d'&[E|Hin])]; [now left|discriminate|right; now exists d'].
      - apply IH; [|intros; apply Hg; now right]. left. apply Hg. now left. }
    destruct (round_trip _ _ Hgd Ht) as (d'&Hl&Hsame). exists d'. split; [now constructor|exact Hsame].
  - exists []. split; [constructor|]. replace (last_saved [] es) with (@nil (Z * epoch)); [intros n; exact I|].
    revert Hf. clear. assert (Hl : forall acc, ~ ever_saved es -> last_saved acc es = acc); [|intros Hf; now rewrite Hl]. induction es as [|[d|d] es IH]; intros acc Hf; cbn; [reflexivity| |].
    + apply IH. intros (d'&Hin). apply Hf. exists d'. now right.
    + exfalso. apply Hf. exists d. now left.
Qed.
Print Assumptions C22_restart.

(** An example: save, start another save, killed in the middle, restart. *)
Definition ex_data : dict Z epoch := [(2%Z, mk_epoch (VFloat "0.5") [("dev", VFloat "1.5")] [("device", VStr "cpu"); ("steps", VInt 7)]); (1%Z, mk_epoch (VFloat "1.0") [] [])].
Example C22_ex_good : good_data ex_data.
Proof.
  split; [repeat constructor; cbn; intuition discriminate|]. intros n e [E|[E|[]]]; injection E as <- <-.
  - split; [reflexivity|]. split; [reflexivity|]. split; [split; [repeat constructor; cbn; intuition|]|split; [split; [repeat constructor; cbn; intuition discriminate|]|]].
    + intros k v [E|[]]; injection E as <- <-. cbn. auto.
    + intros k v [E|[E|[]]]; injection E as <- <-; cbn; auto.
    + intros k [<-|[]]. reflexivity.
  - split; [reflexivity|]. split; [reflexivity|]. split; [split; [constructor|intros k v []]|split; [split; [constructor|intros k v []]|intros k []]].
Qed.
Example C22_ex_history : exists disk text, text_of ex_data = Ok text /\
  steps (mk_disk None None, Down) ([] ++ [Loaded []] ++ [Saved ex_data]) (disk, Down) /\ d_file disk = Some text /\ d_tmp disk = Some "{"%string.
Proof.
  destruct (text_of ex_data) as [text|] eqn:Et; [|vm_compute in Et; discriminate]. destruct (text_of []) as [t2|] eqn:Et2; [|vm_compute in Et2; discriminate].
  exists (mk_disk (Some text) (Some "{"%string)), text. split; [reflexivity|]. split; [|split; reflexivity].
  rewrite <- (app_nil_r ([] ++ _)). eapply steps_trans; [|apply s_kill]. rewrite <- (app_nil_r ([] ++ _)). eapply steps_trans.
  2:{ apply (s_write (Some text) (Some ""%string) [] ""%string "{"%string (String.substring 1 (String.length t2) t2)). }
  rewrite <- (app_nil_r ([] ++ _)). eapply steps_trans. 2:{ replace (String.append "{" _) with t2 by (vm_compute in Et2; apply Ok_inj in Et2; subst t2; reflexivity). apply (s_open (Some text) None). exact Et2. }
  rewrite <- (app_nil_r ([] ++ _)). eapply steps_trans. 2:{ apply (s_change (mk_disk (Some text) None) ex_data). }
  rewrite app_assoc. eapply steps_trans. 2:{ apply (s_rename None text ex_data text). }
  rewrite <- (app_nil_r ([] ++ _)). eapply steps_trans. 2:{ apply (s_write None (Some ""%string) ex_data ""%string text ""%string). }
  rewrite <- (app_nil_r ([] ++ _)). eapply steps_trans. 2:{ rewrite ReprProofs.app_s_nil. apply (s_open None None). exact Et. }
  rewrite <- (app_nil_r ([] ++ _)). eapply steps_trans. 2:{ apply (s_change (mk_disk None None) []). }
  eapply steps_trans; [apply steps_refl|]. apply s_start_empty.
Qed.
Example C22_ex_load : match text_of ex_data with
  | Ok t => match load t with Ok d => map (fun ne => (fst ne, dkeys (e_error (snd ne)), e_meta (snd ne))) d = [(1%Z, [], []); (2%Z, ["dev"%string], [("device", VStr "cpu"); ("steps", VInt 7)])] | Err _ => False end
  | Err _ => False end.
Proof. vm_compute. reflexivity. Qed.

(** C22, finding: meta data with a tuple of one string is saved without complaint, and then the next start fails, or finds something else. *)
Theorem C22_any_meta_refuted :
  ~ (forall d t, dict_ok d -> (forall n e, In (n, e) d -> is_float (e_lr e) = true /\ well_formed (e_lr e) /\ dict_ok (e_error e) /\ dict_ok (e_meta e)) -> text_of d = Ok t -> exists d', load t = Ok d').
Proof.
  intros H. set (d := [(1%Z, mk_epoch (VFloat "1.0") [] [("gpus", VTuple [VStr "cuda"])])]).
  destruct (text_of d) as [t|] eqn:Et; [|vm_compute in Et; discriminate]. destruct (H d t) as (d'&E).
  - repeat constructor. cbn. tauto.
  - intros n e [E|[]]. injection E as <- <-. cbn. repeat split; try reflexivity; repeat constructor; cbn; tauto.
  - exact Et.
  - vm_compute in Et. apply Ok_inj in Et. subst t. vm_compute in E. discriminate.
Qed.
Print Assumptions C22_any_meta_refuted.

(** C22: an entry of the old file format, with a single number instead of the scores, is still read; an entry with something else there is refused. *)
Theorem C22_old_format : forall n lr x t, is_float lr = true -> well_formed lr -> well_formed x -> no_singletons x ->
  better_repr (VDict [(KInt n, VCall lr x)]) = Ok t ->
  (is_float x = true -> load (t ++ newline) = Ok [(n, mk_epoch lr [("old_format_score"%string, x)] [])]) /\
  (match x with VNone | VDict _ => False | _ => is_float x = false end -> exists e, load (t ++ newline) = Err e).
Proof. exact old_format. Qed.
Print Assumptions C22_old_format.
Example C22_old_format_ex : load ("{1: EpochData(learningRate=0.01, error=3.5)}" ++ newline) = Ok [(1%Z, mk_epoch (VFloat "0.01") [("old_format_score"%string, VFloat "3.5")] [])].
Proof. vm_compute. reflexivity. Qed.
