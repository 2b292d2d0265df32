(** C139: the outputs of a forward step. Model: FwdOutModel; vocabulary: FwdOutSpec. *)
From Coq Require Import String Sorted.
From Verif Require Import Base ListLemmas PyDict FwdOutModel FwdOutSpec FwdOutProofs.
Local Open Scope nat_scope. Local Open Scope list_scope.

(** The default order of the dims: batch, time, one more with sequence lengths, one other dim. It is given exactly if there is such an order, and an error otherwise. *)
Theorem C139_default : forall (V : Type) info (t : @tensor V), tensor_ok t ->
  (forall dims, default_dim_order info t = Ok dims <-> default_order info t dims) /\ (forall e, default_dim_order info t = Err e -> e = OtherException).
Proof. intros V info t Hok. split; [intros dims; now apply default_iff|intros e; now apply default_err]. Qed.
Print Assumptions C139_default.

(** A tensor is taken as an output exactly if the name is new, and it is accepted in some order of its dims. *)
Theorem C139_mark : forall (V : Type) info (c : @ctx V) t name dims, tensor_ok t ->
  ((exists c', mark_as_output info c t name dims = (c', Ok tt)) <-> ~ In name (dkeys (c_outputs c)) /\ exists order, accepted info (c_expected c) name t dims order) /\
  (forall c' e, mark_as_output info c t name dims = (c', Err e) -> e = AssertionError \/ (e = OtherException /\ dims = None /\ c_expected c = None)).
Proof.
  intros V info c t name dims Hok. split; [split|].
  - intros (c' & E). destruct (mark_ok info c t name dims Hok c' E) as (out & _ & H1 & H2 & _). split; [exact H1|eauto].
  - intros [H1 (order & H2)]. eapply mark_accepts; eauto.
  - intros c' e. now apply mark_err.
Qed.
Print Assumptions C139_mark.

(** After a forward step, the outputs are the marked tensors under their names, with all entries at their place, in the order of dims that was given, or expected, or the default; and they are as expected, all of them and no others. *)
Theorem C139_outputs : forall (V : Type) info expected (marks : list (string * @tensor V * option (list nat))) outs,
  Forall (fun m => tensor_ok (mark_tensor m)) marks -> forward_step info expected marks = Ok outs ->
  NoDup (dkeys outs) /\ complete expected (dkeys outs) /\
  Forall2 (fun m o => fst o = mark_name m /\ exists order, accepted info expected (mark_name m) (mark_tensor m) (mark_dims m) order /\ stored (mark_tensor m) (snd o) order) marks outs.
Proof.
  intros V info expected marks outs Hok H. unfold forward_step in H. destruct (mark_all info _ marks) as [c|] eqn:E; cbn [bind] in H; [|discriminate]. destruct (check_outputs_complete c) as [[]|] eqn:Ec; cbn [bind] in H; [|discriminate]. injection H as <-.
  destruct (mark_all_ok info marks _ _ Hok E) as (outs & E1 & E2 & F & N). cbn [c_outputs c_expected app] in *. apply check_complete in Ec. rewrite E2 in Ec. split; [apply N; constructor|]. split; [exact Ec|]. rewrite E1. clear - F.
  induction F as [|m o marks outs (H1 & H2 & H3) _ IH]; constructor; [|exact IH]. split; [exact H1|]. exists (t_dims (snd o)). auto.
Qed.
Print Assumptions C139_outputs.

(** And a forward step succeeds exactly if the names are different, they are the expected ones, and each tensor is accepted. *)
Theorem C139_step : forall (V : Type) info expected (marks : list (string * @tensor V * option (list nat))), Forall (fun m => tensor_ok (mark_tensor m)) marks ->
  ((exists outs, forward_step info expected marks = Ok outs) <->
   NoDup (map mark_name marks) /\ complete expected (map mark_name marks) /\ Forall (fun m => exists order, accepted info expected (mark_name m) (mark_tensor m) (mark_dims m) order) marks).
Proof.
  intros V info expected marks Hok. split.
  - intros (outs & H). destruct (C139_outputs V info expected marks outs Hok H) as (H1 & H2 & H3). assert (Ek : dkeys outs = map mark_name marks). { clear - H3. induction H3 as [|m o marks outs [H _] _ IH]; cbn; [reflexivity|]. f_equal; [exact H|exact IH]. }
    rewrite Ek in *. split; [exact H1|]. split; [exact H2|]. clear - H3. induction H3 as [|m o marks outs (_ & order & H & _) _ IH]; constructor; [eauto|exact IH].
  - intros (H1 & H2 & H3). destruct (mark_all_accepts info marks {| c_outputs := []; c_expected := expected |} Hok H1 H3) as (c & E). unfold forward_step. rewrite E. cbn [bind].
    destruct (mark_all_ok info marks _ _ Hok E) as (outs & E1 & E2 & F & _). cbn [c_outputs c_expected app] in *. pose proof (result_keys info _ _ _ F) as Ek. rewrite (proj2 (check_complete (V := V) c)); [eexists; reflexivity|]. rewrite E1, E2, Ek. exact H2.
Qed.
Print Assumptions C139_step.

(** A batch of sequences: the batch dim 0, the time dims 1 and 3 (3 is not known yet), the features 2 *)
Definition ex_info (d : nat) : dim_info :=
  match d with 0 => {| d_size := None; d_batch := true; d_ext := None |} | 1 => {| d_size := None; d_batch := false; d_ext := Some true |}
  | 2 => {| d_size := Some 5; d_batch := false; d_ext := None |} | _ => {| d_size := None; d_batch := false; d_ext := None |} end.
Definition ex_tensor : @tensor (list nat) := {| t_dims := [2; 1; 0]; t_batch := Some 0; t_time := Some 1; t_dtype := "float32"; t_sparse := None; t_data := fun i => i |}.

(** The code says that a dim of the expected output which is not known yet allows any dynamic dim there. It does not: only this very dim is accepted, whatever dims are given. *)
Theorem C139_unknown_refuted : exists info (t : @tensor (list nat)) x, tensor_ok t /\
  List.length (x_dims x) = List.length (t_dims t) /\ t_dims t = [0; 1; 2] /\ x_dims x = [0; 3; 2] /\ is_dim_known (info 3) = false /\ is_dynamic (info 1) = true /\ x_dtype x = t_dtype t /\ x_sparse x = t_sparse t /\
  forall dims, snd (mark_as_output info {| c_outputs := []; c_expected := Some [("output"%string, x)] |} t "output" dims) = Err AssertionError.
Proof.
  exists ex_info, {| t_dims := [0; 1; 2]; t_batch := Some 0; t_time := Some 1; t_dtype := "float32"; t_sparse := None; t_data := fun i => i |}, {| x_dims := [0; 3; 2]; x_dtype := "float32"; x_sparse := None |}.
  split. { split; [repeat constructor; cbn; intuition discriminate|]. split; cbn; intros d E; injection E as <-; [auto|split; [auto|discriminate]]. }
  repeat (split; [reflexivity|]). intros [ds|]; [|reflexivity]. unfold mark_as_output, prepare_output. cbn [c_expected c_outputs dget keqb EqB_string String.eqb Ascii.eqb bind x_dims]. cbn -[dims_eqb subset].
  destruct (dims_eqb [0; 3; 2] ds) eqn:E; cbn -[dims_eqb subset]; [|reflexivity]. apply dims_eqb_iff in E. subst ds. reflexivity.
Qed.
Print Assumptions C139_unknown_refuted.

(** An output that is not as expected stays, if the error is caught; then the check of the outputs does not find it. *)
Theorem C139_caught_refuted : exists info (t : @tensor (list nat)) x c, tensor_ok t /\ t_dtype t <> x_dtype x /\
  mark_as_output info {| c_outputs := []; c_expected := Some [("output"%string, x)] |} t "output" None = (c, Err AssertionError) /\
  check_outputs_complete c = Ok tt /\ exists out, c_outputs c = [("output"%string, out)] /\ t_dtype out = t_dtype t.
Proof.
  exists ex_info, ex_tensor, {| x_dims := [0; 1; 2]; x_dtype := "int32"; x_sparse := None |}. eexists.
  split. { split; [repeat constructor; cbn; intuition discriminate|]. split; cbn; intros d E; injection E as <-; [auto|split; [auto|discriminate]]. }
  split; [discriminate|]. split; [reflexivity|]. split; [reflexivity|]. eexists. split; reflexivity.
Qed.
Print Assumptions C139_caught_refuted.

Example C139_ex : tensor_ok ex_tensor /\ default_dim_order ex_info ex_tensor = Ok [0; 1; 2] /\
  (exists out, forward_step ex_info None [("output"%string, ex_tensor, None)] = Ok [("output"%string, out)] /\ t_dims out = [0; 1; 2] /\ t_data out [7; 8; 4] = [4; 8; 7]) /\
  (exists outs, forward_step ex_info (Some [("output"%string, {| x_dims := [1; 0; 2]; x_dtype := "float32"; x_sparse := None |})]) [("output"%string, ex_tensor, None)] = Ok outs /\ map (fun o => t_dims (snd o)) outs = [[1; 0; 2]]) /\
  forward_step ex_info None [("a"%string, ex_tensor, None); ("a"%string, ex_tensor, None)] = Err AssertionError /\
  forward_step (V := list nat) ex_info (Some [("output"%string, {| x_dims := [1; 0; 2]; x_dtype := "float32"; x_sparse := None |})]) [] = Err AssertionError.
Proof.
  split. { split; [repeat constructor; cbn; intuition discriminate|]. split; cbn; intros d E; injection E as <-; [auto|split; [auto|discriminate]]. }
  split; [reflexivity|]. split; [eexists; repeat split; reflexivity|]. split; [eexists; split; reflexivity|]. split; reflexivity.
Qed.
