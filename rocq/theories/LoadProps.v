(* C105: what the parameters of a loaded model are; C106: resuming a training with preload_from_files. *)
From Coq Require Import List ZArith String Bool Lia.
From Verif Require Import Base PyDict LoadModel LoadSpec LoadMainProofs.
Import ListNotations.

(* Every parameter has its value from the first entry of preload_from_files (in the order of the keys) which is used
   and has it; else from the checkpoint; else it is as initialized. *)
Theorem C105_values : forall V t start epoch main (create : Z -> Z -> module V) noncritical preloads r n,
  let first := first_epoch t start epoch main in
  let m0 := create (fst (created start epoch main)) (snd (created start epoch main)) in
  preloads_ok preloads -> module_ok m0 -> (forall f, main = Some f -> file_ok f) ->
  load_model t start epoch main create noncritical preloads = Ok r -> is_param m0 n ->
  (forall v, preloaded t first preloads n v -> value_of (r_model r) n v) /\
  (~ has_preload t first preloads n -> forall f v, main = Some f -> In (n, v) (main_params f) -> value_of (r_model r) n v) /\
  (~ has_preload t first preloads n -> (forall f v, main = Some f -> ~ In (n, v) (main_params f)) ->
    forall v, value_of m0 n v -> value_of (r_model r) n v).
Proof. intros. now eapply load_values; eauto. Qed.
Print Assumptions C105_values.

(* With a checkpoint, or with an entry for parameters of this prefix, no parameter is silently left as initialized,
   unless an entry says so by a pattern, or the parameter is not critical. *)
Theorem C105_checked : forall V t start epoch main (create : Z -> Z -> module V) noncritical preloads r n,
  let first := first_epoch t start epoch main in
  let m0 := create (fst (created start epoch main)) (snd (created start epoch main)) in
  preloads_ok preloads -> module_ok m0 ->
  load_model t start epoch main create noncritical preloads = Ok r -> is_param m0 n -> ~ In n noncritical ->
  (main <> None \/ exists key p f, In (key, p) preloads /\ used t first p /\ p_source p = SFile f /\
     p_ignore_missing p = false /\ String.prefix (p_prefix p) n = true) ->
  (exists f v, main = Some f /\ In (n, v) (main_params f)) \/ has_preload t first preloads n \/ random_ok t first preloads n.
Proof. intros. now eapply load_checked; eauto. Qed.
Print Assumptions C105_checked.

(* The model is loaded if all critical parameters are found somewhere. *)
Theorem C105_accept : forall V t start epoch main (create : Z -> Z -> module V) noncritical preloads,
  let first := first_epoch t start epoch main in
  let m0 := create (fst (created start epoch main)) (snd (created start epoch main)) in
  preloads_ok preloads -> module_ok m0 ->
  (forall key p, In (key, p) preloads -> p_init p <> InitOther) ->
  (forall key p f, In (key, p) preloads -> used t first p -> p_source p = SFile f -> readable p /\ relevant p m0) ->
  (forall key p n v k w, In (key, p) preloads -> p_init p = InitAlways -> gives p n v -> In (n, (k, w)) m0 -> k <> KBuffer) ->
  (forall n, is_param m0 n -> ~ In n noncritical ->
     (exists f v, main = Some f /\ In (n, v) (main_params f)) \/ has_preload t first preloads n) ->
  (forall f, main = Some f -> file_ok f) ->
  exists r, load_model t start epoch main create noncritical preloads = Ok r.
Proof. intros. now apply load_accept. Qed.
Print Assumptions C105_accept.

(* Examples and witnesses *)
Definition ckpt (d : list (string * Z)) : file Z := {| f_sub := [("model"%string, d)]; f_flat := []; f_epoch := Some 5%Z; f_step := Some 100%Z |}.
Definition entry (i : init_opt) (d : list (string * Z)) (prefix : string) : preload Z :=
  {| p_init := i; p_source := SFile (ckpt d); p_ckpt_key := Some "model"%string; p_prefix := prefix; p_ignore := [];
     p_ignore_prefixes := []; p_mapping := []; p_ignore_missing := false |}.
Definition pattern_entry (i : init_opt) (q : string -> bool) : preload Z :=
  {| p_init := i; p_source := SPattern q; p_ckpt_key := Some "model"%string; p_prefix := ""; p_ignore := [];
     p_ignore_prefixes := []; p_mapping := []; p_ignore_missing := false |}.
Definition new_model (_ _ : Z) : module Z := [("enc.w", (KParam, 0%Z)); ("enc.b", (KParam, 0%Z)); ("dec.w", (KParam, 0%Z))]%string.

Definition result (r : res (loaded Z)) : res (list (string * (kind * Z)) * Z * Z) :=
  let* r := r in Ok (r_model r, r_epoch r, r_step r).

(* the first key in sorted order counts, then the checkpoint *)
Example C105_ex : result (load_model TOther None None (Some (ckpt [("enc.w", 1); ("enc.b", 1); ("dec.w", 1)]%string%Z)) new_model []
    [("b", entry InitRecog [("w", 3); ("b", 3)]%Z "enc."); ("a", entry InitRecog [("w", 2)]%Z "enc.")]%string)
  = Ok ([("enc.w", (KParam, 2)); ("enc.b", (KParam, 3)); ("dec.w", (KParam, 1))]%string%Z, 5%Z, 99%Z).
Proof. vm_compute. reflexivity. Qed.

(* the same in training: nothing is preloaded, and the next epoch begins *)
Example C105_ex_train : result (load_model TTrain None None (Some (ckpt [("enc.w", 1); ("enc.b", 1); ("dec.w", 1)]%string%Z)) new_model []
    [("b", entry InitRecog [("w", 3); ("b", 3)]%Z "enc.")]%string)
  = Ok ([("enc.w", (KParam, 1)); ("enc.b", (KParam, 1)); ("dec.w", (KParam, 1))]%string%Z, 6%Z, 100%Z).
Proof. vm_compute. reflexivity. Qed.

Example C105_ex_missing : load_model TTrain None None (Some (ckpt [("enc.w", 1); ("enc.b", 1)]%string%Z)) new_model [] [] = Err OtherException.
Proof. vm_compute. reflexivity. Qed.

Example C105_ex_gives : gives (entry InitRecog [("w", 3); ("b", 3)]%string%Z "enc."%string) "enc.b"%string 3%Z.
Proof.
  right. split; [intros ? ? []|]. do 2 eexists. exists "b"%string. split; [reflexivity|]. cbn. split; [left; reflexivity|].
  cbn. split; [auto|]. split; [reflexivity|]. split; [auto|]. intros q [].
Qed.

(* Finding: with preload_from_files alone (e.g. to combine a model for recognition), parameters which no entry is
   responsible for stay randomly initialized without any error. *)
Theorem C105_random_refuted : ~ (forall t start epoch main (create : Z -> Z -> module Z) noncritical preloads r n,
  let first := first_epoch t start epoch main in
  let m0 := create (fst (created start epoch main)) (snd (created start epoch main)) in
  preloads_ok preloads -> module_ok m0 -> t = TOther ->
  load_model t start epoch main create noncritical preloads = Ok r -> is_param m0 n -> ~ In n noncritical ->
  (exists f v, main = Some f /\ In (n, v) (main_params f)) \/ has_preload t first preloads n \/ random_ok t first preloads n).
Proof.
  intros H.
  assert (exists r, load_model TOther None None None new_model [] [("a", entry InitRecog [("w", 2); ("b", 2)]%Z "enc.")]%string = Ok r) as (r & Hr)
    by (eexists; vm_compute; reflexivity).
  destruct (H TOther None None None new_model [] [("a", entry InitRecog [("w", 2); ("b", 2)]%Z "enc.")]%string r "dec.w"%string) as [(f & v & E & _)|[(key & p & v & Hin & _ & Hg)|(key & p & q & Hin & _ & E & _)]].
  - split; [repeat constructor; intros []|]. intros key p [[= <- <-]|[]]. split; [|split; [constructor|split; [constructor|intros ? ? ? ? []]]].
    split; [repeat constructor; intros []|]. split; [constructor|]. intros k d [[= <- <-]|[]]. repeat constructor; cbn; intuition discriminate.
  - repeat constructor; cbn; intuition discriminate.
  - reflexivity.
  - exact Hr.
  - exists KParam, 0%Z. split; [cbn; auto|discriminate].
  - intros [].
  - discriminate.
  - destruct Hin as [[= <- <-]|[]]. destruct Hg as [(o & [] & _)|[_ (f & d & n0 & _ & _ & _ & E & _)]]. cbn in E. discriminate.
  - destruct Hin as [[= <- <-]|[]]. discriminate.
Qed.
Print Assumptions C105_random_refuted.

(* Finding: a pattern only counts for parameters which are known to be missing when it is its turn: whether it has
   an effect depends on the names of the entries. *)
Theorem C105_pattern_refuted : ~ (forall a b d q noncritical, a <> b ->
  (forall n, is_param (new_model 1 0) n -> In n (map fst d) \/ q n = true) ->
  is_ok (load_model TTrain None None None new_model noncritical [(a, entry InitTrue d ""); (b, pattern_entry InitTrue q)]%string) = true).
Proof.
  intros H.
  specialize (H "a"%string "b"%string [("enc.w", 1); ("enc.b", 1)]%string%Z (String.prefix "dec.") []). vm_compute in H.
  assert (true = false) as X; [|discriminate]. symmetry. apply H; [discriminate|].
  intros n (k & v & [[= <- _ _]|[[= <- _ _]|[[= <- _ _]|[]]]] & _); auto.
Qed.
Print Assumptions C105_pattern_refuted.
Example C105_ex_pattern : is_ok (load_model TTrain None None None new_model []
   [("b", entry InitTrue [("enc.w", 1); ("enc.b", 1)]%Z ""); ("a", pattern_entry InitTrue (String.prefix "dec."))]%string) = true.
Proof. vm_compute. reflexivity. Qed.

(* Finding: var_name_mapping is applied one name after the other, so that two names cannot be swapped. *)
Definition swap_entry : preload Z :=
  {| p_init := InitRecog; p_source := SFile (ckpt [("enc.w", 1); ("enc.b", 2); ("dec.w", 3)]%string%Z); p_ckpt_key := Some "model"%string;
     p_prefix := ""; p_ignore := []; p_ignore_prefixes := []; p_mapping := [("enc.w", "enc.b"); ("enc.b", "enc.w")]%string; p_ignore_missing := true |}.
Theorem C105_swap_refuted : ~ (forall p r n v, NoDup (map fst (p_mapping p)) -> NoDup (map snd (p_mapping p)) -> p_init p = InitRecog ->
  load_model TOther None None None new_model [] [("a"%string, p)] = Ok r -> is_param (new_model 1 0) n ->
  gives p n v -> value_of (r_model r) n v).
Proof.
  intros H.
  assert (exists r, load_model TOther None None None new_model [] [("a"%string, swap_entry)] = Ok r /\ ~ value_of (r_model r) "enc.w"%string 2%Z) as (r & Hr & Hv).
  { eexists. split; [vm_compute; reflexivity|]. intros (k & Hin). cbn in Hin. intuition discriminate. }
  apply Hv. apply (H swap_entry r); [| |reflexivity|exact Hr| |].
  - repeat constructor; cbn; intuition discriminate.
  - repeat constructor; cbn; intuition discriminate.
  - exists KParam, 0%Z. split; [cbn; auto|discriminate].
  - left. exists "enc.b"%string. split; [cbn; auto|]. do 2 eexists. exists "enc.b"%string. split; [reflexivity|]. cbn. split; [left; reflexivity|].
    cbn. split; [auto|]. split; [reflexivity|]. split; [auto|]. intros q [].
Qed.
Print Assumptions C105_swap_refuted.

(* Finding: parameters of such a file which the model does not have are never reported (those of the main
   checkpoint are). *)
Theorem C105_unexpected_refuted : ~ (forall key p r n v, p_init p = InitRecog ->
  load_model TOther None None None new_model [] [(key, p)] = Ok r ->
  gives p n v -> ~ is_param (new_model 1 0) n -> In n (r_unexpected r)).
Proof.
  intros H. set (p := entry InitRecog [("enc.w", 1); ("enc.b", 1); ("dec.w", 1); ("dec.v", 1)]%string%Z "").
  assert (exists r, load_model TOther None None None new_model [] [("a"%string, p)] = Ok r /\ r_unexpected r = []) as (r & Hr & Hu)
    by (eexists; split; vm_compute; reflexivity).
  specialize (H "a"%string p r "dec.v"%string 1%Z eq_refl Hr). rewrite Hu in H. apply H.
  - right. split; [intros ? ? []|]. do 2 eexists. exists "dec.v"%string. split; [reflexivity|]. cbn. split; [left; reflexivity|].
    cbn. split; [auto 6|]. split; [reflexivity|]. split; [auto|]. intros q [].
  - intros (k & v & [[=]|[[=]|[[=]|[]]]] & _).
Qed.
Print Assumptions C105_unexpected_refuted.
Example C105_ex_unexpected : (let* r := load_model TOther None None (Some (ckpt [("enc.w", 1); ("enc.b", 1); ("dec.w", 1); ("dec.v", 1)]%string%Z)) new_model [] [] in
  Ok (r_unexpected r)) = Ok ["dec.v"%string].
Proof. vm_compute. reflexivity. Qed.

(* C106: save and load again gives the model as it was, at the next epoch and the same step: parameters of entries
   with init_for_train="always" are not saved, but loaded from their own file again. *)
Theorem C106_resume : forall V start epoch main (create : Z -> Z -> module V) noncritical preloads r m' start' e s,
  preloads_ok preloads -> no_override preloads -> (forall e1 s1, module_ok (create e1 s1)) ->
  (forall e1 s1 e2 s2, trained (create e1 s1) (create e2 s2)) ->
  load_model TTrain start epoch main create noncritical preloads = Ok r -> trained (r_model r) m' -> (1 <= e)%Z ->
  exists f r', save_model m' (r_ignore r) e s = Ok f /\
    load_model TTrain start' (Some e) (Some f) create noncritical preloads = Ok r' /\ r_epoch r' = (e + 1)%Z /\ r_step r' = s /\
    forall n k v, In (n, (k, v)) (r_model r') <-> In (n, (k, v)) m'.
Proof. intros. eapply load_resume; eauto. Qed.
Print Assumptions C106_resume.

Example C106_ex : exists r, load_model TTrain None None None new_model [] [("enc", entry InitAlways [("w", 7); ("b", 7)]%Z "enc.")]%string = Ok r /\
  r_model r = [("enc.w", (KNonPersistent, 7)); ("enc.b", (KNonPersistent, 7)); ("dec.w", (KParam, 0))]%string%Z /\ r_epoch r = 1%Z /\
  let trained_model := [("enc.w", (KNonPersistent, 7)); ("enc.b", (KNonPersistent, 7)); ("dec.w", (KParam, 12))]%string%Z in
  trained (r_model r) trained_model /\
  exists f r', save_model trained_model (r_ignore r) 1 50 = Ok f /\ f_sub f = [("model", [("dec.w", 12)])]%string%Z /\
    load_model TTrain None (Some 1%Z) (Some f) new_model [] [("enc", entry InitAlways [("w", 7); ("b", 7)]%Z "enc.")]%string = Ok r' /\
    r_model r' = trained_model /\ r_epoch r' = 2%Z /\ r_step r' = 50%Z.
Proof.
  eexists. split; [vm_compute; reflexivity|]. split; [reflexivity|]. split; [reflexivity|]. cbv zeta. split.
  - split; [reflexivity|]. intros n v. cbn. intuition congruence.
  - do 2 eexists. split; [vm_compute; reflexivity|]. split; [reflexivity|]. split; [vm_compute; reflexivity|]. repeat split.
Qed.

(* Finding: with an entry with True before one with "always" for the same parameters, the values change when the
   training is resumed: they are not saved, and only the second entry is loaded again. *)
Theorem C106_override_refuted : ~ (forall start epoch main (create : Z -> Z -> module Z) noncritical preloads r m' start' e s,
  preloads_ok preloads -> (forall e1 s1, module_ok (create e1 s1)) ->
  (forall e1 s1 e2 s2, trained (create e1 s1) (create e2 s2)) ->
  load_model TTrain start epoch main create noncritical preloads = Ok r -> trained (r_model r) m' -> (1 <= e)%Z ->
  exists f r', save_model m' (r_ignore r) e s = Ok f /\
    load_model TTrain start' (Some e) (Some f) create noncritical preloads = Ok r' /\
    forall n k v, In (n, (k, v)) (r_model r') <-> In (n, (k, v)) m').
Proof.
  intros H. set (L := [("a", entry InitTrue [("w", 2); ("b", 2)]%Z "enc."); ("b", entry InitAlways [("w", 7); ("b", 7)]%Z "enc.")]%string).
  assert (exists r, load_model TTrain None None None new_model [] L = Ok r /\
    r_model r = [("enc.w", (KNonPersistent, 2)); ("enc.b", (KNonPersistent, 2)); ("dec.w", (KParam, 0))]%string%Z /\ r_ignore r = ["enc.w"; "enc.b"]%string) as (r & Hr & Hm & Hi)
    by (eexists; split; [vm_compute; reflexivity|split; reflexivity]).
  destruct (H None None None new_model [] L r (r_model r) None 1%Z 50%Z) as (f & r' & Hs & Hl & Heq).
  - split; [repeat constructor; cbn; intuition discriminate|]. intros key p Hin.
    assert (forall i x y, preload_ok (entry i [("w", x); ("b", y)]%string "enc."%string)) as Hok.
    { intros i x y. split; [|split; [constructor|split; [constructor|intros ? ? ? ? []]]].
      split; [repeat constructor; intros []|]. split; [constructor|]. intros k d [[= <- <-]|[]]. repeat constructor; cbn; intuition discriminate. }
    destruct Hin as [[= <- <-]|[[= <- <-]|[]]]; apply Hok.
  - intros. repeat constructor; cbn; intuition discriminate.
  - intros. split; [reflexivity|auto].
  - exact Hr.
  - split; [reflexivity|auto].
  - lia.
  - rewrite Hm, Hi in Hs. vm_compute in Hs. injection Hs as <-. vm_compute in Hl. injection Hl as <-. cbn [r_model] in Heq.
    rewrite Hm in Heq. specialize (Heq "enc.w"%string KNonPersistent 2%Z). cbn in Heq. intuition discriminate.
Qed.
Print Assumptions C106_override_refuted.

(* Finding: an entry with "always" for a persistent buffer (e.g. the statistics of a batch norm) fails. *)
Theorem C106_buffer_refuted : ~ (forall (m0 : module Z) d, module_ok m0 -> NoDup (map fst d) -> m0 <> [] ->
  (forall n, is_param m0 n <-> In n (map fst d)) ->
  is_ok (load_model TTrain None None None (fun _ _ => m0) [] [("a"%string, entry InitAlways d "")]) = true).
Proof.
  intros H. specialize (H [("bn.gamma", (KParam, 1)); ("bn.running_mean", (KBuffer, 0))]%string%Z [("bn.gamma", 2); ("bn.running_mean", 5)]%string%Z).
  vm_compute in H. assert (false = true) as X; [|discriminate]. apply H.
  - repeat constructor; cbn; intuition discriminate.
  - repeat constructor; cbn; intuition discriminate.
  - discriminate.
  - intros n. split.
    + intros (k & v & [[= <- _ _]|[[= <- _ _]|[]]] & _); cbn; auto.
    + cbn. intros [<-|[<-|[]]]; [exists KParam, 1%Z|exists KBuffer, 0%Z]; (split; [cbn; auto|discriminate]).
Qed.
Print Assumptions C106_buffer_refuted.
