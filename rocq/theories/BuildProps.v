(** C141: dicts for the construction of modules. Model: BuildModel; vocabulary: BuildSpec. *)
From Coq Require Import String Ascii.
From Verif Require Import Base ListLemmas PyDict BuildModel BuildSpec BuildProofs.
Local Open Scope nat_scope. Local Open Scope list_scope.

(** The dict of a class or function which is found by its name builds just what a direct use gives, with the arguments of the dict and of the call. A name in both is an error. *)
Theorem C141_roundtrip : forall (V : Type) w o (kw : @dict string (@arg V)), accessible w o -> buildable w o -> named_args kw ->
  exists d, build_dict w o kw = Ok d /\
    (forall args kw', (forall k, In k (dkeys kw) -> ~ In k (dkeys kw')) -> build_from_dict w d args kw' = Ok (used w o args (kw ++ kw'))) /\
    (forall args kw' k, In k (dkeys kw) -> In k (dkeys kw') -> build_from_dict w d args kw' = Err TypeError).
Proof.
  intros V w o kw Ha Hb Hk. eexists. split; [now apply build_dict_eq|]. pose proof (get_cls_of_name w o Ha) as E. unfold buildable in Hb. split.
  - intros args kw' Hd. rewrite (build_at _ _ _ _ _ _ E), (merge_ok kw kw' Hd). unfold used. destruct (o_kind (w_obj w o)); [reflexivity| |congruence]. destruct args, kw, kw'; reflexivity.
  - intros args kw' k H1 H2. rewrite (build_at _ _ _ _ _ _ E), (merge_err kw kw' k H1 H2). destruct (o_kind (w_obj w o)); [reflexivity| |congruence]. destruct kw as [|p kw]; [contradiction|]. destruct args, kw'; reflexivity.
Qed.
Print Assumptions C141_roundtrip.

(** So the dict tells which object it is: different ones have different dicts. *)
Theorem C141_unique : forall (V : Type) w o o' (kw kw' : @dict string (@arg V)) d, accessible w o -> accessible w o' -> named_args kw -> named_args kw' ->
  build_dict w o kw = Ok d -> build_dict w o' kw' = Ok d -> o = o' /\ kw = kw'.
Proof.
  intros V w o o' kw kw' d Ha Ha' Hk Hk' E E'.
  assert (B : forall x (k : @dict string (@arg V)), build_dict w x k = Ok d -> buildable w x) by (intros x k; unfold build_dict, buildable; destruct (o_kind (w_obj w x)); congruence).
  rewrite (build_dict_eq w o kw (B _ _ E) Hk) in E. rewrite (build_dict_eq w o' kw' (B _ _ E') Hk') in E'. rewrite <- E' in E. injection E as En ->. split; [|reflexivity].
  apply get_cls_of_name in Ha, Ha'. rewrite En in Ha. congruence.
Qed.
Print Assumptions C141_unique.

(** The dict of something of the frontend does not change if it is moved to another module, or if anything else changes. *)
Theorem C141_stable : forall (V : Type) w w' o o' (kw : @dict string (@arg V)), buildable w o -> buildable w' o' ->
  dget (w_rf w) (o_name (w_obj w o)) = Some o -> dget (w_rf w') (o_name (w_obj w' o')) = Some o' -> o_name (w_obj w o) = o_name (w_obj w' o') ->
  build_dict w o kw = build_dict w' o' kw.
Proof.
  intros V w w' o o' kw B B' E E' En. unfold build_dict, get_cls_name, buildable in *. rewrite E, E', !Nat.eqb_refl, En. destruct (o_kind (w_obj w o)), (o_kind (w_obj w' o')); congruence.
Qed.
Print Assumptions C141_stable.

(** Errors: no class in the dict, a class without a module, an object which is no class or function. *)
Theorem C141_errors : forall (V : Type) w (d : @dict string (@arg V)) args kw,
  (~ In "class"%string (dkeys d) -> build_from_dict w d args kw = Err ValueError) /\
  (forall c, dget d "class"%string = Some (Str c) -> no_dot c -> build_from_dict w d args kw = Err ValueError) /\
  (forall o, o_kind (w_obj w o) = KOther -> build_dict w o d = Err TypeError /\
    (accessible w o -> dget d "class"%string = Some (Str (get_cls_name w o)) -> build_from_dict w d args kw = Err ValueError)).
Proof.
  intros V w d args kw. unfold build_from_dict. split; [|split].
  - intros H. apply dget_None in H. now rewrite H.
  - intros c H Hn. rewrite H. unfold get_cls. now rewrite (rsplit_no_dot c Hn).
  - intros o H. split; [unfold build_dict; now rewrite H|]. intros Ha E. rewrite E, (get_cls_of_name w o Ha). cbn [bind]. now rewrite H.
Qed.
Print Assumptions C141_errors.

(** Objects: 0 and 1 are classes with the name Layer in the module my.mod, 0 inside of another class; 2 is in the frontend; 3 is a function; 4 is in a module rf *)
Definition ex_world : world :=
  {| w_obj := fun o => match o with 0 | 1 => {| o_kind := KClass; o_module := "my.mod"; o_name := "Layer" |} | 2 => {| o_kind := KClass; o_module := "returnn.frontend.linear"; o_name := "Linear" |}
                      | 3 => {| o_kind := KFunction; o_module := "my.mod"; o_name := "relu" |} | _ => {| o_kind := KClass; o_module := "rf"; o_name := "Linear" |} end;
     w_rf := [("Linear", 2)]%string; w_modules := [("my.mod", [("Layer", 1); ("relu", 3)]); ("rf", [("Linear", 4)])]%string |}.

(** A class inside of another one is stored by its name only: another class of this name is built instead, without an error. *)
Theorem C141_inner_refuted : exists w o o', o <> o' /\ buildable w o /\ buildable w o' /\
  forall (V : Type) (kw : @dict string (@arg V)), named_args kw -> exists d, build_dict w o kw = Ok d /\ build_from_dict w d [] [] = Ok (New o' [] kw).
Proof.
  exists ex_world, 0, 1. split; [discriminate|]. split; [discriminate|]. split; [discriminate|]. intros V kw Hk. rewrite (build_dict_eq ex_world 0 kw); [|discriminate|exact Hk]. eexists. split; [reflexivity|].
  rewrite (build_at ex_world _ 1) by reflexivity. cbn [o_kind w_obj ex_world]. rewrite merge_ok by (intros ? ? []). cbn [bind]. now rewrite app_nil_r.
Qed.
Print Assumptions C141_inner_refuted.

(** The same for a module of the user which is called rf. *)
Theorem C141_rf_refuted : exists w o o', o <> o' /\ buildable w o /\ dget (w_modules w) (o_module (w_obj w o)) = Some [(o_name (w_obj w o), o)] /\
  forall (V : Type) (kw : @dict string (@arg V)), named_args kw -> exists d, build_dict w o kw = Ok d /\ build_from_dict w d [] [] = Ok (New o' [] kw).
Proof.
  exists ex_world, 4, 2. split; [discriminate|]. split; [discriminate|]. split; [reflexivity|]. intros V kw Hk. rewrite (build_dict_eq ex_world 4 kw); [|discriminate|exact Hk]. eexists. split; [reflexivity|].
  rewrite (build_at ex_world _ 2) by reflexivity. cbn [o_kind w_obj ex_world]. rewrite merge_ok by (intros ? ? []). cbn [bind]. now rewrite app_nil_r.
Qed.
Print Assumptions C141_rf_refuted.

(** And an argument which is called class replaces the class, without an error. *)
Theorem C141_class_refuted : forall (V : Type) w o o', buildable w o -> accessible w o' -> o_kind (w_obj w o') = KClass ->
  exists d, build_dict (V := V) w o [("class"%string, Str (get_cls_name w o'))] = Ok d /\ build_from_dict w d [] [] = Ok (New o' [] []).
Proof.
  intros V w o o' Hb Ha Hk. unfold build_dict, buildable in *. destruct (o_kind (w_obj w o)) eqn:E; [| |congruence]; cbn; (eexists; split; [reflexivity|]); rewrite (build_at _ _ _ _ _ _ (get_cls_of_name w o' Ha)), Hk; reflexivity.
Qed.
Print Assumptions C141_class_refuted.

Example C141_ex : accessible ex_world 1 /\ accessible ex_world 2 /\ accessible ex_world 3 /\ ~ accessible ex_world 0 /\ named_args [("dim"%string, Val 5)] /\
  build_dict ex_world 2 [("dim"%string, Val 5)] = Ok [("class", Str "rf.Linear"); ("dim", Val 5)]%string /\
  build_dict ex_world 1 [("dim"%string, Val 5)] = Ok [("class", Str "my.mod.Layer"); ("dim", Val 5)]%string /\
  build_from_dict ex_world [("dim", Val 5); ("class", Str "my.mod.Layer")]%string [Val 1] [("b"%string, Val 2)] = Ok (New 1 [Val 1] [("dim", Val 5); ("b", Val 2)]%string) /\
  build_from_dict (V := nat) ex_world [("class", Str "my.mod.relu")]%string [] [] = Ok (Function 3) /\
  build_from_dict ex_world [("class", Str "my.mod.relu")]%string [Val 1] [] = Ok (Partial 3 [Val 1] []) /\
  build_from_dict (V := nat) ex_world [("class", Str "my.other.relu")]%string [] [] = Err OtherException.
Proof.
  assert (Hd : forall o, no_dot (o_name (w_obj ex_world o))) by (intros [|[|[|[|o]]]]; cbn; intuition discriminate).
  split; [split; [apply Hd|right; split; [discriminate|eexists; split; reflexivity]]|]. split; [split; [apply Hd|left; reflexivity]|]. split; [split; [apply Hd|right; split; [discriminate|eexists; split; reflexivity]]|].
  split; [intros [_ [H|(_ & a & H1 & H2)]]; [discriminate|cbn in H1; injection H1 as <-; discriminate]|]. split; [split; [repeat constructor; cbn; tauto|cbn; intuition discriminate]|]. repeat split; reflexivity.
Qed.
