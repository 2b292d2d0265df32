(** Properties of reductions over dims with sequence lengths (C95, C96). *)
From Coq Require Import QArith.
From Verif Require Import Base TensorModel TensorSpec MatmulModel MatmulSpec ReduceModel ReduceSpec ReduceProofs.
Local Open Scope nat_scope.

(** C95: a reduction over some dims gives the sum, the maximum, the minimum, the conjunction or the disjunction of exactly those entries that are before the end of the sequence in each
    reduced dim, whatever is in the padding, also where lengths depend on other dims with lengths. The entries must be in the range of the dtype. *)
Theorem C95_reduce : forall size dyn rank fuel lo hi source axis m,
  lengths_ok size dyn rank -> reducible size dyn source axis -> (forall d, In d axis -> rank (d_base d) < fuel) ->
  m <> MArgmax -> m <> MArgmin -> (picks m = true -> length axis = 1 \/ rest source axis = []) ->
  exists r, reduce fuel size dyn lo hi m source axis true = Ok r /\ well size r /\ dims r = rest source axis /\
    forall env, inside size env (rest source axis) -> (forall e, In e (places size (bases axis) env) -> settled dyn axis e) ->
      (picks m = true -> entries size dyn axis source env <> [] /\ forall y, In y (entries size dyn axis source env) -> (lo <= y <= hi)%Z) ->
      reduced m (entries size dyn axis source env) (value r env).
Proof. intros size dyn rank fuel lo hi source axis m Hok Hred Hf H1 H2. apply reduce_ok with (rank := rank); try assumption. destruct m; try reflexivity; congruence. Qed.
Print Assumptions C95_reduce.

(** C95: without a mask all entries count. *)
Theorem C95_no_mask : forall size dyn rank fuel lo hi source axis m,
  lengths_ok size dyn rank -> reducible size dyn source axis -> (forall d, In d axis -> rank (d_base d) < fuel) ->
  m <> MArgmax -> m <> MArgmin -> (picks m = true -> length axis = 1 \/ rest source axis = []) ->
  exists r, reduce fuel size dyn lo hi m source axis false = Ok r /\ well size r /\ dims r = rest source axis /\
    forall env, inside size env (rest source axis) -> reduced m (map (value source) (places size (bases axis) env)) (value r env).
Proof. intros size dyn rank fuel lo hi source axis m Hok Hred Hf H1 H2. apply reduce_unmasked with (rank := rank); try assumption. destruct m; try reflexivity; congruence. Qed.
Print Assumptions C95_no_mask.

(** C95: argmax gives the first index of a maximum, before the end of the sequence. *)
Theorem C95_argmax : forall size dyn rank fuel lo hi source d,
  lengths_ok size dyn rank -> reducible size dyn source [d] -> rank (d_base d) < fuel ->
  exists r, reduce fuel size dyn lo hi MArgmax source [d] true = Ok r /\ well size r /\ dims r = rest source [d] /\
    forall env, inside size env (rest source [d]) -> settled dyn [d] env ->
      let ok k := in_sequence dyn (with_index env (d_base d) k) (d_base d) in let val k := value source (with_index env (d_base d) k) in
      (exists k, k < size (d_base d) /\ ok k = true) -> (forall k, k < size (d_base d) -> ok k = true -> (lo <= val k)%Z) ->
      exists k, value r env = Z.of_nat k /\ first_best Z.le (size (d_base d)) ok val k.
Proof. intros. apply reduce_arg with (rank := rank) (v := lo); auto. Qed.
Print Assumptions C95_argmax.

(** C95: argmin, the same for a minimum. *)
Theorem C95_argmin : forall size dyn rank fuel lo hi source d,
  lengths_ok size dyn rank -> reducible size dyn source [d] -> rank (d_base d) < fuel ->
  exists r, reduce fuel size dyn lo hi MArgmin source [d] true = Ok r /\ well size r /\ dims r = rest source [d] /\
    forall env, inside size env (rest source [d]) -> settled dyn [d] env ->
      let ok k := in_sequence dyn (with_index env (d_base d) k) (d_base d) in let val k := value source (with_index env (d_base d) k) in
      (exists k, k < size (d_base d) /\ ok k = true) -> (forall k, k < size (d_base d) -> ok k = true -> (val k <= hi)%Z) ->
      exists k, value r env = Z.of_nat k /\ first_best (fun x y => (y <= x)%Z) (size (d_base d)) ok val k.
Proof. intros size dyn rank fuel lo hi source d Hok Hred Hf. apply (reduce_arg size dyn rank fuel lo hi source Hok MArgmin (fun x y => (y <= x)%Z) hi d); auto. Qed.
Print Assumptions C95_argmin.

(** * A batch of two sequences of lengths 3 and 1, with two features *)
Definition B := {| d_base := 0; d_copy := 0; d_prio := 0 |}.
Definition T := {| d_base := 1; d_copy := 0; d_prio := 0 |}.
Definition F := {| d_base := 2; d_copy := 0; d_prio := 0 |}.
Definition S := {| d_base := 3; d_copy := 0; d_prio := 0 |}.
Definition C := {| d_base := 4; d_copy := 0; d_prio := 0 |}.
Definition sizes (c : nat) : nat := match c with 0 => 2 | 1 => 3 | 2 => 2 | 3 => 2 | _ => 1 end.
(** the lengths of S depend on B and T: each frame of T has some frames of S; 9 is in the padding *)
Definition lens_T := {| dims := [B]; traw := {| shape := [2]; data := [3; 1]%Z |} |}.
Definition lens_S := {| dims := [B; T]; traw := {| shape := [2; 3]; data := [2; 0; 1; 2; 9; 9]%Z |} |}.
Definition lens (c : nat) : option tensor := match c with 1 => Some lens_T | 3 => Some lens_S | _ => None end.
Definition level (c : nat) : nat := match c with 1 => 1 | 3 => 2 | _ => 0 end.
Definition x := {| dims := [B; T; F]; traw := {| shape := [2; 3; 2]; data := [1; 2; 3; 4; 5; 6; 7; 8; 90; 91; 92; 93]%Z |} |}.
Lemma lens_ok : lengths_ok sizes lens level.
Proof.
  split.
  - intros [|[|[|[|c]]]] t; cbn; try discriminate; intros [= <-]; (split; [reflexivity|]); (split; [reflexivity|]); cbn; repeat constructor; cbn; intuition congruence.
  - intros [|[|[|[|c]]]] t env; cbn; try discriminate; intros [= <-]; discriminate.
  - intros [|[|[|[|c]]]] t y; cbn; try discriminate; intros [= <-]; cbn; intros H; repeat destruct H as [<-|H]; try destruct H; cbn; lia.
Qed.
Lemma x_ok axis : NoDup (bases axis) -> axis <> [] -> incl axis [B; T; F] -> reducible sizes lens x axis.
Proof.
  intros Hn Hne Hi. assert (Hb : incl (bases axis) [0; 1; 2]) by (intros c Hc; apply in_map_iff in Hc as (d & <- & Hd); apply Hi in Hd; cbn in *; intuition (subst; cbn; auto)). split.
  - split; [reflexivity|]. split; [reflexivity|]. cbn. repeat constructor; cbn; intuition congruence.
  - auto.
  - intros c t Hc Et. apply Hb in Hc. cbn in Hc. repeat destruct Hc as [<-|Hc]; try destruct Hc; cbn in Et; try discriminate. injection Et as <-. cbn. intros y Hy. cbn in *. intuition.
  - intros c Hc. cbn in Hc. repeat destruct Hc as [<-|Hc]; try destruct Hc; cbn; lia.
Qed.
Example sum_time : reduce 5 sizes lens (-1000) 1000 MSum x [T] true = Ok {| dims := [B; F]; traw := {| shape := [2; 2]; data := [9; 12; 7; 8]%Z |} |}.
Proof. vm_compute. reflexivity. Qed.
Example max_time : reduce 5 sizes lens (-1000) 1000 MMax x [T] true = Ok {| dims := [B; F]; traw := {| shape := [2; 2]; data := [5; 6; 7; 8]%Z |} |}.
Proof. vm_compute. reflexivity. Qed.
Example sum_all : reduce 5 sizes lens (-1000) 1000 MSum x [T; B; F] true = Ok {| dims := []; traw := {| shape := []; data := [36%Z] |} |}.
Proof. vm_compute. reflexivity. Qed.
Example argmax_time : reduce 5 sizes lens (-1000) 1000 MArgmax x [T] true = Ok {| dims := [B; F]; traw := {| shape := [2; 2]; data := [2; 2; 0; 0]%Z |} |}.
Proof. vm_compute. reflexivity. Qed.
Example x_reducible : reducible sizes lens x [T].
Proof. apply x_ok; [cbn; repeat constructor; intros []|discriminate|intros d [<-|[]]; cbn; auto]. Qed.
Example x_entries : entries sizes lens [T] x (fun _ => 1) = [8%Z].
Proof. vm_compute. reflexivity. Qed.

(** C95: the entries must not be below the lowest finite number: with -inf (here -2000, where the lowest number is -1000) the maximum of a sequence is the value of the padding. *)
Theorem C95_minus_infinity_refuted :
  exists size dyn rank fuel lo hi source axis r env, lengths_ok size dyn rank /\ reducible size dyn source axis /\ (forall d, In d axis -> rank (d_base d) < fuel) /\ length axis = 1 /\
    reduce fuel size dyn lo hi MMax source axis true = Ok r /\ inside size env (rest source axis) /\ settled dyn axis env /\ entries size dyn axis source env = [-2000]%Z /\ ~ reduced MMax (entries size dyn axis source env) (value r env).
Proof.
  exists sizes, lens, level, 5, (-1000)%Z, 1000%Z, {| dims := [B; T; F]; traw := {| shape := [2; 3; 2]; data := [1; 2; 3; 4; 5; 6; 7; -2000; 90; 91; 92; 93]%Z |} |}, [T]. eexists. exists (fun _ => 1).
  split; [exact lens_ok|]. split; [destruct x_reducible as [a b c d]; split; [split; [reflexivity|split; [reflexivity|exact (proj2 (proj2 a))]]|exact b|exact c|exact d]|].
  split; [intros d [<-|[]]; cbn; lia|]. split; [reflexivity|]. split; [vm_compute; reflexivity|]. split; [repeat constructor|]. split; [intros c t y [<-|[]] [= <-] [<-|[]] _; reflexivity|]. split; [vm_compute; reflexivity|].
  vm_compute. intros [[H|[]] _]. discriminate.
Qed.
Print Assumptions C95_minus_infinity_refuted.

(** C95: argmax over all dims gives an index into all entries, but it is declared to be an index of the first of the dims. *)
Theorem C95_argmax_all_refuted :
  exists size dyn rank fuel lo hi source d axis r, lengths_ok size dyn rank /\ reducible size dyn source (d :: axis) /\
    reduce fuel size dyn lo hi MArgmax source (d :: axis) true = Ok r /\ forall env, (Z.of_nat (size (d_base d)) <= value r env)%Z.
Proof.
  exists sizes, lens, level, 5, (-1000)%Z, 1000%Z, x, B, [T; F]. eexists. split; [exact lens_ok|]. split; [apply x_ok; [cbn; repeat constructor; cbn; intuition congruence|discriminate|apply incl_refl]|]. split; [vm_compute; reflexivity|].
  intros env. vm_compute. discriminate.
Qed.
Print Assumptions C95_argmax_all_refuted.

(** C95: a maximum over more than one dim is not possible if other dims remain. *)
Theorem C95_max_of_two_refuted :
  exists size dyn rank fuel lo hi source axis, lengths_ok size dyn rank /\ reducible size dyn source axis /\ (forall d, In d axis -> rank (d_base d) < fuel) /\
    reduce fuel size dyn lo hi MMax source axis true = Err TypeError.
Proof.
  exists sizes, lens, level, 5, (-1000)%Z, 1000%Z, x, [B; T]. split; [exact lens_ok|]. split; [apply x_ok; [cbn; repeat constructor; cbn; intuition congruence|discriminate|intros d [<-|[<-|[]]]; cbn; auto]|].
  split; [intros d [<-|[<-|[]]]; cbn; lia|vm_compute; reflexivity].
Qed.
Print Assumptions C95_max_of_two_refuted.

(** C96: the number of elements of some dims, with their lengths. *)
Theorem C96_num_elements : forall size dyn rank fuel ds,
  lengths_ok size dyn rank -> countable size dyn ds -> ds <> [] -> (forall d, In d ds -> rank (d_base d) < fuel) ->
  exists r, num_elements fuel size dyn ds = Ok r /\ well size r /\ (forall c, In c (bases (dims r)) -> ~ In c (bases ds)) /\
    forall env, inside size env (dims r) -> settled_outside dyn ds env -> value r env = Z.of_nat (elements size dyn ds env).
Proof.
  intros size dyn rank fuel ds Hok Hcnt Hne Hf. destruct (num_ok size dyn rank fuel Hok ds Hcnt Hne Hf) as (r & E & Hw & Hc & Hv). exists r. split; [exact E|]. split; [exact Hw|]. split; [intros c H; apply Hc, H|exact Hv].
Qed.
Print Assumptions C96_num_elements.

(** C96: the mean is the sum of the entries that count, divided by their number. *)
Theorem C96_mean : forall size dyn rank fuel source axis,
  lengths_ok size dyn rank -> reducible size dyn source axis -> countable size dyn axis -> (forall d, In d axis -> rank (d_base d) < fuel) ->
  exists q, reduce_mean fuel size dyn source axis true = Ok q /\ q_dims q = rest source axis /\
    forall env, inside size env (rest source axis) -> settled_outside dyn axis env -> 0 < elements size dyn axis env ->
      (fraction size q env == inject_Z (fold_right Z.add 0%Z (entries size dyn axis source env)) / inject_Z (Z.of_nat (elements size dyn axis env)))%Q.
Proof. exact mean_ok. Qed.
Print Assumptions C96_mean.

Lemma lens_range c t env : lens c = Some t -> inside sizes env (dims t) -> c = 1 -> (0 <= value t env <= Z.of_nat (sizes c))%Z.
Proof. intros E Hi ->. cbn in E. injection E as <-. apply Forall_inv in Hi. cbn in Hi. unfold value. cbn. destruct (env 0) as [|[|k]]; cbn; lia. Qed.
Example batch_time : countable sizes lens [B; T].
Proof.
  split.
  - cbn. repeat constructor; cbn; intuition congruence.
  - intros c t env [<-|[<-|[]]] E Hi; [discriminate|]. apply (lens_range 1 t env E Hi eq_refl).
  - intros c1 c2 t1 t2 [<-|[<-|[]]] [<-|[<-|[]]] E1 E2; try discriminate. left. cbn in *. congruence.
  - intros c t y [<-|[<-|[]]] E Hy; [discriminate|]. injection E as <-. cbn in Hy. destruct Hy as [<-|[]]. cbn. lia.
Qed.
Example num_batch_time : num_elements 5 sizes lens [B; T] = Ok (scalar 4).
Proof. vm_compute. reflexivity. Qed.
Example num_nested : num_elements 5 sizes lens [B; T; S] = Ok (scalar 5).
Proof. vm_compute. reflexivity. Qed.
Example num_nested_count : elements sizes lens [B; T; S] (fun _ => 0) = 5.
Proof. vm_compute. reflexivity. Qed.
Example mean_batch_time : exists q, reduce_mean 5 sizes lens x [B; T] true = Ok q /\ (fraction sizes q (fun _ => 0%nat) == 16 # 4)%Q.
Proof. eexists. split; vm_compute; reflexivity. Qed.

(** C96: dims whose lengths depend on different dims are refused. *)
Definition two_lens (c : nat) : option tensor :=
  match c with 1 => Some lens_T | 3 => Some {| dims := [C]; traw := {| shape := [1]; data := [2%Z] |} |} | _ => None end.
Theorem C96_separate_lengths_refuted :
  exists size dyn rank fuel ds, lengths_ok size dyn rank /\ NoDup (bases ds) /\ (forall d, In d ds -> rank (d_base d) < fuel) /\ num_elements fuel size dyn ds = Err ValueError.
Proof.
  exists sizes, two_lens, level, 5, [T; S]. split; [|split; [cbn; repeat constructor; cbn; intuition congruence|split; [intros d [<-|[<-|[]]]; cbn; lia|vm_compute; reflexivity]]]. split.
  - intros [|[|[|[|c]]]] t; cbn; try discriminate; intros [= <-]; (split; [reflexivity|]); (split; [reflexivity|]); cbn; repeat constructor; cbn; intuition congruence.
  - intros [|[|[|[|c]]]] t env; cbn; try discriminate; intros [= <-]; discriminate.
  - intros [|[|[|[|c]]]] t y; cbn; try discriminate; intros [= <-]; cbn; intros H; repeat destruct H as [<-|H]; try destruct H; cbn; lia.
Qed.
Print Assumptions C96_separate_lengths_refuted.
