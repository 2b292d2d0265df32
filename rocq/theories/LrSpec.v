(** What learning rate control should do. *)
From Coq Require Import Ascii String QArith Qabs Sorted.
From Verif Require Import Base PyDict LrModel.
Local Open Scope list_scope.

(** [e] is the last epoch before [epoch] with data. *)
Definition last_before (d : dict Z epoch_data) (epoch e : Z) : Prop :=
  In e (dkeys d) /\ (e < epoch)%Z /\ forall e', In e' (dkeys d) -> (e' < epoch)%Z -> (e' <= e)%Z.
(** The learning rate of the last epoch before [epoch], or the default one if there is none. *)
Definition previous_lr (c : control) (epoch : Z) (lr : Q) : Prop :=
  (exists e ed, last_before (c_data c) epoch e /\ dget (c_data c) e = Some ed /\ lr = d_lr ed) \/
  ((forall e, In e (dkeys (c_data c)) -> (epoch <= e)%Z) /\ lr = c_default c).

(** The growth never goes below the minimum, from above. *)
Definition growth_keeps_min (c : control) : Prop := forall lr, (c_min c <= lr)%Q -> (c_min c <= calc_update lr (c_growth c))%Q.

(** An epoch with its score, for the choice of the best epoch: [(key, value, epoch)]. *)
Definition scored (c : control) (ep : Z) (key : string) (v : Q) : Prop := error_key_value c ep = Ok (Some (key, v)).
(** [ep] is in the range, has a score, and no later epoch in the range has one. *)
Definition latest (c : control) (first last ep : Z) (key : string) (v : Q) : Prop :=
  (first <= ep <= last)%Z /\ scored c ep key v /\ forall ep', (ep < ep' <= last)%Z -> error_key_value c ep' = Ok None.
(** [ep] is in the range, and its score is of the given kind and not above the filter. *)
Definition candidate (c : control) (first last : Z) (key : string) (filter_score : option Q) (ep : Z) (v : Q) : Prop :=
  (first <= ep <= last)%Z /\ scored c ep key v /\ match filter_score with Some s => (v <= s)%Q | None => True end.
(** [ep] is among the last [n] candidates. *)
Definition among_last (c : control) (first last : Z) (key : string) (filter_score : option Q) (n : Z) (ep : Z) : Prop :=
  (n < 1)%Z \/ exists later, NoDup later /\ (Z.of_nat (List.length later) < n)%Z /\ forall ep' v', (ep < ep')%Z -> candidate c first last key filter_score ep' v' -> In ep' later.
(** The first epoch of the considered range. *)
Definition first_considered (last first : Z) (only_last_epochs : option Z) : Z :=
  match only_last_epochs with
  | Some n => if (n =? 0)%Z then first else Z.max first (last - n + 1)
  | None => first
  end.

(** The last [n] epochs with data before [epoch], in order (all of them if there are less). *)
Definition recent_epochs (d : dict Z epoch_data) (epoch : Z) (n : nat) (es : list Z) : Prop :=
  StronglySorted Z.lt es /\ (List.length es <= n)%nat /\ (forall e, In e es -> In e (dkeys d) /\ (e < epoch)%Z) /\
  forall e', In e' (dkeys d) -> (e' < epoch)%Z -> ~ In e' es -> List.length es = n /\ forall e, In e es -> (e' < e)%Z.

(** The relative change of the score from epoch [a] to epoch [b]: relative to the new or the old score, and if wanted also relative to how much lower the learning rate is than the default one. *)
Definition change_between (c : control) (key : string) (a b : Z) (x : Q) : Prop :=
  exists old new ed, scored c a key old /\ scored c b key new /\ dget (c_data c) b = Some ed /\
    let base := if c_div_by_old c then old else new in
    let r := ((new - old) / Qabs base)%Q in
    ~ (base == 0)%Q /\
    ((c_relative_lr c = true /\ (0 < d_lr ed)%Q /\ ~ (c_default c == 0)%Q /\ x = r / (d_lr ed / c_default c)) \/
     ((c_relative_lr c = false \/ (d_lr ed <= 0)%Q) /\ x = r))%Q.
(** All changes from one epoch to the next. *)
Inductive changes (c : control) (key : string) : list Z -> list Q -> Prop :=
| changes_last e : changes c key [e] []
| changes_next a b es x xs : change_between c key a b x -> changes c key (b :: es) xs -> changes c key (a :: b :: es) (x :: xs).
Definition average (l : list Q) : Q := (fold_right Qplus 0 l / inject_Z (Z.of_nat (List.length l)))%Q.
(** Above the threshold: decay, clipped to the minimum. Below the grow threshold: grow. Otherwise: keep. *)
Definition decide (c : control) (prev threshold grow_threshold x : Q) : Q :=
  if Qlt_le_dec threshold x
  then (if Qlt_le_dec (calc_update prev (c_decay c)) (c_min c) then c_min c else calc_update prev (c_decay c))
  else if Qlt_le_dec x grow_threshold then calc_update prev (c_growth c) else prev.

(** A name that has no colon. *)
Definition no_colon (s : string) : Prop := ~ In ":"%char (list_ascii_of_string s).

(** Which score counts, best kind first: the configured ones (also with "_output" after it), the score on the dev set (also per output), any other on the dev set, the train score, any. *)
Definition score_kinds (c : control) : list (string -> bool) :=
  map (fun k n => String.eqb n k)
      (match c_key c with Some ks => flat_map (fun k => [k; k ++ "_output"])%string ks | None => [] end ++ ["dev_score"; "dev_score_output"]%string)
  ++ [(fun n => String.eqb n "dev_score_output/output" || String.prefix "dev_score_output/output_" n);
      String.prefix "dev_score_output/"; String.prefix "dev_"; String.eqb "train_score"; String.eqb "train_score_output"; (fun _ => true)].
(** [k] is one of [names], of the best kind that occurs among them, and of these the first in the order of strings. *)
Definition preferred (kinds : list (string -> bool)) (names : list string) (k : string) : Prop :=
  In k names /\ exists before kind after, kinds = before ++ kind :: after /\ kind k = true
    /\ (forall other n, In other before -> In n names -> other n = false)
    /\ (forall n, In n names -> kind n = true -> String.leb k n = true).
