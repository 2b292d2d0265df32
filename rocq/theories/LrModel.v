(** Model of returnn/learning_rate_control.py.

    Simplifications: floats are rational numbers (no rounding, no inf and nan); printing is left out. [EpochData] checks that its learning rate is a float, so
    the branches for a missing learning rate (323, 556, 599, 651) are never taken and left out. *)
From Coq Require Import Ascii String QArith Qabs.
From Verif Require Import Base PyDict PySort.
Local Open Scope list_scope.

(** python [a < b] *)
Definition Qlt_bool (a b : Q) : bool := negb (Qle_bool b a).

(** /repo/returnn/learning_rate_control.py:24-69 *)
Record epoch_data := mk_data { d_lr : Q; d_error : dict string Q }.

(** A factor, a function, or nothing. /repo/returnn/learning_rate_control.py:185-200 *)
Inductive update := NoUpdate | Factor (q : Q) | Func (f : Q -> Q).
Definition calc_update (lr : Q) (u : update) : Q :=
  match u with NoUpdate => lr | Factor q => lr * q | Func f => f lr end.

(** [learning_rate_control_type]; with the own options of each class. /repo/returnn/learning_rate_control.py:537-770 *)
Inductive kind :=
| Constant
| NewbobRelative (threshold : Q)
| NewbobAbs (threshold : Q)
| NewbobMultiEpoch (num_epochs update_interval : nat) (threshold grow_threshold : Q).

(** The options, and the state [c_data]. [c_key]: [Some [k]] for a string [k], [Some l] for a list. /repo/returnn/learning_rate_control.py:116-169 *)
Record control := mk_control {
  c_kind : kind; c_default : Q; c_min : Q; c_key : option (list string); c_relative_lr : bool; c_min_num : nat; c_div_by_old : bool;
  c_decay : update; c_growth : update; c_data : dict Z epoch_data }.
Definition with_data (c : control) (d : dict Z epoch_data) : control :=
  mk_control (c_kind c) (c_default c) (c_min c) (c_key c) (c_relative_lr c) (c_min_num c) (c_div_by_old c) (c_decay c) (c_growth c) d.

(** /repo/returnn/learning_rate_control.py:218-237 *)
Definition decay_or_grow (c : control) (lr : Q) (decay : bool) (grow : option bool) : res Q :=
  let grow := match grow with Some g => g | None => negb decay end in
  let* _ := assert_ (negb (grow && decay)) in
  let lr := if decay then (let lr := calc_update lr (c_decay c) in if Qlt_bool lr (c_min c) then c_min c else lr) else lr in
  Ok (if grow then calc_update lr (c_growth c) else lr).

(** The sorted epochs with data before [epoch]. /repo/returnn/learning_rate_control.py:270,305 *)
Definition epochs_before (d : dict Z epoch_data) (epoch : Z) : list Z :=
  stable_sort_by (fun e => e) (filter (fun e => (e <? epoch)%Z) (dkeys d)).
(** python [l[-n:]] *)
Definition last_n {A} (n : nat) (l : list A) : list A := match n with O => l | _ => skipn (length l - n) l end.
(** /repo/returnn/learning_rate_control.py:263-274 *)
Definition last_epochs_for_epoch (d : dict Z epoch_data) (epoch : Z) (n : nat) : list Z := last_n n (epochs_before d epoch).
(** /repo/returnn/learning_rate_control.py:299-308 *)
Definition get_last_epoch (d : dict Z epoch_data) (epoch : Z) : option Z := last (map Some (epochs_before d epoch)) None.
Definition lr_of (d : dict Z epoch_data) (epoch : Z) : option Q := option_map d_lr (dget d epoch).

(** /repo/returnn/learning_rate_control.py:310-326 *)
Definition get_most_recent_lr (c : control) (epoch : Z) (exclude_current : bool) : Q :=
  match get_last_epoch (c_data c) (if exclude_current then epoch else epoch + 1)%Z with
  | Some e => match lr_of (c_data c) e with Some lr => lr | None => c_default c end
  | None => c_default c
  end.

(** Strings in python's order (for ASCII). *)
Fixpoint insert_string (x : string) (l : list string) : list string :=
  match l with [] => [x] | y :: l' => if String.leb x y then x :: l else y :: insert_string x l' end.
Definition sort_strings (l : list string) : list string := fold_right insert_string [] l.

(** /repo/returnn/learning_rate_control.py:379-419 *)
Local Open Scope string_scope.
Definition get_error_key (c : control) (epoch : Z) : option string :=
  match dget (c_data c) epoch with
  | None => match c_key c with Some (k :: _) => Some k | _ => None end
  | Some ed =>
      let error := d_error ed in
      let names := sort_strings (dkeys error) in
      if match error with [] => true | _ => false end then None
      else if (List.length error =? 1)%nat && dhas error "old_format_score" then Some "old_format_score"
      else
        let keys := List.app (match c_key c with Some ks => flat_map (fun k => [k; k ++ "_output"]) ks | None => [] end) ["dev_score"; "dev_score_output"] in
        match find (dhas error) keys with
        | Some k => Some k
        | None =>
        match find (fun k => String.eqb k "dev_score_output/output" || String.prefix "dev_score_output/output_" k) names with
        | Some k => Some k
        | None =>
        match find (String.prefix "dev_score_output/") names with
        | Some k => Some k
        | None =>
        match find (String.prefix "dev_") names with
        | Some k => Some k
        | None =>
        match find (dhas error) ["train_score"; "train_score_output"] with
        | Some k => Some k
        | None => hd_error names
        end end end end end
  end.
Local Close Scope string_scope.

(** [get_epoch_error_key_value]; [None] for (None, None). /repo/returnn/learning_rate_control.py:421-428, 449-466 *)
Definition error_key_value (c : control) (epoch : Z) : res (option (string * Q)) :=
  match dget (c_data c) epoch with
  | None => Ok None
  | Some ed =>
      match d_error ed with
      | [] => Ok None
      | _ =>
          match get_error_key c epoch with
          | None => Err AssertionError
          | Some key =>
              let* _ := assert_ (negb (String.eqb key ""%string)) in
              match dget (d_error ed) key with None => Err AssertionError | Some v => Ok (Some (key, v)) end
          end
      end
  end.

(** python [a / b] *)
Definition pydiv (a b : Q) : res Q := if Qeq_bool b 0 then Err ZeroDivisionError else Ok (a / b)%Q.

(** /repo/returnn/learning_rate_control.py:328-351 *)
Definition calc_relative_error (c : control) (old new : Z) : res (option Q) :=
  let* o := error_key_value c old in
  let* n := error_key_value c new in
  match o, n with
  | Some (old_key, old_error), Some (new_key, new_error) =>
      if negb (String.eqb old_key new_key) then Ok None
      else
        let* r := pydiv (new_error - old_error) (Qabs (if c_div_by_old c then old_error else new_error)) in
        if c_relative_lr c then
          let lr := get_most_recent_lr c new false in
          if Qlt_bool 0 lr then
            let* f := pydiv lr (c_default c) in
            let* r' := pydiv r f in Ok (Some r')
          else Ok (Some r)
        else Ok (Some r)
  | _, _ => Ok None
  end.

(** /repo/returnn/learning_rate_control.py:707-732 *)
Fixpoint relative_errors (c : control) (epochs : list Z) : res (list (option Q)) :=
  match epochs with
  | a :: rest => match rest with b :: _ => let* e := calc_relative_error c a b in let* es := relative_errors c rest in Ok (e :: es) | [] => Ok [] end
  | [] => Ok []
  end.
Fixpoint all_some {A} (l : list (option A)) : option (list A) :=
  match l with [] => Some [] | None :: _ => None | Some x :: l' => option_map (cons x) (all_some l') end.
Definition mean (l : list Q) : Q := (fold_right Qplus 0 l / inject_Z (Z.of_nat (length l)))%Q.
Definition recent_mean_relative_error (c : control) (n : nat) (epoch : Z) : res (option Q) :=
  let epochs := last_epochs_for_epoch (c_data c) epoch (n + 1) in
  if length epochs <=? 1 then Ok None
  else let* es := relative_errors c epochs in Ok (option_map mean (all_some es)).

(** The [calc_learning_rate_for_epoch] of the classes. /repo/returnn/learning_rate_control.py:544-559, 588-610, 639-664, 734-753 *)
Definition calc_lr (c : control) (epoch : Z) : res Q :=
  let d := c_data c in
  match c_kind c with
  | Constant =>
      Ok (match get_last_epoch d epoch with Some e => match lr_of d e with Some lr => lr | None => c_default c end | None => c_default c end)
  | NewbobRelative threshold =>
      match get_last_epoch d epoch with
      | None => Ok (c_default c)
      | Some e =>
          let lr := match lr_of d e with Some lr => lr | None => c_default c end in
          match get_last_epoch d e with
          | None => Ok lr
          | Some e2 =>
              let* r := calc_relative_error c e2 e in
              match r with None => Ok lr | Some r => decay_or_grow c lr (Qlt_bool threshold r) None end
          end
      end
  | NewbobAbs threshold =>
      match get_last_epoch d epoch with
      | None => Ok (c_default c)
      | Some e =>
          let lr := match lr_of d e with Some lr => lr | None => c_default c end in
          match get_last_epoch d e with
          | None => Ok lr
          | Some e2 =>
              let* o := error_key_value c e2 in
              let* n := error_key_value c e in
              match o, n with
              | Some (old_key, old_error), Some (new_key, new_error) =>
                  if negb (String.eqb old_key new_key) then Ok lr
                  else decay_or_grow c lr (Qlt_bool threshold (new_error - old_error)) None
              | _, _ => Ok lr
              end
          end
      end
  | NewbobMultiEpoch n interval threshold grow_threshold =>
      let lr := get_most_recent_lr c epoch true in
      if (1 <? interval) && negb (epoch mod Z.of_nat interval =? 1)%Z then Ok lr
      else
        let* r := recent_mean_relative_error c n epoch in
        match r with None => Ok lr | Some r => decay_or_grow c lr (Qlt_bool threshold r) (Some (Qlt_bool r grow_threshold)) end
  end.

(** [len(set(l)) >= 2] *)
Definition has_different (l : list Q) : bool := match l with [] => false | x :: l' => existsb (fun y => negb (Qeq_bool x y)) l' end.
Definition lrs_of (d : dict Z epoch_data) (es : list Z) : list Q := flat_map (fun e => match lr_of d e with Some lr => [lr] | None => [] end) es.

(** /repo/returnn/learning_rate_control.py:247-261 *)
Definition calc_new_lr (c : control) (epoch : Z) : res Q :=
  let last_lrs := lrs_of (c_data c) (last_epochs_for_epoch (c_data c) epoch (c_min_num c)) in
  if (1 <? c_min_num c) && (has_different last_lrs || ((0 <? length last_lrs) && (length last_lrs <? c_min_num c))) then Ok (last last_lrs 0)
  else calc_lr c epoch.

(** /repo/returnn/learning_rate_control.py:288-297 *)
Definition set_default_lr (d : dict Z epoch_data) (epoch : Z) (lr : Q) : dict Z epoch_data :=
  match dget d epoch with
  | Some ed => if Qeq_bool (d_lr ed) 0 then dset d epoch (mk_data lr (d_error ed)) else d
  | None => dset d epoch (mk_data lr [])
  end.

(** /repo/returnn/learning_rate_control.py:276-286 *)
Definition get_lr (c : control) (epoch : Z) : res (Q * control) :=
  let* _ := assert_ (1 <=? epoch)%Z in
  match lr_of (c_data c) epoch with
  | Some lr => Ok (lr, c)
  | None => let* lr := calc_new_lr c epoch in Ok (lr, with_data c (set_default_lr (c_data c) epoch lr))
  end.

(** /repo/returnn/learning_rate_control.py:361-374: flattening the scores. The values of a dict of two or more outputs get the name of the output after the first colon. *)
Inductive score := Value (q : Q) | PerOutput (outs : list (string * Q)).
Fixpoint after_colon (s : string) : option string :=
  match s with
  | EmptyString => None
  | String c s' => if Ascii.eqb c ":"%char then Some s' else after_colon s'
  end.
Definition flatten1 (error : dict string Q) (kv : string * score) : dict string Q :=
  let '(k, v) := kv in
  match v with
  | Value _ => error
  | PerOutput [(_, q)] => dset (ddel error k) k q
  | PerOutput outs =>
      fold_left (fun error kv => dset error (k ++ "_" ++ match after_colon (fst kv) with Some s => s | None => fst kv end)%string (snd kv)) outs (ddel error k)
  end.
(** First the plain values, which are there from the start; then the loop. (The keys with dicts as values are not in [error] here before the loop deletes them.) *)
Definition flatten (scores : list (string * score)) : dict string Q :=
  fold_left flatten1 scores (fold_left (fun d kv => match snd kv with Value q => dset d (fst kv) q | _ => d end) scores []).
Definition dict_update (d d' : dict string Q) : dict string Q := fold_left (fun d kv => dset d (fst kv) (snd kv)) d' d.
(** /repo/returnn/learning_rate_control.py:353-377 *)
Definition set_epoch_error (c : control) (epoch : Z) (scores : list (string * score)) : res control :=
  let* c := match dget (c_data c) epoch with Some _ => Ok c | None => let* p := get_lr c epoch in Ok (snd p) end in
  match dget (c_data c) epoch with
  | None => Err KeyError
  | Some ed => Ok (with_data c (dset (c_data c) epoch (mk_data (d_lr ed) (dict_update (d_error ed) (flatten scores)))))
  end.

(** A training asks for learning rates and reports scores, in any order. *)
Inductive op := GetLr (epoch : Z) | SetError (epoch : Z) (scores : list (string * score)).
Definition exec (c : control) (o : op) : res control :=
  match o with GetLr e => let* p := get_lr c e in Ok (snd p) | SetError e s => set_epoch_error c e s end.
Fixpoint run (c : control) (ops : list op) : res control :=
  match ops with [] => Ok c | o :: ops' => let* c' := exec c o in run c' ops' end.
(** The new controller without a file: only the given learning rates are in the data. /repo/returnn/learning_rate_control.py:140-169 *)
Definition init (c : control) (learning_rates : list (Z * Q)) : control :=
  with_data c (fold_left (fun d ev => set_default_lr d (fst ev) (snd ev)) learning_rates []).

(** python [min] of pairs *)
Definition pair_lt (a b : Q * Z) : bool := Qlt_bool (fst a) (fst b) || (Qeq_bool (fst a) (fst b) && (snd a <? snd b)%Z).
Definition min_pair (x : Q * Z) (l : list (Q * Z)) : Q * Z := fold_left (fun m y => if pair_lt y m then y else m) l x.

Definition zrange (a b : Z) : list Z := map (fun i => a + Z.of_nat i)%Z (seq 0 (Z.to_nat (b - a))).

(** [get_last_best_epoch]; [filter_score = None] stands for inf. /repo/returnn/learning_rate_control.py:468-507 *)
Definition get_last_best_epoch (c : control) (last_epoch first_epoch : Z) (only_last_epochs : option Z) (filter_score : option Q) (only_last_n : Z) (min_score_dist : Q)
  : res (option Z) :=
  let first_epoch := match only_last_epochs with Some n => if (n =? 0)%Z then first_epoch else Z.max first_epoch (last_epoch - n + 1) | None => first_epoch end in
  if (last_epoch <? first_epoch)%Z then Ok None
  else
    let* values := mapM (fun ep => let* kv := error_key_value c ep in Ok (kv, ep)) (zrange first_epoch (last_epoch + 1)) in
    let values := flat_map (fun x => match fst x with Some (k, v) => [(k, v, snd x)] | None => [] end) values in
    match last (map Some values) None with
    | None => Ok None
    | Some (last_key, latest_score, _) =>
        let values := filter (fun x => let '(k, v, _) := x in String.eqb k last_key) values in
        let values := map (fun x => let '(k, v, ep) := x in (v, ep)) values in
        let values := filter (fun x => match filter_score with Some s => Qle_bool (fst x) s | None => true end) values in
        let values := if (1 <=? only_last_n)%Z then last_n (Z.to_nat only_last_n) values else values in
        let values := filter (fun x => Qlt_bool (fst x + min_score_dist) latest_score) values in
        match values with
        | [] => Ok None
        | x :: l => Ok (Some (snd (min_pair x l)))
        end
    end.
