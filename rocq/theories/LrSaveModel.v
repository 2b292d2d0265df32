(** Model of saving and loading the learning rate file: /repo/returnn/learning_rate_control.py:24-77 (EpochData), 140-146, 509-534.

    Simplifications: the file system is a file and a temporary file next to it; a killed process leaves any prefix of what it has written (the order of the writes is kept, there is no power failure);
    [os.rename] is atomic (POSIX); one process uses the file at a time (returnn/torch/engine.py:560: only the first worker saves). *)
From Coq Require Import Ascii String.
From Verif Require Import Base PyDict ReprModel.
Local Open Scope string_scope. Local Open Scope nat_scope. Local Open Scope list_scope.

(** /repo/returnn/learning_rate_control.py:54,68-69 *)
Record epoch := mk_epoch { e_lr : pyv; e_error : dict string pyv; e_meta : dict string pyv }.
Definition meta_prefix : string := ":meta:".
(** python [s[len(p):] if s.startswith(p)] *)
Fixpoint strip (p s : string) : option string :=
  match p, s with
  | ""%string, _ => Some s
  | String a p', String b s' => if Ascii.eqb a b then strip p' s' else None
  | _, _ => None
  end.
Definition is_float (v : pyv) : bool := match v with VFloat _ | VInf | VNegInf | VNan => true | _ => false end.
Definition str_key (kv : key * pyv) : res (string * pyv) := match fst kv with KStr s => Ok (s, snd kv) | KInt _ => Err OtherException end.
(** EpochData.__init__, called with [learningRate] and [error]. /repo/returnn/learning_rate_control.py:31-69 *)
Definition make_epoch (lr error : pyv) : res epoch :=
  let* _ := (if is_float lr then Ok tt else Err TypeError) in
  let* error := (match error with
                 | VNone => Ok []
                 | VDict d => mapM str_key d
                 | _ => if is_float error then Ok [("old_format_score"%string, error)] else Err TypeError
                 end) in
  let meta := flat_map (fun kv => match strip meta_prefix (fst kv) with Some k => [(k, snd kv)] | None => [] end) error in
  let error := filter (fun kv => match strip meta_prefix (fst kv) with Some _ => false | None => true end) error in
  Ok (mk_epoch lr error meta).
(** python [d.update(d')]. /repo/returnn/util/basic.py:1230-1239 *)
Definition dict_joined (d d' : dict string pyv) : dict string pyv := fold_left (fun d kv => dset d (fst kv) (snd kv)) d' d.
(** EpochData.__repr__, before printing. /repo/returnn/learning_rate_control.py:71-77 *)
Definition epoch_value (e : epoch) : pyv :=
  VCall (e_lr e) (VDict (map (fun kv => (KStr (fst kv), snd kv)) (dict_joined (e_error e) (map (fun kv => ((meta_prefix ++ fst kv)%string, snd kv)) (e_meta e))))).
(** The text of the file. /repo/returnn/learning_rate_control.py:524-525 *)
Definition text_of (data : dict Z epoch) : res string :=
  let* t := better_repr (VDict (map (fun ne => (KInt (fst ne), epoch_value (snd ne))) data)) in Ok (t ++ newline)%string.
(** /repo/returnn/learning_rate_control.py:529-534 *)
Definition load_entry (kv : key * pyv) : res (Z * epoch) :=
  match kv with
  | (KInt n, VCall lr error) => let* e := make_epoch lr error in Ok (n, e)
  | _ => Err OtherException
  end.
Definition load (text : string) : res (dict Z epoch) :=
  let* v := eval text in
  match v with VDict d => mapM load_entry d | _ => Err OtherException end.

(** The file [learning_rate_file], the temporary file, and the process. *)
Record disk := mk_disk { d_file : option string; d_tmp : option string }.
Inductive process :=
| Down
| Idle (data : dict Z epoch)
| Saving (data : dict Z epoch) (written rest : string).
(** What can be seen from the outside. *)
Inductive event := Loaded (data : dict Z epoch) | Saved (data : dict Z epoch).

Inductive step : disk * process -> list event -> disk * process -> Prop :=
(** the start of the training. /repo/returnn/learning_rate_control.py:140-148 *)
| s_start_empty t : step (mk_disk None t, Down) [Loaded []] (mk_disk None t, Idle [])
| s_start f t d : load f = Ok d -> step (mk_disk (Some f) t, Down) [Loaded d] (mk_disk (Some f) t, Idle d)
(** the training changes the data in any way *)
| s_change k d d' : step (k, Idle d) [] (k, Idle d')
(** open for writing: /repo/returnn/learning_rate_control.py:522-523 *)
| s_open f t d text : text_of d = Ok text -> step (mk_disk f t, Idle d) [] (mk_disk f (Some ""%string), Saving d ""%string text)
(** some of the text reaches the file: 524-526 *)
| s_write f t d w a b : step (mk_disk f t, Saving d w (a ++ b)%string) [] (mk_disk f (Some (w ++ a)%string), Saving d (w ++ a)%string b)
(** close and rename: 526-527 *)
| s_rename f t d w : step (mk_disk f (Some t), Saving d w ""%string) [Saved d] (mk_disk (Some t) None, Idle d)
(** killed, or an exception (disk full, a value which cannot be written), at any point *)
| s_kill k p : step (k, p) [] (k, Down).
Inductive steps : disk * process -> list event -> disk * process -> Prop :=
| steps_refl s : steps s [] s
| steps_trans s1 s2 s3 es1 es2 : steps s1 es1 s2 -> step s2 es2 s3 -> steps s1 (es1 ++ es2) s3.
