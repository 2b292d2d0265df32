(** What buffered reordering should do. *)
From Coq Require Import String Sorted.
From Verif Require Import Base PyDict BatchPipeModel ShuffleModel.

(** [l] cut into consecutive windows of [n] items, the last one possibly shorter *)
Inductive windows {A} (n : nat) : list A -> list (list A) -> Prop :=
| W_last l : l <> [] -> List.length l <= n -> windows n l [l]
| W_cons w l ws : List.length w = n -> windows n l ws -> windows n (w ++ l) (w :: ws).

(** a sequence without the given keys *)
Definition without {X} (keys : list string) (s : seqd X) : seqd X :=
  filter (fun '(k, _) => negb (existsb (String.eqb k) keys)) s.
(** the values of a key over all sequences of a list of batches *)
Definition key_values {X} (key : string) (batches : list (list (seqd X))) : list (option (arr X)) :=
  map (fun s => dget s key) (List.concat batches).

(** [out] is [inp] sorted by length, ascending or descending *)
Definition sorted_dir {P} (down : bool) (out : list (lseq P)) : Prop :=
  StronglySorted (fun a b => if down then (ls_len b <= ls_len a)%Z else (ls_len a <= ls_len b)%Z) out.
(** length and payload of a sequence, without the progress value *)
Definition body {P} (s : lseq P) : Z * P := (ls_len s, ls_rest s).
(** the windows are sorted alternately, starting with ascending *)
Fixpoint alternating {P} (down : bool) (ws : list (list (lseq P))) : Prop :=
  match ws with
  | [] => True
  | w :: ws' => sorted_dir down w /\ alternating (negb down) ws'
  end.
