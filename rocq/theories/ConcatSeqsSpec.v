(** What C30 is about. *)
From Coq Require Import String.
From Verif Require Import Base PyDict ConcatSeqsModel.
Local Open Scope string_scope. Local Open Scope nat_scope. Local Open Scope list_scope.

(** [b] is [a] with its last frame repeated some times. *)
Definition repeats_last (a b : list Z) : Prop := exists n, b = a ++ repeat (last a 0%Z) n /\ (a = [] -> n = 0).
(** What becomes of a sub-sequence that is not the last one, at one key: the postfix label is removed, the last frame is repeated up to a multiple, and the length is made a multiple of that of another data key of the same sub-sequence. *)
Definition inner_piece (c : config) (sub : features) (key : string) (data out : list Z) : Prop :=
  exists d1 d2,
    match dget (remove_postfix c) key with Some p => data = d1 ++ [p] | None => d1 = data end /\
    match dget (repeat_multiple c) key with
    | Some m => 0 < m /\ repeats_last d1 d2 /\ List.length d2 mod m = 0 /\ List.length d2 < List.length d1 + m
    | None => d2 = d1
    end /\
    match dget (pad_narrow c) key with
    | Some (tk, m) => exists target, dget sub tk = Some target /\ List.length out = List.length target * m /\ ((exists cut, d2 = out ++ cut) \/ repeats_last d2 out)
    | None => out = d2
    end.
(** The concatenation of the sub-sequences [subs] at a key. *)
Definition joined (c : config) (key : string) (subs : list features) (out : list Z) : Prop :=
  exists pieces front lst, subs = front ++ [lst] /\ out = List.concat pieces /\ exists fp lp, pieces = fp ++ [lp] /\ dget lst key = Some lp /\
    Forall2 (fun sub p => exists data, dget sub key = Some data /\ inner_piece c sub key data p) front fp.
(** When the options can be applied to a sub-sequence that is not the last one. *)
Definition applicable (c : config) (sub : features) (key : string) : Prop :=
  exists data, dget sub key = Some data /\
    (forall p, dget (remove_postfix c) key = Some p -> exists d, data = d ++ [p]) /\
    (forall m, dget (repeat_multiple c) key = Some m -> 0 < m) /\
    (forall tk m, dget (pad_narrow c) key = Some (tk, m) -> exists target, dget sub tk = Some target /\ (data <> [] /\ dget (remove_postfix c) key = None \/ 2 <= List.length data \/ List.length target * m = 0)).

Definition ceildiv (a m : nat) : nat := (a + m - 1) / m.
