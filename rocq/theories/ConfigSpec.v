(* Settings of a config, as a user sees them. *)
From Coq Require Import List ZArith Ascii String Lia Bool.
From Verif Require Import Base ConfigModel.
Import ListNotations.
Local Open Scope Z_scope.

(* A setting is a Python value (from a config file in Python or JSON, or set by code), or a text (from the command line
   or a file in the old format). A text with commas is kept in parts. *)
Inductive setting := Typed (v : pyval) | Text (s : text).

Definition setting_of (c : config) (k : text) : option setting :=
  match lookup k (c_typed c) with
  | Some v => Some (Typed v)
  | None => option_map (fun l => Text (join [","%char] l)) (lookup k (c_dict c))
  end.

(* A text for a key which has a Python value so far becomes one: as it is in place of a str, otherwise evaluated
   (as it is if it is no Python expression). *)
Definition interpret (py : python) (prev : option setting) (s : text) : res setting :=
  match prev with
  | Some (Typed (VStr _)) => Ok (Typed (VStr s))
  | Some (Typed _) =>
    match py_eval py s with
    | EvOk v => Ok (Typed v)
    | EvSyntaxError => Ok (Typed (VStr s))
    | EvRaise e => Err e
    end
  | _ => Ok (Text s)
  end.

Fixpoint interpret_all (py : python) (prev : option setting) (l : list text) : res (option setting) :=
  match l with
  | [] => Ok prev
  | s :: l => let* st := interpret py prev s in interpret_all py (Some st) l
  end.

(* the values given for a key, in order *)
Definition given {A} (k : text) (l : list (text * A)) : list A :=
  map snd (filter (fun p => if list_eq_dec ascii_dec (fst p) k then true else false) l).

Definition last_given {A} (k : text) (l : list (text * A)) : option A :=
  match rev (given k l) with v :: _ => Some v | [] => None end.

(* "include" as a key loads a file *)
Definition no_include (l : list (text * text)) : Prop := ~ In (list_ascii_of_string "include") (map fst l).

(* changes of a config one by one *)
Inductive change := Set_ (k : text) (v : pyval) | Line (k s : text).

Definition apply_change (py : python) (c : config) (x : change) : res config :=
  match x with
  | Set_ k v => Ok (set_typed c k v)
  | Line k s => add_line py (fun c _ => Ok c) c k s
  end.

Fixpoint apply_changes (py : python) (c : config) (l : list change) : res config :=
  match l with [] => Ok c | x :: l => let* c := apply_change py c x in apply_changes py c l end.

Definition change_key (x : change) : text := match x with Set_ k _ => k | Line k _ => k end.

(* the command line: files first, then options; "++key value", where a value with a minus gets a plus before *)
Definition is_file_arg (a : text) : Prop :=
  match a with [] => False | x :: _ => x <> "-"%char /\ x <> "+"%char end.
Definition is_option_arg (a : text) : Prop :=
  match a with [] => True | x :: _ => x = "-"%char \/ x = "+"%char end.

Definition escaped (v : text) : text :=
  match v with c :: _ => if ascii_dec c "-"%char then "+"%char :: v else v | [] => v end.
Definition starts_plus_minus (v : text) : Prop :=
  match v with a :: b :: _ => a = "+"%char /\ b = "-"%char | _ => False end.

Definition plus_args (l : list (text * text)) : list text :=
  flat_map (fun p => ["+"%char :: "+"%char :: fst p; escaped (snd p)]) l.

(* the options and "++key value" pairs of the command line, in the order they count *)
Definition command_line (optparse : list text -> res cmd) (args : list text) (l : list (text * text)) : Prop :=
  (args = [] /\ l = []) \/
  exists a r opts pairs, args = a :: r /\ is_option_arg a /\ l = opts ++ pairs /\
    Forall (fun p => ~ starts_plus_minus (snd p)) pairs /\
    optparse args = Ok {| o_opts := opts; o_config := None; o_args := plus_args pairs |}.

(* ---- the old text format ---- *)

(* one line: spaces, key, spaces, value, spaces, and maybe a comment; or only spaces and a comment *)
Inductive line := Setting (pad k gap v tail : text) (comment : option text) | Blank (pad : text) (comment : option text).

Definition blank (s : text) : Prop := Forall (fun c => c = " "%char \/ c = "009"%char) s.
(* printable characters without the hash *)
Definition visible (c : ascii) : Prop := (33 <= nat_of_ascii c <= 126)%nat /\ c <> "#"%char.
Definition in_line (c : ascii) : Prop := (32 <= nat_of_ascii c <= 126)%nat.

Definition line_ok (l : line) : Prop :=
  match l with
  | Setting pad k gap v tail comment =>
    blank pad /\ blank gap /\ gap <> [] /\ blank tail /\
    k <> [] /\ Forall visible k /\
    (exists a b, v = a :: b /\ visible a) /\ (exists a b, v = b ++ [a] /\ visible a) /\
    Forall (fun c => visible c \/ c = " "%char) v /\
    (forall x, comment = Some x -> Forall in_line x)
  | Blank pad comment => blank pad /\ (forall x, comment = Some x -> Forall in_line x)
  end.

Definition comment_text (o : option text) : text := match o with Some x => "#"%char :: x | None => [] end.

Definition line_text (l : line) : text :=
  match l with
  | Setting pad k gap v tail comment => pad ++ k ++ gap ++ v ++ tail ++ comment_text comment
  | Blank pad comment => pad ++ comment_text comment
  end ++ ["010"%char].

Definition settings (l : list line) : list (text * text) :=
  flat_map (fun l => match l with Setting _ k _ v _ _ => [(k, v)] | Blank _ _ => [] end) l.

(* s is the word w, in any mix of upper and lower case letters *)
Definition case_of (s w : text) : Prop :=
  Forall2 (fun a b => a = b \/ exists n, (65 <= n <= 90)%nat /\ a = ascii_of_nat n /\ b = ascii_of_nat (n + 32)) s w.
