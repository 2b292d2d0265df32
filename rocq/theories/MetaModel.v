(** Model of [MetaDataset]: /repo/returnn/datasets/meta.py:133-560.

    A sub-dataset is given by what it tells: all its tags, the number of its sequences (None if it does not know it), its data keys, and the sequences of an epoch after [init_seq_order(epoch, seq_list)], each with its corpus index, its tag and its data. It can behave in any way here; its loading of sequences ([load_seqs]) is not modelled, it answers for every sequence of the epoch. [order_for_epoch] is [get_seq_order_for_epoch] with the options of this dataset (see SeqOrderModel.v). Indices in [seq_order] are not negative here. Not modelled: [seq_lens_file], [data_dims], [labels], and the reading of the list files. *)
From Coq Require Import String.
From Verif Require Import Base PyDict Cached2Model.
Local Open Scope nat_scope. Local Open Scope list_scope.

Section Meta.
  Context {X : Type}.
  Definition sseq : Type := (nat * string * @dict string X)%type.
  Record sub := Sub { all_tags : list string; total_num_seqs : option nat; outputs : list string; seqs_of : nat -> option (list string) -> res (list sseq) }.
  (** The content of [seq_list_file]: none, one list of tags, or a list for each dataset. *)
  Inductive seq_file := NoFile | OneList (l : list string) | ListPerDataset (d : @dict string (list string)).
  Record conf := Conf { datasets : @dict string sub; data_map : @dict string (string * string); control : option string; default_key : string;
                        seq_list : @dict string (list string); tag_idx : @dict string nat; order_for_epoch : nat -> list nat }.

  Definition get_or {V} (e : err) (d : @dict string V) (k : string) : res V := match dget d k with Some v => Ok v | None => Err e end.
  (** line 239: the set of the sub-datasets that are used; the order of a set plays no role *)
  Definition dataset_keys_of (m : @dict string (string * string)) : list string := nodup string_dec (map (fun x => fst (snd x)) m).
  (** lines 295-374 *)
  Definition load_seq_list (keys : list string) (ds : @dict string sub) (default : string) (f : seq_file) : res (@dict string (list string)) :=
    match f with
    | NoFile =>
        let* d := get_or KeyError ds default in
        let tags := all_tags d in
        let* _ := mapM (fun key => if String.eqb key default then Ok tt else
                          let* s := get_or KeyError ds key in
                          match total_num_seqs s with
                          | None => Ok tt
                          | Some n => if length tags <=? n then Ok tt else Err OtherException
                          end) keys in
        Ok (map (fun k => (k, tags)) keys)
    | OneList l => Ok (map (fun k => (k, l)) keys)
    | ListPerDataset d => let* _ := mapM (fun key => if dhas d key then Ok tt else Err ValueError) keys in Ok d
    end.
  (** lines 234-293; an empty name of the control dataset counts as none *)
  Definition construct (given : @dict string sub) (m : @dict string (string * string)) (f : seq_file) (ctrl : option string) (order : nat -> list nat) : res conf :=
    let ctrl := match ctrl with Some c => if String.eqb c "" then None else Some c | None => None end in
    let* default := match ctrl with
                    | Some c => Ok c
                    | None => match dget m "data"%string with Some (d, _) => Ok d | None => Err AssertionError end
                    end in
    let keys := dataset_keys_of m in
    let* ds := mapM (fun k => let* s := get_or KeyError given k in Ok (k, s)) keys in
    let* lists := load_seq_list keys ds default f in
    let* l := get_or KeyError lists default in
    let* _ := mapM (fun k => let* lk := get_or KeyError lists k in assert_ (length lk =? length l)) keys in
    let* _ := mapM (fun '(_, (k, sk)) => let* s := get_or KeyError ds k in
                      if existsb (String.eqb sk) (outputs s) then Ok tt else Err KeyError) m in
    Ok (Conf ds m ctrl default lists (fold_left (fun d '(i, t) => dset d t i) (combine (seq 0 (length l)) l) []) order).

  Record meta := Meta { m_epoch : option nat; m_ordered : option (@dict string (list string)); m_num_seqs : option nat; m_cur : @dict string (list sseq);
                        m_start : nat; m_added : list (nat * (string * @dict string X)) }.
  (** cached2.py:34-41 and meta.py:292-293 *)
  Definition initial : meta := Meta None None None [] 0 [].
  Inductive order_arg := Default | SeqList (l : list string) | SeqOrder (l : list nat).

  Section Conf.
  Variable c : conf.
  (** lines 413-438: the indices of the sequences of this epoch, and the sequences of the control dataset if it determined them *)
  Definition seq_index (epoch : nat) (arg : order_arg) : res (list nat * option (string * list sseq)) :=
    match arg with
    | SeqOrder l => Ok (l, None)
    | SeqList l => let* is := mapM (get_or KeyError (tag_idx c)) l in Ok (is, None)
    | Default =>
        match control c with
        | Some k => let* s := get_or KeyError (datasets c) k in
                    let* seqs := seqs_of s epoch None in
                    Ok (map (fun x => fst (fst x)) seqs, Some (k, seqs))
        | None => Ok (order_for_epoch c epoch, None)
        end
    end.
  (** lines 394-447, for an epoch that is not None. If a sub-dataset fails, the others may already be initialised; here none is then. *)
  Definition init_seq_order (st : meta) (epoch : nat) (arg : order_arg) : meta * res bool :=
    let need := match m_epoch st with None => true | Some e => negb (e =? epoch) end || match m_ordered st with None => true | Some _ => false end
                || match arg with Default => false | _ => true end || (0 <? m_start st) in
    let st := Meta (Some epoch) (m_ordered st) None (m_cur st) 0 [] in
    match m_ordered st, need with
    | Some ordered, false =>
        match get_or KeyError ordered (default_key c) with
        | Ok l => (Meta (Some epoch) (Some ordered) (Some (length l)) (m_cur st) 0 [], Ok false)
        | Err e => (st, Err e)
        end
    | _, _ =>
        match seq_index epoch arg with
        | Err e => (st, Err e)
        | Ok (index, by_control) =>
            let st := Meta (Some epoch) (m_ordered st) (Some (length index)) (m_cur st) 0 [] in
            match mapM (fun '(k, l) => let* l' := mapM (pyget l) index in Ok (k, l')) (seq_list c) with
            | Err e => (st, Err e)
            | Ok ordered =>
                match mapM (fun '(k, s) => match by_control with
                                           | Some (k', seqs) => if String.eqb k k' then Ok (k, seqs) else
                                                                let* l := get_or KeyError ordered k in let* q := seqs_of s epoch (Some l) in Ok (k, q)
                                           | None => let* l := get_or KeyError ordered k in let* q := seqs_of s epoch (Some l) in Ok (k, q)
                                           end) (datasets c) with
                | Err e => (Meta (Some epoch) (Some ordered) (Some (length index)) (m_cur st) 0 [], Err e)
                | Ok cur => (Meta (Some epoch) (Some ordered) (Some (length index)) cur 0 [], Ok true)
                end
            end
        end
    end.
  (** lines 513-520 *)
  Definition check_dataset_seq (st : meta) (k : string) (i : nat) : res unit :=
    let* q := get_or KeyError (m_cur st) k in
    let* s := pyget q i in
    let* ordered := match m_ordered st with Some o => Ok o | None => Err TypeError end in
    let* l := get_or KeyError ordered k in
    let* t := pyget l i in
    assert_ (String.eqb (snd (fst s)) t).
  (** lines 522-530 *)
  Definition get_data_of (st : meta) (i : nat) (data_key : string) : res X :=
    let* p := get_or KeyError (data_map c) data_key in
    let* q := get_or KeyError (m_cur st) (fst p) in
    let* s := pyget q i in
    get_or KeyError (snd s) (snd p).
  (** lines 550-555 *)
  Definition get_tag (st : meta) (i : nat) : res string :=
    let* ordered := match m_ordered st with Some o => Ok o | None => Err TypeError end in
    let* l := get_or KeyError ordered (default_key c) in pyget l i.
  (** lines 532-539 *)
  Definition collect_single_seq (st : meta) (i : nat) : res (string * @dict string X) :=
    let* t := get_tag st i in
    let* f := mapM (fun k => let* x := get_data_of st i k in Ok (k, x)) (dkeys (data_map c)) in
    Ok (t, f).
  (** lines 494-511 with cached2.py:106-125 and basic.py:440-460. If collecting fails, old sequences are already removed. *)
  Definition load_seqs (st : meta) (start stop : nat) : meta * res unit :=
    if negb (start <=? stop) then (st, Err AssertionError) else
    let start_ := match last_idx (m_added st) with Some i => Nat.max (i + 1) start | None => start end in
    match mapM (fun k => mapM (check_dataset_seq st k) (seq start_ (stop - start_))) (dataset_keys_of (data_map c)) with
    | Err e => (st, Err e)
    | Ok _ =>
        if negb (m_start st <=? start) then (st, Err AssertionError) else
        let '(added, expected) := if m_start st <? start then (cleanup_old_seqs (m_added st) start, start) else (m_added st, m_start st) in
        let st := Meta (m_epoch st) (m_ordered st) (m_num_seqs st) (m_cur st) expected added in
        let start := match last_idx added with Some i => Nat.max (i + 1) start | None => start end in
        match mapM (fun i => let* s := collect_single_seq st i in Ok (i, s)) (seq start (stop - start)) with
        | Err e => (st, Err e)
        | Ok new => (Meta (m_epoch st) (m_ordered st) (m_num_seqs st) (m_cur st) expected (added ++ new), Ok tt)
        end
    end.
  (** cached2.py:185-190 *)
  Definition get_data (st : meta) (i : nat) (k : string) : res X :=
    match get_seq (m_added st) i with Some (_, f) => get_or KeyError f k | None => Err OtherException end.
  (** cached2.py:95-104 *)
  Definition num_seqs (st : meta) : res nat :=
    match m_num_seqs st with Some n => Ok n | None => match m_epoch st with None => Ok 0 | Some _ => Err NotImplementedError end end.
  (** lines 465-470 *)
  Definition get_current_seq_order (st : meta) : res (list nat) :=
    let* ordered := match m_ordered st with Some o => Ok o | None => Err TypeError end in
    let* l := get_or KeyError ordered (default_key c) in mapM (get_or KeyError (tag_idx c)) l.
  (** lines 472-477 *)
  Definition get_all_tags : res (list string) := get_or KeyError (seq_list c) (default_key c).
  End Conf.
End Meta.
Arguments sseq : clear implicits. Arguments sub : clear implicits. Arguments conf : clear implicits. Arguments meta : clear implicits.
