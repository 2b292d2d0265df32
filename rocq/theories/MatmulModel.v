(** Model of the product of tensors with named dims: /repo/returnn/torch/frontend/_backend.py [matmul], lines 1337-1436, called by
    /repo/returnn/frontend/matmul.py 16-40, and /repo/returnn/tensor/_tensor_extra.py [get_axis_from_description], lines 2484-2502.
    Elements are integers; rounding is not modelled. *)
From Verif Require Import Base PySort TensorModel.
Local Open Scope nat_scope.

(** * PyTorch, by its documentation *)
Definition total (n : nat) (f : nat -> Z) : Z := fold_right Z.add 0%Z (map f (seq 0 n)).
(** [torch.mm] *)
Definition mm (a b : raw) : res raw :=
  match shape a, shape b with
  | [n; k], [k'; m] =>
      if k =? k' then Ok (tabulate [n; m] (fun i => total k (fun r => Z.mul (at_ a [nth 0 i 0; r]) (at_ b [r; nth 1 i 0])))) else Err OtherException
  | _, _ => Err OtherException
  end.
(** [torch.bmm] *)
Definition bmm (a b : raw) : res raw :=
  match shape a, shape b with
  | [c; n; k], [c'; k'; m] =>
      if (c =? c') && (k =? k') then
        Ok (tabulate [c; n; m] (fun i => total k (fun r => Z.mul (at_ a [nth 0 i 0; nth 1 i 0; r]) (at_ b [nth 0 i 0; r; nth 2 i 0]))))
      else Err OtherException
  | _, _ => Err OtherException
  end.
(** [torch.nn.functional.linear]: the weight has the shape (out, in) *)
Definition linear (x w : raw) : res raw :=
  match shape w with
  | [u; k] =>
      if (0 <? length (shape x)) && (last (shape x) 0 =? k) then
        Ok (tabulate (removelast (shape x) ++ [u]) (fun i => total k (fun r => Z.mul (at_ x (removelast i ++ [r])) (at_ w [last i 0; r]))))
      else Err OtherException
  | _ => Err OtherException
  end.

(** * RETURNN *)
(** [get_axis_from_description] of a dim, _tensor_extra.py 2484-2502 *)
Fixpoint axis_loop (d : dim) (i : nat) (ds : list dim) (st : option (nat * Z)) : res (option (nat * Z)) :=
  match ds with
  | [] => Ok st
  | t :: ds =>
      if deq t d then
        match st with
        | None => axis_loop d (S i) ds (Some (i, d_prio t))
        | Some (_, p) => if (p <? d_prio t)%Z then axis_loop d (S i) ds (Some (i, d_prio t)) else if (d_prio t <? p)%Z then axis_loop d (S i) ds st else Err OtherException
        end
      else axis_loop d (S i) ds st
  end.
Definition axis_of (ds : list dim) (d : dim) : res nat :=
  let* st := axis_loop d 0 ds None in
  match st with Some (i, _) => Ok i | None => Err OtherException end.

Definition axes_shape (s : list nat) (axes : list nat) : list nat := map (fun i => nth i s 0) axes.
(** the dims with their axes *)
Definition enumerated (ds : list dim) : list (nat * dim) := combine (seq 0 (length ds)) ds.
Definition same_nats (a b : list nat) : bool := (length a =? length b) && forallb (fun '(x, y) => x =? y) (combine a b).

(** [matmul]; [dynamic d] says that [d.dyn_size_ext] is a tensor. This is used as a condition, which is an error since behavior
    version 22 ([__bool__], tensor/_tensor_op_overloads.py 19-29). *)
Definition matmul (version : Z) (dynamic : dim -> bool) (a b : tensor) (reduce : list dim) (use_mask : bool) : res tensor :=
  (* 1345-1346 *)
  if use_mask && existsb dynamic reduce then Err (if (22 <=? version)%Z then TypeError else NotImplementedError)
  else
    (* 1351-1356 *)
    let* _ := assert_ (forallb (fun d => mem d (dims a)) reduce) in
    let* _ := assert_ (forallb (fun d => mem d (dims b)) reduce) in
    (* 1358-1360: sorting one dim changes nothing *)
    let reduce := stable_sort_by (fun d => Z.of_nat (dim_index (dims a) d)) reduce in
    (* 1364-1365 *)
    let* ar := mapM (axis_of (dims a)) reduce in
    let* br := mapM (axis_of (dims b)) reduce in
    (* 1368-1373 *)
    let common := map snd (filter (fun '(i, d) => mem d (dims b) && negb (inb i ar)) (enumerated (dims a))) in
    let ac := map (dim_index (dims a)) common in
    let bc := map (dim_index (dims b)) common in
    let au := filter (fun i => negb (inb i ar) && negb (inb i ac)) (seq 0 (length (dims a))) in
    let bu := filter (fun i => negb (inb i br) && negb (inb i bc)) (seq 0 (length (dims b))) in
    let sa := shape (traw a) in
    let sb := shape (traw b) in
    (* 1381-1397 *)
    let* _ := assert_ (same_nats (axes_shape sa ac) (axes_shape sb bc)) in
    let* _ := assert_ (same_nats (axes_shape sa ar) (axes_shape sb br)) in
    let nc := prod (axes_shape sa ac) in
    let na := prod (axes_shape sa au) in
    let nb := prod (axes_shape sb bu) in
    let nr := prod (axes_shape sa ar) in
    (* 1400-1426 *)
    let* r :=
      if (length bc =? 0) && (length br =? 1) && (length bu =? 1) then
        let* ra := permute (traw a) (au ++ ar) in
        let* rb := permute (traw b) (bu ++ br) in
        linear ra rb
      else
        let* ra := permute (traw a) (ac ++ au ++ ar) in
        let* rb := permute (traw b) (bc ++ br ++ bu) in
        let* r :=
          if nc =? 1 then
            let* ra := reshape ra [na; nr] in
            let* rb := reshape rb [nr; nb] in
            mm ra rb
          else
            let* ra := reshape ra [nc; na; nr] in
            let* rb := reshape rb [nc; nr; nb] in
            bmm ra rb in
        reshape r (axes_shape sa ac ++ axes_shape sa au ++ axes_shape sb bu) in
    (* 1428-1434 *)
    let get ds i := nth i ds {| d_base := 0; d_copy := 0; d_prio := 0 |} in
    Ok {| dims := common ++ map (get (dims a)) au ++ map (get (dims b)) bu; traw := r |}.
