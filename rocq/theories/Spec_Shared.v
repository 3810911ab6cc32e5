(** What several connections to one file should amount to. *)
From Verif Require Import M_Shared.

(** The sessions that were committed, in the order of their commits: for each, the connection and the calls it made since it began.
    [open] has the calls made so far by the sessions under way. *)
Fixpoint committed (open : gmap nat (list ip_op)) (t : list (sh_op * sh_out)) : list (nat * list ip_op) :=
  match t with
  | [] => []
  | (SBegin i, SOk) :: t => committed (<[i := []]> open) t
  | (SCall i o, (SOk | SErr _)) :: t => committed (<[i := default [] (open !! i) ++ [o]]> open) t
  | (SCommit i, SOk) :: t => (i, default [] (open !! i)) :: committed open t
  | _ :: t => committed open t
  end.

(** Running sessions one at a time, each from begin to commit *)
Definition serial_step (mv : Z) (s : store * list metadata) (x : nat * list ip_op) : store * list metadata :=
  match s.2 !! x.1 with
  | Some md => let c := (conn_step mv (Conn s.1 md) (CSession x.2 true)).1 in (cn_disk c, <[x.1 := cn_md c]> s.2)
  | None => s
  end.
Definition serial (mv : Z) (s : store * list metadata) (l : list (nat * list ip_op)) : store * list metadata := fold_left (serial_step mv) l s.
