(** Model of a dump by a node whose database cannot read some of the records: op_dump.cc:175-219 with
    storage_tch.cc:461-465, where a tchdbget that fails counts as a record that is not there. *)
From stdpp Require Import gmap.
From Coq Require Import String.
From Verif Require Import Base StorageModel TextModel KeyResolverModel DumpModel.
Local Open Scope N_scope.

Section Sender.
  (** As in [DumpModel]. *)
  Variables (cfg : config) (ext : hash_algorithm -> bytes -> Z) (alg : hash_algorithm) (part : Z) (psize : nat).

  (** op_dump.cc:175-219; each round with whether the record can be read.  A read that fails leaves the entry with its new key
      (storage_tch.cc:462-465, op_dump.cc:194-196) and the records as they are. *)
  Fixpoint dump_blind (s : store) (e : entry) (ts : list (turn * bool)) (last : iteration) (stop_at_end : bool) : store * bytes * ending :=
    match ts with
    | [] => (s, [], if stop_at_end then Interrupted else match last with iteration_end => Ended | iteration_error => Canceled end)
    | (t, readable) :: ts =>
        if t_stop t then (s, [], Interrupted)
        else
          let e := with_key e (TextModel.cstr (t_key t)) in
          match selected cfg ext alg part psize (e_key e) with
          | None => (s, [], Undefined)
          | Some false => dump_blind s e ts last stop_at_end
          | Some true =>
              if negb readable then dump_blind s e ts last stop_at_end
              else
                let o := get s (t_now t) e 0 in
                if (o_ret o <? 0)%Z || match o_res o with Some result_not_found => true | _ => false end
                then dump_blind (o_store o) (o_entry o) ts last stop_at_end
                else
                  let b := print_response response_dump (o_entry o) in
                  match t_sent t with
                  | Some n => (o_store o, firstn n b, Broken)
                  | None => let '(s', out, x) := dump_blind (o_store o) (o_entry o) ts last stop_at_end in (s', b ++ out, x)
                  end
          end
    end.
  (** op_dump.cc:157-231 after iter_begin succeeded *)
  Definition dump_server_blind (s : store) (ts : list (turn * bool)) (last : iteration) (stop_at_end : bool) : store * bytes * ending :=
    let '(s', out, x) := dump_blind s (empty_entry []) ts last stop_at_end in (s', out ++ last_line x, x).
End Sender.
