(** Model of firing log records through events, loggers and sinks:
    [Logger::Fire] (/repo/log/logger.h:130-145), [LogPendingValuePool]
    (/repo/log/detail/log-pending-value-pool.h), [LogStreamSink]
    (/repo/log/log-stream-sink.h) and [Event::Fire] (/repo/event/event.h:274-289).

    Who is connected to whom is the network of LogNet.v; values and the maps
    behind records are those of LogRecord.v.  A record is passed by value, which
    copies the handle, so everyone works on the same map: a record is its number
    here.

    Not modelled: sinks, filters, formatters and functors that call back into
    loggers or records (Event.v has sinks that change connections), what a
    formatter writes (it is given the record), stream states. *)
From Coq Require Import List NArith Arith String Bool.
From Verif Require Import Base Event LogNet LogRecord.
Import ListNotations.
Open Scope list_scope.

(** Where [ostreams_] points (log-stream-sink.h:99): a stream of the user, or
    the element [k] of the array [files_] had when it was its [b]-th one. *)
Inductive outref := OutUser (e : nat) | OutFile (b k : nat).

(** What a logger or a sink has besides its connections.
    [pa_stream]: it is a [LogStreamSink], not a sink of a user.
    [pa_pend]: [LogPendingValuePool::values_].  [pa_filter]: [filter_].
    [pa_fmt]: [formatter_] is set (log-stream-sink.h:90).
    [pa_outs]: [ostreams_]; [pa_files], [pa_cap], [pa_block]: the size, the
    capacity and the number of reallocations of [files_] (99-100). *)
Record part := mk_part {
  pa_stream : bool;
  pa_pend : list (string * lvalue);
  pa_filter : option nat;
  pa_fmt : bool;
  pa_outs : list outref;
  pa_files : nat;
  pa_cap : nat;
  pa_block : nat }.

(** What an observer sees: a user's sink is given record [r], or a formatter
    writes it to a stream; [items] is the content of the record then. *)
Inductive fevent :=
| Got (s : nat) (r : nat) (items : list (string * lvalue))
| Wrote (s : nat) (to : outref) (items : list (string * lvalue)).

Record fworld := mk_fw {
  f_net : net;
  f_parts : list part;
  f_recs : list (list (string * lvalue));
  f_calls : list nat;
  f_log : list fevent }.

(** [NormalizeLogValue] (log-pending-value-pool.h:94-101). *)
Definition normalize (v : lvalue) : lvalue :=
  match type_of v with
  | TLog => v
  | TUser _ => LConst2 v
  end.

(** [LogPendingValuePool::Add] (63-68), [Update] (70-79), [Remove] (81-84). *)
Definition pool_add (n : string) (v : lvalue) (p : list (string * lvalue)) := put n (normalize v) p.
Definition pool_update (n : string) (v : lvalue) (p : list (string * lvalue)) := overwrite n (normalize v) p.
Definition pool_remove (n : string) (p : list (string * lvalue)) := filter (fun e => negb (String.eqb n (fst e))) p.

Definition set_rec (w : fworld) (r : nat) (items : list (string * lvalue)) (calls : list nat) : fworld :=
  mk_fw (f_net w) (f_parts w) (upd (f_recs w) r items) calls (f_log w).
Definition tell (w : fworld) (e : fevent) : fworld :=
  mk_fw (f_net w) (f_parts w) (f_recs w) (f_calls w) (f_log w ++ [e]).
Definition rec_of (w : fworld) (r : nat) : list (string * lvalue) := nth r (f_recs w) [].

(** Whether a pointer in [ostreams_] still points to a stream. *)
Definition valid_out (p : part) (o : outref) : bool :=
  match o with
  | OutUser _ => true
  | OutFile b k => Nat.eqb b (pa_block p) && Nat.ltb k (pa_files p)
  end.

Section Fire.
(** [gen2]: what functors of second-order values return.  [ord]: the order in
    which unordered_map iterates.  [dec]: what filters decide. *)
Context (gen : nat -> nat -> N) (gen2 : nat -> nat -> lvalue)
        (ord : list (string * lvalue) -> list (string * lvalue))
        (dec : nat -> list (string * lvalue) -> bool).

(** The loop of [LogPendingValuePool::Apply] (log-pending-value-pool.h:86-92):
    the second-order value is evaluated before [Add] looks for the name. *)
Fixpoint apply_loop (l : list (string * lvalue)) (items : list (string * lvalue)) (calls : list nat)
  : list (string * lvalue) * list nat * option exn :=
  match l with
  | [] => (items, calls, None)
  | (n, v) :: t =>
      match get_as gen gen2 TLog v calls with
      | (ALog u, calls1) => apply_loop t (fst (put n u items)) calls1
      | (AThrow e, calls1) => (items, calls1, Some e)
      | (_, calls1) => (items, calls1, None)
      end
  end.

Definition apply (p : part) (r : nat) (w : fworld) : fworld * option exn :=
  let '(items, calls, e) := apply_loop (ord (pa_pend p)) (rec_of w r) (f_calls w) in
  (set_rec w r items calls, e).

(** [filter_->Decide(record) != LOG_ACCEPT] (logger.h:135-141). *)
Definition accepts (p : part) (items : list (string * lvalue)) : bool :=
  match pa_filter p with
  | None => true
  | Some f => dec f items
  end.

(** The loop over the sinks (event/event.h:278-287), in the order of
    [Event::Visit]; Event.v has the loop itself. *)
Fixpoint fire_all (fire : nat -> nat -> fworld -> fworld * res unit) (l : list nat) (r : nat) (w : fworld) : fworld * res unit :=
  match l with
  | [] => (w, RDone tt)
  | s :: t =>
      match fire s r w with
      | (w1, RDone _) => fire_all fire t r w1
      | (w1, RFail f) => (w1, RFail f)
      end
  end.

(** The loop over [ostreams_] (log-stream-sink.h:136-140). *)
Fixpoint write_all (i : nat) (p : part) (l : list outref) (r : nat) (w : fworld) : fworld * res unit :=
  match l with
  | [] => (w, RDone tt)
  | o :: t => if valid_out p o then write_all i p t r (tell w (Wrote i o (rec_of w r))) else (w, RFail FUB)
  end.

Fixpoint fire (fuel i r : nat) (w : fworld) : fworld * res unit :=
  match fuel with
  | O => (w, RFail FFuel)
  | S f =>
      match nth_error (f_net w) i, nth_error (f_parts w) i with
      | Some x, Some p =>
          match nn_kind x with
          | NEvent =>
              match slots_visit (nn_slots x) with
              | Done v => fire_all (fire f) (map snd v) r w
              | _ => (w, RFail FUB)
              end
          | NLogger =>
              match apply p r w with
              | (w1, Some e) => (w1, RFail (FThrow e))
              | (w1, None) =>
                  if accepts p (rec_of w1 r)
                  then match slots_visit (nn_slots x) with
                       | Done v => fire_all (fire f) (map snd v) r w1
                       | _ => (w1, RFail FUB)
                       end
                  else (w1, RDone tt)
              end
          | NLeaf =>
              if pa_stream p
              then (* LogStreamSink::Fire: log-stream-sink.h:120-143 *)
                if pa_fmt p
                then match apply p r w with
                     | (w1, Some e) => (w1, RFail (FThrow e))
                     | (w1, None) => if accepts p (rec_of w1 r) then write_all i p (pa_outs p) r w1 else (w1, RDone tt)
                     end
                else (w, RFail (FThrow Uninitialized))
              else (tell w (Got i r (rec_of w r)), RDone tt)
          end
      | _, _ => (w, RFail FUB)
      end
  end.
End Fire.

(** [LogStreamSink::AddStream] for a good stream (log-stream-sink.h:165-174). *)
Definition add_stream (e : nat) (p : part) : part :=
  mk_part (pa_stream p) (pa_pend p) (pa_filter p) (pa_fmt p) (pa_outs p ++ [OutUser e]) (pa_files p) (pa_cap p) (pa_block p).

(** [LogStreamSink::AddFile] for a file that could be opened
    (log-stream-sink.h:176-188): push_back moves the streams to a new array when
    the capacity is used up, [grow] being the new capacity, and
    [&files_.back()] is remembered. *)
Definition add_file (grow : nat -> nat) (p : part) : part :=
  let full := Nat.eqb (pa_files p) (pa_cap p) in
  let block := if full then S (pa_block p) else pa_block p in
  mk_part (pa_stream p) (pa_pend p) (pa_filter p) (pa_fmt p) (pa_outs p ++ [OutFile block (pa_files p)])
          (S (pa_files p)) (if full then grow (pa_cap p) else pa_cap p) block.
