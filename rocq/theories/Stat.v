(** Model of the containers of probes and statistics
    (/repo/statistics/probe/probe-container.h, probe-enumerator.h, probe.h,
    /repo/statistics/statistics-container.h, statistics-enumerator.h, statistic.h).

    Both containers are the same program over a map from names to shared
    events; they differ in the exceptions they throw and in that a
    statistics container converts the sink it is given to the interface the
    event wants.  One model with a [flavour] covers both.

    A probe (or a statistic) is an event with unlimited connections; its
    connection table is the one of Event.v.  Probes live in one table of the
    world and containers hold their numbers, as the code shares them through
    [Ptr].  Sinks are numbers and react to a call by recording it only; what a
    sink may do to an event while being called is the subject of Event.v.

    Not modelled: memory exhaustion (in [Add] it would leave a null entry),
    a null container given to [MergeFrom], containers of another class given
    to [MergeFrom], iterators kept across a change of the container. *)
From Coq Require Import List NArith Arith String.
From Verif Require Import Base Event.
Import ListNotations.
Open Scope list_scope.

(** The two containers: [ProbeContainer] (probe-container.h:40-161) and
    [StatisticsContainer] (statistics-container.h:42-174). *)
Inductive flavour := Probes | Statistics.

(** exception.h of the two directories, thrown at probe-container.h:207-209,
    184-186 and statistics-container.h:224-226, 197-199. *)
Definition already (fl : flavour) : exn :=
  match fl with Probes => ProbeAlreadyRegistered | Statistics => StatisticAlreadyRegistered end.
Definition missing (fl : flavour) : exn :=
  match fl with Probes => ProbeNotRegistered | Statistics => StatisticNotRegistered end.

(** [Event<I>]'s default limit on connections: UINT32_MAX (event/event.h:101;
    probe.h:66, statistic.h:64). *)
Definition unlimited : N := 2 ^ 32 - 1.

(** A probe or a statistic: probe.h:43-67, statistic.h:43-65.  [pt_kind]
    stands for the event interface [IStat]; it plays no role for probes. *)
Record point := mk_point { pt_kind : nat; pt_slots : slots nat }.

(** [items_]: unordered_map<std::string, Ptr<...>> (probe-container.h:81-82,
    statistics-container.h:94-95).  Only iteration exposes an order, which
    is given separately (see [GetEnum]). *)
Definition box := list (string * nat).

(** probe-enumerator.h:66-69, statistics-enumerator.h:66-69. *)
Record enumr := mk_enum { en_items : list string; en_index : nat }.

Record sworld := mk_sworld {
  sw_points : list point;
  sw_boxes : list box;
  sw_enums : list enumr }.

Definition sworld_init : sworld := mk_sworld [] [] [].

(** unordered_map::find (probe-container.h:181, statistics-container.h:194). *)
Fixpoint find_name (n : string) (b : box) : option nat :=
  match b with
  | [] => None
  | (m, p) :: t => if String.eqb n m then Some p else find_name n t
  end.

(** unordered_map::emplace followed by the assignment of the value when
    inserted (probe-container.h:204-213, 231-236). *)
Definition emplace (n : string) (p : nat) (b : box) : box * bool :=
  match find_name n b with
  | Some _ => (b, false)
  | None => (b ++ [(n, p)], true)
  end.

(** unordered_map::erase through [erase(KeyIterator)]
    (probe-container.h:154-157, statistics-container.h:167-170). *)
Definition erase_name (n : string) (b : box) : box :=
  filter (fun e => negb (String.eqb n (fst e))) b.

(** [GetProbe] (probe-container.h:179-189) and [Get]
    (statistics-container.h:192-202). *)
Definition get_point (fl : flavour) (n : string) (b : box) : outcome nat :=
  match find_name n b with
  | None => Throw (missing fl)
  | Some p => Done p
  end.

(** The loop of [MergeFrom] (probe-container.h:224-237,
    statistics-container.h:243-256).  [names] is the snapshot held by the
    enumerator; the probe is looked up in the merged container as it is at
    that moment, which matters when a container is merged into itself. *)
Fixpoint merge_loop (fl : flavour) (dst : nat) (prefix : string) (src : nat)
         (names : list string) (bs : list box) : outcome (list box) :=
  match names with
  | [] => Done bs
  | n :: t =>
      let! p := get_point fl n (nth src bs []) in
      let (b, _) := emplace (prefix ++ n) p (nth dst bs []) in
      merge_loop fl dst prefix src t (upd bs dst b)
  end.

(** What a caller can do.  [ord] is the order in which unordered_map iterates
    over its keys at that moment. *)
Inductive sop :=
| NewBox
| AddName (b kind : nat) (n : string)
| HasName (b : nat) (n : string)
| GetPoint (b : nat) (n : string)
| EraseName (b : nat) (n : string)
| ConnectName (b : nat) (n : string) (sink : option nat)
| DisconnectName (b : nat) (n : string) (c : N)
| MergeFrom (b : nat) (prefix : string) (src : nat) (ord : list string -> list string)
| FirePoint (p : nat)
| GetEnum (b : nat) (ord : list string -> list string)
| ResetEnum (e : nat)
| HasNextEnum (e : nat)
| NextEnum (e : nat).

(** What they see. [ACalls] are the sinks called, in order. *)
Inductive answer :=
| AUnit
| ANoSuch
| ABox (b : nat)
| APoint (p : nat)
| AFlag (f : bool)
| ACookie (c : N)
| ACalls (l : list nat)
| AEnum (e : nat)
| AName (n : string)
| AThrew (e : exn).

Definition set_boxes (w : sworld) (bs : list box) : sworld :=
  mk_sworld (sw_points w) bs (sw_enums w).

Section Containers.
Context (fl : flavour).
(** Whether an object provides the sink interface an event of a kind wants:
    the conversion Ptr<IObject> -> Ptr<IEventSink> in statistic.h:83, which
    throws [NoInterface] (component/ptr.h:77-104).  A probe container takes a
    pointer that is already of the right type. *)
Context (provides : nat -> nat -> bool).

Definition accepts (kind sink : nat) : bool :=
  match fl with Probes => true | Statistics => provides sink kind end.

(** Operations on container [b], which exists.
    AddName: probe-container.h:202-215, statistics-container.h:218-233.
    HasName: 217-220, 235-238.  GetPoint: 179-189, 192-202.
    ConnectName: 191-195, 204-209 and statistic.h:80-84.
    DisconnectName: 197-200, 211-216.  MergeFrom: 222-238, 240-257.
    GetEnum: 173-177, 186-190; the enumerator copies the keys
    (probe-enumerator.h:73-79). *)
Definition s_step (o : sop) (w : sworld) : outcome (sworld * answer) :=
  match o with
  | NewBox => Done (set_boxes w (sw_boxes w ++ [[]]), ABox (length (sw_boxes w)))
  | AddName b k n =>
      match nth_error (sw_boxes w) b with
      | None => Done (w, ANoSuch)
      | Some x =>
          let p := length (sw_points w) in
          let (x', inserted) := emplace n p x in
          if inserted
          then Done (mk_sworld (sw_points w ++ [mk_point k slots_init]) (upd (sw_boxes w) b x') (sw_enums w), APoint p)
          else Throw (already fl)
      end
  | HasName b n =>
      match nth_error (sw_boxes w) b with
      | None => Done (w, ANoSuch)
      | Some x => Done (w, AFlag (match find_name n x with Some _ => true | None => false end))
      end
  | GetPoint b n =>
      match nth_error (sw_boxes w) b with
      | None => Done (w, ANoSuch)
      | Some x => let! p := get_point fl n x in Done (w, APoint p)
      end
  | EraseName b n =>
      match nth_error (sw_boxes w) b with
      | None => Done (w, ANoSuch)
      | Some x => Done (set_boxes w (upd (sw_boxes w) b (erase_name n x)), AUnit)
      end
  | ConnectName b n s =>
      match nth_error (sw_boxes w) b with
      | None => Done (w, ANoSuch)
      | Some x =>
          let! p := get_point fl n x in
          match nth_error (sw_points w) p with
          | None => UB
          | Some q =>
              let! _ := match s with
                        | Some a => if accepts (pt_kind q) a then Done tt else Throw NoInterface
                        | None => Done tt
                        end in
              let! (c, sl) := ev_connect unlimited (pt_slots q) s in
              Done (mk_sworld (upd (sw_points w) p (mk_point (pt_kind q) sl)) (sw_boxes w) (sw_enums w), ACookie c)
          end
      end
  | DisconnectName b n c =>
      match nth_error (sw_boxes w) b with
      | None => Done (w, ANoSuch)
      | Some x =>
          let! p := get_point fl n x in
          match nth_error (sw_points w) p with
          | None => UB
          | Some q =>
              let! sl := ev_disconnect (pt_slots q) (w32 c) in
              Done (mk_sworld (upd (sw_points w) p (mk_point (pt_kind q) sl)) (sw_boxes w) (sw_enums w), AUnit)
          end
      end
  | MergeFrom b prefix src ord =>
      match nth_error (sw_boxes w) b, nth_error (sw_boxes w) src with
      | Some _, Some m =>
          let! bs := merge_loop fl b prefix src (ord (map fst m)) (sw_boxes w) in
          Done (set_boxes w bs, AUnit)
      | _, _ => Done (w, ANoSuch)
      end
  (* Probe::Fire (probe.h:80-83), Event<IStat>::Fire: every connected sink is
     called in the order of the cookies (C10 of Event.v, for sinks that leave
     the event alone). *)
  | FirePoint p =>
      match nth_error (sw_points w) p with
      | None => Done (w, ANoSuch)
      | Some q => let! v := slots_visit (pt_slots q) in Done (w, ACalls (map snd v))
      end
  | GetEnum b ord =>
      match nth_error (sw_boxes w) b with
      | None => Done (w, ANoSuch)
      | Some x => Done (mk_sworld (sw_points w) (sw_boxes w) (sw_enums w ++ [mk_enum (ord (map fst x)) 0]),
                        AEnum (length (sw_enums w)))
      end
  (* probe-enumerator.h:85-88 *)
  | ResetEnum e =>
      match nth_error (sw_enums w) e with
      | None => Done (w, ANoSuch)
      | Some x => Done (mk_sworld (sw_points w) (sw_boxes w) (upd (sw_enums w) e (mk_enum (en_items x) 0)), AUnit)
      end
  (* probe-enumerator.h:90-93 *)
  | HasNextEnum e =>
      match nth_error (sw_enums w) e with
      | None => Done (w, ANoSuch)
      | Some x => Done (w, AFlag (en_index x <? length (en_items x))%nat)
      end
  (* probe-enumerator.h:95-105 *)
  | NextEnum e =>
      match nth_error (sw_enums w) e with
      | None => Done (w, ANoSuch)
      | Some x =>
          if (length (en_items x) <=? en_index x)%nat then Throw OutOfBounds
          else match nth_error (en_items x) (en_index x) with
               | None => UB
               | Some n => Done (mk_sworld (sw_points w) (sw_boxes w)
                                   (upd (sw_enums w) e (mk_enum (en_items x) (S (en_index x)))), AName n)
               end
      end
  end.

(** One call as its caller sees it.  Everything an operation changes is changed
    after the last point at which it can throw, except that [MergeFrom] looks
    names up between insertions; those lookups never fail
    (Theorem C63_refines), so an exception leaves the world as it was. *)
Definition s_call (o : sop) (w : sworld) : outcome (sworld * answer) :=
  match s_step o w with
  | Throw e => Done (w, AThrew e)
  | r => r
  end.

(** A history: the world and the answers, oldest first. *)
Fixpoint s_run (l : list sop) (w : sworld) : outcome (sworld * list answer) :=
  match l with
  | [] => Done (w, [])
  | o :: t =>
      let! (w1, a) := s_call o w in
      let! (w2, r) := s_run t w1 in
      Done (w2, a :: r)
  end.

End Containers.
