(** Messages between pipelined elements: xtrack/pipeline/manager.py and core.py.

    Buffers are sequences of numbers identified by natural numbers; a message is a buffer, not its contents.
    Processes run one after the other in any order, so that a run is a list of calls; all of them register the same
    elements and particles before. *)
From Coq Require Import QArith ZArith List Bool String Arith.
From Verif.Model Require Import Line.
Import ListNotations.
Local Open Scope list_scope.

(** * Registration *)

(** Python dictionaries keep one entry for each key *)
Fixpoint get {A} (d : list (string * A)) (n : string) : option A :=
  match d with [] => None | (m, e) :: r => if String.eqb n m then Some e else get r n end.
Fixpoint put {A} (d : list (string * A)) (n : string) (x : A) : list (string * A) :=
  match d with
  | [] => [(n, x)]
  | (m, e) :: r => if String.eqb n m then (n, x) :: r else (m, e) :: put r n x
  end.

(** manager.py:5-10; [m_ranks]: _particles_per_rank, absent ranks have no names *)
Record manager := mkManager {
  m_ids : list (string * (nat * nat)); (* rank, number *)
  m_ranks : nat -> list string;
  m_elements : list (string * nat) }.
Definition new_manager : manager := mkManager [] (fun _ => []) [].

Inductive registration := Particles (name : string) (rank : nat) | Element (name : string).
(** manager.py:19-27 and 35-36 *)
Definition register (m : manager) (r : registration) : manager :=
  match r with
  | Particles name rank =>
      mkManager (put (m_ids m) name (rank, List.length (m_ranks m rank)))
        (fun k => if (k =? rank)%nat then m_ranks m rank ++ [name] else m_ranks m k)
        (m_elements m)
  | Element name => mkManager (m_ids m) (m_ranks m) (put (m_elements m) name (List.length (m_elements m)))
  end.

(** The arguments which tell messages apart *)
Record channel := mkChannel { c_element : string; c_sender : string; c_receiver : string; c_internal : nat }.

(** manager.py:41-45. [None]: KeyError. With the ranks of sender and receiver *)
Definition message_tag (m : manager) (c : channel) : option (nat * nat * nat) :=
  match get (m_elements m) (c_element c), get (m_ids m) (c_sender c), get (m_ids m) (c_receiver c) with
  | Some e, Some (rs, s), Some (rr, r) =>
      let ne := List.length (m_elements m) in
      let ni := List.length (m_ids m) in
      Some (rs, rr, e + ne * s + ne * ni * r + ne * ni * ni * c_internal c)%nat
  | _, _, _ => None
  end.
(** manager.py:50-51 *)
Definition message_key (c : channel) (tag : nat) : string :=
  (c_element c ++ "_" ++ c_sender c ++ "_" ++ c_receiver c ++ "_" ++ dec tag)%string.

(** * Communicators *)

(** The PipelineCommunicator of core.py, or MPI: there messages with one source, destination and tag are received in
    the order of sending, and Test tells whether the message of the request was received. *)
Inductive mode := Default | MPI.

(** where a message is put (core.py:19-25) and looked for (core.py:27-38): the PipelineCommunicator uses the
    destination in the first case and the source in the second *)
Definition slot := (nat * nat * nat)%type.
Definition send_slot (md : mode) (rs rr tag : nat) : slot :=
  match md with Default => (rr, rr, tag) | MPI => (rs, rr, tag) end.
Definition recv_slot (md : mode) (rs rr tag : nat) : slot :=
  match md with Default => (rs, rs, tag) | MPI => (rs, rr, tag) end.
Definition slot_eqb (a b : slot) : bool :=
  let '(x, y, z) := a in let '(u, v, w) := b in (x =? u)%nat && (y =? v)%nat && (z =? w)%nat.
(** each process has a _last_request_turn of its own; there is one process with the PipelineCommunicator *)
Definition process (md : mode) (rs : nat) : nat := match md with Default => 0 | MPI => rs end.

(** [w_queues]: messages as pairs of a serial number and a buffer; [w_last]: by process and key, the turn, the slot and
    the serial number of the last request *)
Record world := mkWorld {
  w_heap : nat -> list Q;
  w_queues : slot -> list (nat * nat);
  w_serial : nat;
  w_last : nat -> string -> option (Z * slot * nat) }.
Definition start : world := mkWorld (fun _ => []) (fun _ => []) 0 (fun _ _ => None).

Definition set_heap (h : nat -> list Q) (b : nat) (x : list Q) : nat -> list Q := fun k => if (k =? b)%nat then x else h k.
Definition set_queue (q : slot -> list (nat * nat)) (s : slot) (x : list (nat * nat)) : slot -> list (nat * nat) :=
  fun k => if slot_eqb k s then x else q k.
Definition set_last (l : nat -> string -> option (Z * slot * nat)) (p : nat) (k : string) (x : Z * slot * nat) :=
  fun p' k' => if (p' =? p)%nat && String.eqb k' k then Some x else l p' k'.

(** receive_buffer[:] = message[:] with numpy *)
Definition assign (n : nat) (message : list Q) : option (list Q) :=
  if (List.length message =? n)%nat then Some message
  else match message with [x] => Some (repeat x n) | _ => None end.

(** [Write]: somebody fills a buffer *)
Inductive op :=
| Write (b : nat) (data : list Q)
| Send (b : nat) (c : channel) (turn : Z)
| ReadyToSend (c : channel) (turn : Z)
| ReadyToReceive (c : channel)
| Receive (b : nat) (c : channel).
Inductive out := Done | Bool (x : bool) | Data (x : list Q).

(** [None]: KeyError, AssertionError or ValueError *)
Definition step (md : mode) (m : manager) (w : world) (o : op) : option (world * out) :=
  match o with
  | Write b x => Some (mkWorld (set_heap (w_heap w) b x) (w_queues w) (w_serial w) (w_last w), Done)
  (* manager.py:67-74 *)
  | Send b c turn =>
      match message_tag m c with
      | None => None
      | Some (rs, rr, tag) =>
          let sl := send_slot md rs rr tag in
          let n := w_serial w in
          Some (mkWorld (w_heap w) (set_queue (w_queues w) sl (w_queues w sl ++ [(n, b)])) (S n)
                  (set_last (w_last w) (process md rs) (message_key c tag) (turn, sl, n)), Done)
      end
  (* manager.py:53-65 *)
  | ReadyToSend c turn =>
      match message_tag m c with
      | None => None
      | Some (rs, rr, tag) =>
          let ready :=
            match w_last w (process md rs) (message_key c tag) with
            | None => true
            | Some (last, sl, n) =>
                if (turn <=? last)%Z then false
                else match md with
                     | Default => true
                     | MPI => negb (existsb (fun x => (fst x =? n)%nat) (w_queues w sl))
                     end
            end in
          Some (w, Bool ready)
      end
  (* manager.py:76-81 *)
  | ReadyToReceive c =>
      match message_tag m c with
      | None => None
      | Some (rs, rr, tag) =>
          Some (w, Bool (match w_queues w (recv_slot md rs rr tag) with [] => false | _ => true end))
      end
  (* manager.py:83-87, core.py:27-32 *)
  | Receive b c =>
      match message_tag m c with
      | None => None
      | Some (rs, rr, tag) =>
          let sl := recv_slot md rs rr tag in
          match w_queues w sl with
          | [] => None
          | (_, b') :: r =>
              match assign (List.length (w_heap w b)) (w_heap w b') with
              | None => None
              | Some x => Some (mkWorld (set_heap (w_heap w) b x) (set_queue (w_queues w) sl r) (w_serial w) (w_last w), Data x)
              end
          end
      end
  end.

(** A run; the latest call is the first of the trace *)
Definition trace := list (op * out).
Fixpoint run (md : mode) (m : manager) (w : world) (tr : trace) (ops : list op) : option (world * trace) :=
  match ops with
  | [] => Some (w, tr)
  | o :: r => match step md m w o with
              | None => None
              | Some (w', x) => run md m w' ((o, x) :: tr) r
              end
  end.
