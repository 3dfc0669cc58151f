(** What pipelined elements expect from the manager, in terms of the calls made so far (the latest first) *)
From Coq Require Import QArith ZArith List Bool String Arith.
From Verif.Model Require Import Pipeline.
Import ListNotations.
Local Open Scope list_scope.

(** Each name is registered once. *)
Definition reg_name (r : registration) : bool * string :=
  match r with Particles n _ => (true, n) | Element n => (false, n) end.
Definition registered_once (l : list registration) : Prop := NoDup (map reg_name l).
(** The names of a channel are registered. *)
Definition known (l : list registration) (c : channel) : Prop :=
  In (Element (c_element c)) l /\ (exists k, In (Particles (c_sender c) k) l) /\ (exists k, In (Particles (c_receiver c) k) l).
Definition op_channel (o : op) : option channel :=
  match o with Write _ _ => None | Send _ c _ | ReadyToSend c _ | ReadyToReceive c | Receive _ c => Some c end.
Definition all_known (l : list registration) (ops : list op) : Prop :=
  forall o c, In o ops -> op_channel o = Some c -> known l c.
(** All particles belong to one process. *)
Definition one_rank (l : list registration) : Prop :=
  forall n k n' k', In (Particles n k) l -> In (Particles n' k') l -> k = k'.

Lemma channel_dec (a b : channel) : {a = b} + {a <> b}.
Proof. decide equality; (apply string_dec || apply Nat.eq_dec). Defined.

(** The contents of a buffer *)
Fixpoint content (tr : trace) (b : nat) : list Q :=
  match tr with
  | [] => []
  | (Write b' x, _) :: r => if (b =? b')%nat then x else content r b
  | (Receive b' _, Data x) :: r => if (b =? b')%nat then x else content r b
  | _ :: r => content r b
  end.
(** The messages sent over a channel, with the contents which the buffer had then *)
Fixpoint sent (tr : trace) (c : channel) : list (nat * list Q) :=
  match tr with
  | [] => []
  | (Send b c' _, _) :: r => if channel_dec c' c then sent r c ++ [(b, content r b)] else sent r c
  | _ :: r => sent r c
  end.
(** The messages received over a channel *)
Fixpoint received (tr : trace) (c : channel) : list (list Q) :=
  match tr with
  | [] => []
  | (Receive _ c', Data x) :: r => if channel_dec c' c then received r c ++ [x] else received r c
  | _ :: r => received r c
  end.
(** Those sent and not received yet *)
Definition waiting (tr : trace) (c : channel) : list (nat * list Q) := skipn (List.length (received tr c)) (sent tr c).
(** The turn of the latest message *)
Fixpoint last_turn (tr : trace) (c : channel) : option Z :=
  match tr with
  | [] => None
  | (Send _ c' t, _) :: r => if channel_dec c' c then Some t else last_turn r c
  | _ :: r => last_turn r c
  end.

(** Nobody touches a buffer which waits to be received, and messages have the length of the buffer for them. *)
Definition careful_step (tr : trace) (o : op) : Prop :=
  match o with
  | Write b _ => forall c x, ~ In (b, x) (waiting tr c)
  | Receive b c =>
      (forall c' x, ~ In (b, x) (waiting tr c')) /\
      (forall b' x r, waiting tr c = (b', x) :: r -> List.length (content tr b) = List.length x)
  | _ => True
  end.
Fixpoint careful (tr : trace) : Prop :=
  match tr with [] => True | (o, _) :: r => careful_step r o /\ careful r end.

(** What a call gives: a message is received if one waits, and it is the first; one can be received if one waits;
    one can be sent at a later turn (and, with MPI, if the last one was received). *)
Definition expected (md : mode) (tr : trace) (o : op) : option out :=
  match o with
  | Write _ _ | Send _ _ _ => Some Done
  | ReadyToSend c t =>
      Some (Bool (match last_turn tr c with
                  | None => true
                  | Some l => (l <? t)%Z && (match md, waiting tr c with MPI, _ :: _ => false | _, _ => true end)
                  end))
  | ReadyToReceive c => Some (Bool (match waiting tr c with [] => false | _ => true end))
  | Receive _ c => match waiting tr c with [] => None | (_, x) :: _ => Some (Data x) end
  end.
