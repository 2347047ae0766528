(** What Error variables say, without storage: a number, a text and
    parameters each. *)
From Verif Require Import Base RefModel ErrorModel.

Record said := mksaid { s_num : Z; s_text : Z; s_params : Z }.
Definition no_error : said := mksaid 0 0 0.
(** The number of an error: bits 27 and 26 mark it. *)
Definition marked (n : Z) : Z := if n =? 0 then 0 else Z.lor n 0xC000000.

Definition env : Type := nat -> said.
Definition put (v : env) (x : nat) (w : said) : env := fun y => if (y =? x)%nat then w else v y.

(** Thread [t] is between two operations and owns [x]. *)
Definition can (s : estate) (t x : nat) : Prop := idle (es_ref s) t = true /\ owns (es_ref s) t x = true.
Definition canb (s : estate) (t x : nat) : bool := idle (es_ref s) t && owns (es_ref s) t x.

(** An operation that a thread begins (in state [s]), on the values. *)
Definition effect (s : estate) (e : eevent) (v : env) : env :=
  match e with
  | EMake t dst n d p => if canb s t dst then put v dst (mksaid (marked n) d p) else v
  | ECopy t dst src => if canb s t dst && canb s t src then put v dst (v src) else v
  | EDrop t dst => if canb s t dst then put v dst no_error else v
  | EGive _ _ _ | EStep _ => v
  end.
(** ... and a whole run. *)
Fixpoint effects (s : estate) (es : list eevent) (v : env) : env :=
  match es with
  | [] => v
  | e :: es => match estep s e with Ok s' => effects s' es (effect s e v) | _ => v end
  end.

(** What a variable reads as. *)
Definition reads (s : estate) (x : nat) (w : said) : Prop :=
  error_num s x = Ok (s_num w) /\ error_int s x = Ok (s_num w) /\
  default_text s x = Ok (s_text w) /\ parameters s x = Ok (s_params w).

Definition thread_of (e : eevent) : nat :=
  match e with EMake t _ _ _ _ | ECopy t _ _ | EDrop t _ | EGive t _ _ | EStep t => t end.
