(** Which constructs the regular expression compiler refuses, and with which
    message: the rules, on the constructs of the pattern in order. *)
From Verif Require Import Base RxCompModel.

(** Groups that are open after these constructs. *)
Definition open_groups (h : list token) : Z :=
  fold_left (fun d t => match t with TGroup | TNamed _ | TNeg => d + 1 | TEnd => d - 1 | _ => d end) h 0.
(** The names given so far. *)
Definition names_in (h : list token) : list (list Z) :=
  flat_map (fun t => match t with TNamed l => [l] | _ => [] end) h.
(** The last construct is something that can be repeated: characters, a class,
    or a group that has been closed. *)
Definition after_atom (h : list token) : bool :=
  match rev h with
  | (TLit _ | TAny | TProp _ | TClass _ _ | TEnd) :: _ => true
  | _ => false
  end.

(** After the constructs [h] construct [t] is refused with this message ([None]
    inside: without a message). *)
Inductive refused (h : list token) : token -> option msg -> Prop :=
| r_deep t : In t [TGroup; TNeg] -> 11 <= open_groups h -> refused h t (Some MTooDeep)
| r_many l : 254 <= Z.of_nat (length (names_in h)) -> refused h (TNamed l) (Some MTooManyNames)
| r_twice l : Z.of_nat (length (names_in h)) < 254 -> In l (names_in h) -> refused h (TNamed l) (Some MDuplicate)
| r_deep_named l : Z.of_nat (length (names_in h)) < 254 -> ~ In l (names_in h) -> 11 <= open_groups h ->
    refused h (TNamed l) (Some MTooDeep)
| r_close : open_groups h <= 0 -> refused h TEnd None
| r_repeated mn mx : after_atom h = false -> refused h (TRep mn mx) (Some MRepeated)
| r_limit mn mx : after_atom h = true -> 254 < mn \/ 254 < mx -> refused h (TRep mn mx) (Some MLimit).

(** The tokens among the events of a scan. *)
Definition tokens (es : list event) : list token :=
  flat_map (fun e => match e with Tok t => [t] | Err _ => [] end) es.
