(** What results of a regular expression match are, as plain values: where the
    match starts and ends, what each group captured, and a stack of counters. *)
From Verif Require Import Base RefModel ResModel.

(** The captures of a result: how many groups (the whole match is one of
    them), how many counters it can hold, the start and end of each group after
    the whole match, and the counters, innermost first: offset and count. *)
Record groups := mkgroups { g_groups : Z; g_limit : Z; g_caps : list Z; g_stack : list (Z * Z) }.
(** A result.  [v_data] is [None] for a result that was default constructed or cleared. *)
Record value := mkvalue { v_start : Z; v_end : Z; v_data : option groups }.

Definition nothing : value := mkvalue 0 NORESULT None.
Definition blank (counters n : Z) : groups := mkgroups n counters (repeat 0 (Z.to_nat (2 * n - 2))) [].

(** What each call does to the value it is called on, and the number it
    returns.  [None]: the call fails. *)
Definition set_capture (v : value) (i x : Z) : option value :=
  if i =? 0 then Some (mkvalue x (v_end v) (v_data v))
  else if i <=? 1 then Some (mkvalue (v_start v) x (v_data v))
  else match v_data v with
       | Some g =>
         if i <? 2 * g_groups g
         then Some (mkvalue (v_start v) (v_end v)
                (Some (mkgroups (g_groups g) (g_limit g) (upd (g_caps g) (Z.to_nat (i - 2)) x) (g_stack g))))
         else None
       | None => None
       end.
Definition with_stack (v : value) (f : groups -> option (list (Z * Z))) : option value :=
  match v_data v with
  | Some g => option_map (fun st => mkvalue (v_start v) (v_end v) (Some (mkgroups (g_groups g) (g_limit g) (g_caps g) st))) (f g)
  | None => None
  end.
Definition push_counter (v : value) (off : Z) : option value :=
  with_stack v (fun g => if Z.of_nat (length (g_stack g)) <? g_limit g then Some ((off, 0) :: g_stack g) else None).
Definition incr_counter (v : value) (off : Z) : option value :=
  with_stack v (fun g => match g_stack g with (_, c) :: st => Some ((off, u32 (c + 1)) :: st) | [] => None end).
Definition pop_counter (v : value) : option value :=
  with_stack v (fun g => match g_stack g with _ :: st => Some st | [] => None end).

(** The counters, innermost first *)
Definition counters (v : value) : list (Z * Z) := match v_data v with Some g => g_stack g | None => [] end.
(** What capture(i) shows *)
Definition shows (v : value) (i : Z) : option Z :=
  if i =? 0 then Some (v_start v)
  else if i <=? 1 then Some (if v_end v =? NORESULT then 0 else v_end v)
  else match v_data v with
       | None => Some 0
       | Some g => if i <? 2 * g_groups g then nth_error (g_caps g) (Z.to_nat (i - 2)) else None
       end.

(** A call changes the one variable it names. *)
Definition vstep (vs : list value) (o : rop) : option (list value * Z) :=
  let on v f := match nth_error vs v with Some y => f y | None => Some (vs, 0) end in
  let to v r := option_map (fun y => (upd vs v y, 0)) r in
  match o with
  | RNew d c n => on d (fun _ => to d (Some (mkvalue 0 NORESULT (Some (blank c n)))))
  | RFail d => on d (fun _ => to d (Some nothing))
  | RCopy d v => on v (fun z => on d (fun _ => to d (Some z)))
  | RClear v => on v (fun _ => to v (Some nothing))
  | RSet v i x => on v (fun y => to v (set_capture y i x))
  | RPush v off => on v (fun y => to v (push_counter y off))
  | RIncr v off => on v (fun y => option_map (fun y => (upd vs v y, match counters y with (_, c) :: _ => c | [] => 0 end)) (incr_counter y off))
  | RPop v => on v (fun y => to v (pop_counter y))
  end.
Fixpoint vrun (vs : list value) (os : list rop) : option (list value * list Z) :=
  match os with
  | [] => Some (vs, [])
  | o :: os =>
    match vstep vs o with
    | Some (vs, x) => match vrun vs os with Some (vs, xs) => Some (vs, x :: xs) | None => None end
    | None => None
    end
  end.

(** Results are made for programs: at least the whole match, and no more
    counters than a program can ask for. *)
Definition fit (o : rop) : Prop :=
  match o with RNew _ c n => 0 <= c <= 127 /\ 1 <= n <= 32767 | _ => True end.
