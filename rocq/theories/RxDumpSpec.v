(** What the listing of a program should say: a line for every instruction the
    matcher can come to, agreeing with what the matcher decodes there. *)
From Coq Require Sorted.
From Verif Require Import Base UTF8Model RxModel RxDumpModel.

Definition utf8 (l : list Z) : list Z := flat_map UTF8Put l.
(** The name of a group; group 0, the whole match, has none *)
Definition group_name (names : list (list Z)) (k : Z) : list Z :=
  if k =? 0 then [] else utf8 (nth (Z.to_nat (k - 1)) names []).

(** The instruction at [p] and its line *)
Definition shows (names : list (list Z)) (p : Z) (i : instr) (l : line) : Prop :=
  match i, l with
  | IAccept, DAccept | IAny _, DAny | IBOL _, DBOL | IEOL _, DEOL | IZero _, DZero => True
  | IChar c _, DChar c' b => c' = c /\ b = UTF8Put c
  | IClass false t _, DClass b | IClass true t _, DNegClass b | IProp t _, DProp b => b = utf8 t
  | IJump a, DJump o d | ISplit a _, DSplit o d | INeg a _, DNeg o d => d = a /\ o = a - (p + 1)
  | ICapStart k _, DCapStart (Some n) g | ICapEnd k _, DCapEnd (Some n) g => g = k /\ n = group_name names k
  | ICount mn mx a _, DCount mn' mx' o d => mn = mn' mod 65536 /\ mx = mx' mod 65536 /\ d = a /\ o = a - (p + 3)
  | _, _ => False
  end.
(** Where the matcher goes on from an instruction *)
Definition targets (i : instr) : list Z :=
  match i with
  | IAccept | IOther => []
  | IChar _ n | IAny n | IClass _ _ n | IProp _ n | IBOL n | IEOL n | ICapStart _ n | ICapEnd _ n | IZero n => [n]
  | IJump a => [a]
  | ISplit a n | ICount _ _ a n | INeg a n => [a; n]
  end.
Definition listing (prog : list Z) (h : header) (lines : list (Z * line)) : Prop :=
  exists body nesting,
    lines = (0, DStart (h_search h) (h_start h) (h_stations h) nesting (h_captures h) (map utf8 (h_names h))) ::
            body ++ [(Z.of_nat (length prog) - 1, DNull)] /\
    Sorted.StronglySorted Z.lt (map fst lines) /\
    In (h_start h) (map fst body) /\ In (h_search h) (map fst body) /\
    forall p l, In (p, l) body ->
      exists i, decode prog p = Ok i /\ shows (h_names h) p i l /\ forall q, In q (targets i) -> In q (map fst body).
