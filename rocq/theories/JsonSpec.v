(** Specification of JSON string contents (RFC 8259, section 7), without the
    quotation marks: which texts are well-formed and the characters they stand
    for.  A \u escape of a lone surrogate stands for no character. *)
From Verif Require Import Base.

Definition hex_value (c d : Z) : Prop :=
  48 <= c <= 57 /\ d = c - 48 \/ 65 <= c <= 70 /\ d = c - 55 \/ 97 <= c <= 102 /\ d = c - 87.
(** The six characters \uXXXX and their code unit. *)
Definition unit_escape (e : list Z) (u : Z) : Prop :=
  exists a b c d w x y z, e = [92; 117; a; b; c; d] /\ hex_value a w /\ hex_value b x /\ hex_value c y /\ hex_value d z /\
    u = ((w * 16 + x) * 16 + y) * 16 + z.

Inductive json_contents : list Z -> list Z -> Prop :=
| JEnd : json_contents [] []
| JPlain c t u : 0x20 <= c <= 0x10FFFF -> c <> 34 -> c <> 92 -> ~ (0xD800 <= c <= 0xDFFF) ->
    json_contents t u -> json_contents (c :: t) (c :: u)
| JShort e c t u : In (e, c) [(34, 34); (92, 92); (47, 47); (98, 8); (102, 12); (110, 10); (114, 13); (116, 9)] ->
    json_contents t u -> json_contents (92 :: e :: t) (c :: u)
| JUnit e c t u : unit_escape e c -> ~ (0xD800 <= c <= 0xDFFF) ->
    json_contents t u -> json_contents (e ++ t) (c :: u)
| JPair e1 e2 hi lo t u : unit_escape e1 hi -> unit_escape e2 lo -> 0xD800 <= hi <= 0xDBFF -> 0xDC00 <= lo <= 0xDFFF ->
    json_contents t u -> json_contents (e1 ++ e2 ++ t) (0x10000 + (hi - 0xD800) * 1024 + (lo - 0xDC00) :: u).
