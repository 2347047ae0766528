(** The failures that a parse records (include/peg_ast.h): the matcher of
    PegModel again, with the calls of record_failure that it makes.  The calls
    have no influence on matching (proved: C50_matching_unchanged). *)
From Verif Require Import Base UTF8Model PegModel.

(** One call of record_failure (pegexp.h:723-727): the rule whose context it is
    (the pattern pointers are into that rule's pattern), the arguments op,
    op_end and location, capture_disabled, the origin of the context, and
    root->path (peg_ast.h:140-145: every context pushes the name of its rule
    and pulls it when it goes).  Rules are indices. *)
Record call := mkcall { k_rule : nat; k_op : nat; k_end : nat; k_loc : src; k_dis : nat; k_origin : src; k_path : list nat }.

(** The result and the calls made on the way *)
Definition logged (A : Type) : Type := res (A * list call).
Definition lret {A} (a : A) : logged A := Done (a, []).
Definition llift {A} (x : res A) : logged A := run a <- x; Done (a, []).
Definition lbind {A B} (x : logged A) (f : A -> logged B) : logged B :=
  run al <- x;
  run bl <- f (fst al);
  Done (fst bl, snd al ++ snd bl).
Notation "'log' x <- e ; f" := (lbind e (fun x => f))
  (at level 200, x pattern, e at level 100, f at level 200, right associativity).
Notation "'get' x <- e ; f" := (lbind (llift e) (fun x => f))
  (at level 200, x pattern, e at level 100, f at level 200, right associativity).

(** pegexp.h:710 the operators that are not reported: ? * + ( | & !
    (strchr also finds the terminating NUL). *)
Definition composite (rc : Z) : bool := existsb (Z.eqb rc) [63; 42; 43; 40; 124; 38; 33; 0].
(** The call for a failed atom of a grammar; a plain Pegexp's context ignores
    it (pegexp.h:286). *)
Definition failed (ch : chain) (rc : Z) (cx : ctx) (op op_end : nat) (loc : src) : list call :=
  match ch with
  | [] => []
  | (i, origin) :: _ =>
    if composite rc then [] else [mkcall i op op_end loc (c_dis cx) origin (rev (map fst ch))]
  end.

(** pegexp.h:534-752 match_atom and the rest, as in PegModel. *)
Fixpoint fmatch_atom (f : nat) (L : lang) (P : policy) (pat : list Z) (ch : chain)
    (st : state) (cx : ctx) : logged (bool * state * ctx) :=
  match f with
  | O => NoFuel
  | S f =>
    let '(p, s0) := st in
    log r <- fmatch_switch f L P pat ch p s0 cx;
    let '(matched, (q, s1), cx1, sp) := r in
    if matched then
      get lb <- label_at f pat q;
      match fst lb with
      | None => lret (true, (q, s1), cx1)
      | Some name =>
        let v := pol_text P (length ch <=? 1)%nat (c_caps cx1) s0 s1 in
        lret (true, (snd lb, s1), if (c_dis cx1 =? 0)%nat then capture P cx1 name v else cx1)
      end
    else
      get rc <- rdp pat p;                                                (* 710-728 *)
      Done (false, (sp, s0), roll P cx1 (count cx), failed ch rc (roll P cx1 (count cx)) sp q s0)
  end

with fmatch_switch (f : nat) (L : lang) (P : policy) (pat : list Z) (ch : chain)
    (p : nat) (s0 : src) (cx : ctx) : logged (bool * state * ctx * nat) :=
  match f with
  | O => NoFuel
  | S f =>
    get rc <- rdp pat p;
    let p1 := S p in
     if rc =? 0 then lret (true, (p, s0), cx, p)
     else if rc =? 41 then lret (true, (p1, s0), cx, p)
     else if rc =? 94 then lret (at_bol s0, (p1, s0), cx, p)
     else if rc =? 36 then
       if at_eof s0 then lret (true, (p1, s0), cx, p)
       else get cs <- get_char s0; lret (fst cs =? 10, (p1, s0), cx, p)
     else if rc =? 46 then
       if at_eof s0 then lret (false, (p1, s0), cx, p)
       else get cs <- get_char s0; lret (true, (p1, snd cs), cx, p)
     else if rc =? 92 then
       if at_eof s0 then lret (false, (p1, s0), cx, p)
       else get cs <- get_char s0;
            get bp <- char_property pat p1 (fst cs);
            lret (fst bp, (snd bp, snd cs), cx, p)
     else if rc =? 91 then
       get bs <- char_class f pat p1 s0;
       lret (fst bs, snd bs, cx, p)
     else if (rc =? 63) || (rc =? 42) || (rc =? 43) then
       let once := rc =? 63 in
       let cx1 := if once then cx else set_rep cx (S (c_rep cx)) in
       log r1 <-
         (if rc =? 43 then fmatch_atom f L P pat ch (p1, s0) cx1
          else lret (true, (p1, s0), cx1));
       let '(ok, st1, cx2) := r1 in
       log r2 <-
         (if ok then
            log sc <- frep_loop f L P pat ch once p1 st1 cx2;
            lret (true, fst sc, snd sc)
          else lret (false, st1, cx2));
       let '(m, st2, cx3) := r2 in
       lret (m, st2, if once then cx3 else set_rep cx3 (c_rep cx3 - 1), p)
     else if rc =? 40 then
       log r1 <- fmatch_sequence f L P pat ch (p1, s0) cx;
       let '(ok, (q, s1), cx1) := r1 in
       if ok then
         get c <- rdp pat q;
         lret (true, (if c =? 0 then q else S q, s1), cx1, p)
       else lret (false, (q, s1), cx1, p)
     else if rc =? 124 then
       falt_loop f L P pat ch (count cx) p p s0 cx
     else if (rc =? 38) || (rc =? 33) then
       log r1 <- fmatch_atom f L P pat ch (p1, s0) (set_dis cx (S (c_dis cx)));
       let '(m, _, cx1) := r1 in
       let cx1 := set_dis cx1 (c_dis cx1 - 1) in
       let m := if rc =? 33 then negb m else m in
       if m then get q <- skip_atom f L pat p; lret (true, (q, s0), cx1, p)
       else lret (false, (p, s0), cx1, p)
     else if extended rc then
       match L with
       | Plain => get r1 <- match_literal pat (p, s0); lret (fst r1, snd r1, cx, p)
       | Gram rules =>
         if negb (rc =? 60)
         then get r1 <- match_literal pat (p, s0); lret (fst r1, snd r1, cx, p)
         else
           get call <- parse_call f pat p;
           let '(rn, label, call_end) := call in
           match lookup rules (skipn rn pat) with
           | None => lret (false, (p, s0), cx, p)
           | Some i =>
             match nth_error rules i with
             | None => Undef
             | Some sub_rule =>
               let spat := r_pat sub_rule in
               let scx := mkctx [] (c_dis cx) 0 (c_msgs cx) in
               log r1 <-
                 (if left_recursive ch i s0
                  then get fl <- is_failure spat (0%nat, s0) (0%nat, s0);
                       lret (fl, s0, scx)
                  else
                    log r <- fmatch_sequence f L P spat ((i, s0) :: ch) (0%nat, s0) scx;
                    let '(ok, (q, s1), scx1) := r in
                    get c <- rdp spat q;
                    if ok && (c =? 0)
                    then get fl <- is_failure spat (0%nat, s0) (q, s1); lret (fl, s1, scx1)
                    else get fl <- is_failure spat (q, s1) (q, s1); lret (fl, s0, scx1));
               let '(fl, s1, scx1) := r1 in
               let cx1 := mkctx (c_caps cx) (c_dis cx) (c_rep cx) (c_msgs scx1) in
               if fl then lret (false, (call_end, s1), cx1, p)
               else
                 let '(lkey, lname) :=
                   match label with
                   | Some (lp, nm) => (skipn lp pat, nm)
                   | None => (r_name sub_rule, r_name sub_rule)
                   end in
                 match ch with
                 | [] => Undef
                 | (cur, _) :: _ =>
                   match nth_error rules cur with
                   | None => Undef
                   | Some cur_rule =>
                     let cx2 :=
                       if (c_dis cx =? 0)%nat && is_captured cur_rule lkey
                       then capture P cx1 lname (pol_text P false (c_caps scx1) s0 s1)
                       else cx1 in
                     lret (true, (call_end, s1), cx2, p)
                   end
                 end
             end
           end
       end
     else
       if at_eof s0 then lret (false, (p1, s0), cx, p)
       else get cs <- get_char s0; lret (u32 rc =? fst cs, (p1, snd cs), cx, p)
  end

(** pegexp.h:363-378 match_sequence. *)
with fmatch_sequence (f : nat) (L : lang) (P : policy) (pat : list Z) (ch : chain)
    (st : state) (cx : ctx) : logged (bool * state * ctx) :=
  match f with
  | O => NoFuel
  | S f =>
    log r <- fseq_loop f L P pat ch st cx;
    let '(ok, st1, cx1) := r in
    lret (ok, st1, if ok then cx1 else roll P cx1 (count cx))
  end

with fseq_loop (f : nat) (L : lang) (P : policy) (pat : list Z) (ch : chain)
    (st : state) (cx : ctx) : logged (bool * state * ctx) :=
  match f with
  | O => NoFuel
  | S f =>
    get e <- at_expr_end pat (fst st);
    if e then lret (true, st, cx)
    else
      log r <- fmatch_atom f L P pat ch st cx;
      let '(ok, st1, cx1) := r in
      if ok then fseq_loop f L P pat ch st1 cx1 else lret (false, st1, cx1)
  end

(** pegexp.h:607-624 *)
with frep_loop (f : nat) (L : lang) (P : policy) (pat : list Z) (ch : chain) (once : bool)
    (rp : nat) (st : state) (cx : ctx) : logged (state * ctx) :=
  match f with
  | O => NoFuel
  | S f =>
    log r <- fmatch_atom f L P pat ch (rp, snd st) cx;
    let '(ok, st1, cx1) := r in
    if ok then
      if same (snd st1) (snd st) then lret (st1, cx1)
      else if once then lret (st1, cx1)
      else frep_loop f L P pat ch once rp st1 cx1
    else
      get q <- skip_atom f L pat (fst st1);
      lret ((q, snd st1), roll P cx1 (count cx))
  end

(** pegexp.h:642-666 *)
with falt_loop (f : nat) (L : lang) (P : policy) (pat : list Z) (ch : chain) (initial : nat)
    (na sp : nat) (s0 : src) (cx : ctx) : logged (bool * state * ctx * nat) :=
  match f with
  | O => NoFuel
  | S f =>
    get c <- rdp pat na;
    if c =? 124 then
      log r <- falt_atoms f L P pat ch (S na, s0) cx;
      let '(ok, (q, s1), cx1) := r in
      if ok then
        get q' <- skip_alternates f L pat q;
        lret (true, (q', s1), cx1, S na)
      else
        get na' <- skip_atom f L pat na;
        falt_loop f L P pat ch initial na' (S na) s0 (roll P cx1 initial)
    else lret (false, (sp, s0), cx, sp)
  end

(** pegexp.h:650-654 *)
with falt_atoms (f : nat) (L : lang) (P : policy) (pat : list Z) (ch : chain)
    (st : state) (cx : ctx) : logged (bool * state * ctx) :=
  match f with
  | O => NoFuel
  | S f =>
    log r <- fmatch_atom f L P pat ch st cx;
    let '(ok, st1, cx1) := r in
    if ok then
      get c <- rdp pat (fst st1);
      if (c =? 0) || (c =? 41) || (c =? 124) then lret (true, st1, cx1)
      else falt_atoms f L P pat ch st1 cx1
    else lret (false, st1, cx1)
  end.

(** ** What the outermost context makes of the calls *)

(** peg_ast.h:33-40 PegFailure: the atom, its length, and the path.  The
    pattern of each rule is assumed to be a string of its own, so that a
    pointer is a rule and an offset. *)
Record failure := mkfailure { a_rule : nat; a_op : nat; a_len : Z; a_path : list nat }.
(** The members furthermost_success and failures of the outermost context *)
Record reach := mkreach { h_far : src; h_fails : list failure }.

(** peg_ast.h:203-205 the operators ~@#%_;<`)^$.\?*+(|&! and the NUL, which are
    not reported *)
Definition peg_ops : list Z := [126; 64; 35; 37; 95; 59; 60; 96; 41; 94; 36; 46; 92; 63; 42; 43; 40; 124; 38; 33; 0].

(** peg_ast.h:194-221 record_failure, called on the current context and then on
    the outermost one.  capture_disabled of the outermost context need not be
    looked at again: contexts take it over from their parents. *)
Definition record_failure (rules : list rule) (k : call) (h : reach) : res reach :=
  if before (k_loc k) (k_origin k) then Done h                             (* 196-197 *)
  else if negb (k_dis k =? 0)%nat then Done h                              (* 199-200 *)
  else
    run c <- rdp (match nth_error rules (k_rule k) with Some r => r_pat r | None => [] end) (k_op k);
    if existsb (Z.eqb c) peg_ops then Done h                               (* 202-205 *)
    else if before (k_loc k) (h_far h) then Done h                         (* 208, 196 *)
    else
      let fails := if before (h_far h) (k_loc k) then [] else h_fails h in (* 210-211 *)
      if existsb (fun x => (a_rule x =? k_rule k)%nat && (a_op x =? k_op k)%nat) fails
      then Done (mkreach (h_far h) fails)                                  (* 214-216 *)
      else Done (mkreach (k_loc k)                                         (* 218-219 *)
             (fails ++ [mkfailure (k_rule k) (k_op k) (Z.of_nat (k_end k) - Z.of_nat (k_op k)) (k_path k)])).
Fixpoint record_all (rules : list rule) (ks : list call) (h : reach) : res reach :=
  match ks with
  | [] => Done h
  | k :: ks => run h <- record_failure rules k h; record_all rules ks h
  end.

(** peg.h:256-274 parse with a PegContext, up to the choice between
    match_result and match_failure (pegexp.h:341-360): did the sequence of TOP
    match, the state after it, and the calls of record_failure. *)
Definition fparse (f : nat) (rules : list rule) (text : list Z)
  : outcome (nat * rule * logged (bool * state * ctx)) :=
  match lookup rules [84; 79; 80] with
  | None => Abort
  | Some i =>
    match nth_error rules i with
    | None => UB
    | Some r =>
      let s := src_start text in
      Ok (i, r, fmatch_sequence f (Gram rules) ast_policy (r_pat r) [(i, s)] (0%nat, s) ctx0)
    end
  end.

(** What the Match that parse returns tells: is it a failure (peg_ast.h:75-76),
    and furthermost_success and failures.  match_result of the outermost
    context has them (peg_ast.h:225-226); match_failure (peg_ast.h:233-234,
    54-64) has a furthermost_success only if the Match is no failure, and no
    failures; [None] stands for the null source. *)
Record told := mktold { t_failure : bool; t_far : option src; t_fails : list failure }.
Definition reported (f : nat) (rules : list rule) (text : list Z) : outcome (res told) :=
  do x <- fparse f rules text;
  let '(_, r, y) := x in
  Ok (run z <- y;
      let '(ok, (q, s), _, ks) := z in
      run c <- rdp (r_pat r) q;
      if ok && (c =? 0)
      then
        run h <- record_all rules ks (mkreach (src_start text) []);
        Done (mktold false (Some (h_far h)) (h_fails h))
      else
        run fl <- is_failure (r_pat r) (q, s) (q, s);
        Done (mktold fl (if fl then None else Some s) [])).
