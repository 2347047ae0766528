(** The project's own tests, run on the model by the kernel's evaluator.  This
    file proves no property; it is evidence that the definitions the theorems
    speak of are those of the code.  The data was extracted by a script from
    the files of /repo/test named beside each table, row by row; every expected
    value is the one written there. *)
From Verif Require Import Base UTF8Model CharModel PegModel.
From Verif Require RxModel RxCompModel.

Fixpoint bytes_eqb (l m : list Z) : bool :=
  match l, m with
  | [], [] => true
  | a :: l, b :: m => (a =? b) && bytes_eqb l m
  | _, _ => false
  end.

(** * test/char_encoding_test.cpp: the rows of [expect] *)

(** 80-117 utf8_char_sizes: a character and the expected UTF8Len. *)
Definition len_rows : list (Z * Z) :=
  [(0x7F, 1); (0x80, 2); (0x7FF, 2); (0x800, 3); (0xFFFF, 3); (0x10000, 4); (0x1FFFFF, 4);
   (0x200000, 5); (0x3FFFFFF, 5); (0x4000000, 6); (0xFFFFFFFE, 6);
   (0x7FFFFFFF, 6); (0x80000000, 1); (0x800000FF, 1); (0x80000100, 6)].
Example utf8_char_sizes : forallb (fun r => Z.of_nat (UTF8Len (fst r)) =? snd r) len_rows = true.
Proof. vm_compute. reflexivity. Qed.
Example utf8_first_and_second : UTF8Is1st 0xDF = true /\ UTF8Is2nd 0xBF = true.
Proof. vm_compute. auto. Qed.

(** 120-253 utf8_get_backup and utf8_invalid: the literal (with its NUL), the
    position read, the character and the bytes moved over; backing up from
    there returns to the position. *)
Definition get_rows : list (list Z * Z * Z * Z) :=
  [([0; 0], 0, 0, 1); ([65; 0], 0, 65, 1); ([0x7F; 0], 0, 0x7F, 1);
   ([0xC0; 0x80; 0], 0, 0, 2); ([0xDF; 0xBF; 0], 0, 0x7FF, 2);
   ([0xE0; 0x80; 0x80; 0], 0, 0, 3); ([0xEF; 0xBF; 0xBF; 0], 0, 0xFFFF, 3);
   ([0xF0; 0x80; 0x80; 0x80; 0], 0, 0, 4); ([0xF7; 0xBF; 0xBF; 0xBF; 0], 0, 0x1FFFFF, 4);
   ([0xF8; 0x80; 0x80; 0x80; 0x80; 0], 0, 0, 5); ([0xFB; 0xBF; 0xBF; 0xBF; 0xBF; 0], 0, 0x3FFFFFF, 5);
   ([0xFC; 0x80; 0x80; 0x80; 0x80; 0x80; 0], 0, 0, 6);
   ([0xFF; 0xBF; 0xBF; 0xBF; 0xBF; 0xBE; 0], 0, 0xFFFFFFFE, 6);
   ([0xC0; 0x01; 0], 0, 0x800000C0, 1); ([0xE0; 0xBF; 0x01; 0], 0, 0x800000E0, 1);
   ([0xF0; 0xBF; 0xBF; 0x01; 0], 0, 0x800000F0, 1);
   ([0xF8; 0xBF; 0xBF; 0xBF; 0x01; 0], 0, 0x800000F8, 1);
   ([0xFC; 0xBF; 0xBF; 0xBF; 0xBF; 0x01; 0], 0, 0x800000FC, 1);
   ([65; 0x80; 0], 1, 0x80000080, 1); ([65; 0xBF; 0], 1, 0x800000BF, 1);
   (* 269-272 utf8_eof *)
   ([49; 0], 0, 49, 1); ([49; 0], 1, 0, 1)].
Definition get_ok (r : list Z * Z * Z * Z) : bool :=
  let '(m, at_, ch, moved) := r in
  match UTF8Get (skipn (Z.to_nat at_) m) with
  | Ok (c, k) =>
      (c =? ch) && (Z.of_nat k =? moved) &&
      match UTF8Backup m (at_ + moved) (Some 0) with Ok (Some p) => p =? at_ | _ => false end
  | _ => false
  end.
Example utf8_get_backup : forallb get_ok get_rows = true.
Proof. vm_compute. reflexivity. Qed.
(** 248-252: the limit of UTF8Backup. *)
Example utf8_backup_limited :
  UTF8Get [0xBF; 0] = Ok (0x800000BF, 1%nat) /\ UTF8Backup [0xC0; 0xBF; 0] 2 (Some 1) = Ok (Some 1).
Proof. vm_compute. auto. Qed.

(** 287-346 utf8_alphabetic and 349-389 utf8_numeric, in order (UCS4Digit with the memo the calls
    before it left). *)
Definition alpha_rows : list (Z * bool) :=
  [(96, false); (97, true); (122, true); (123, false); (64, false); (65, true); (90, true); (91, false);
   (0xBF, false); (0xC0, true); (0xD6, true); (0xD7, false); (0xDF, true); (0xE0, true); (0xF6, true);
   (0xF7, false); (0x1F10, true); (0x1F15, true); (0x1F16, false); (0x2170, true); (0x217F, true);
   (0x2180, false); (0x24B5, false); (0x24B6, true); (0x24CF, true); (0xFF40, false); (0xFF41, true);
   (0xFF5A, true)].
Example utf8_alphabetic :
  forallb (fun r => match UCS4IsAlphabetic 0 0 (fst r) with Ok b => Bool.eqb b (snd r) | _ => false end)
    alpha_rows = true.
Proof. vm_compute. reflexivity. Qed.
Definition ascii_rows : list (Z * Z) := [(46, -1); (47, -1); (48, 0); (57, 9); (58, -1)].
Definition digit_rows : list (Z * Z) :=
  [(0x065F, -1); (0x0660, 0); (0x0669, 9); (0x066A, -1); (0x0AE6, -1); (0x0AE7, 1); (0x0AEF, 9);
   (0x0AF0, -1); (0xFF0F, -1); (0xFF10, 0); (0xFF19, 9); (0xFF1A, -1)].
Example utf8_numeric :
  forallb (fun r => ASCIIDigit (fst r) =? snd r) ascii_rows = true /\
  run_calls UCS4Digit 0 (map fst digit_rows) = Ok (map snd digit_rows).
Proof. vm_compute. auto. Qed.

(** * test/pegexp_test.cases: pegular expression, text, and the offset and
    text of the match ([None]: "failed"); run_pegexp_test reads a row with
    bash's [read], which takes the backslashes off. *)
Definition peg_rows : list (list Z * list Z * option (Z * list Z)) := [
 ([45], [45], Some (0, [45]));
 ([97], [97], Some (0, [97]));
 ([97; 98], [98; 97; 98; 99], Some (1, [97; 98]));
 ([97; 98; 99], [98; 97; 98; 99; 100], Some (1, [97; 98; 99]));
 ([94], [98; 97], Some (0, []));
 ([94; 97], [98; 97], None);
 ([94; 97], [97; 98], Some (0, [97]));
 ([36], [98; 97], Some (2, []));
 ([97; 36], [97; 98], None);
 ([97; 36], [98; 97], Some (1, [97]));
 ([97; 36], [98; 97; 98], None);
 ([46], [98; 97], Some (0, [98]));
 ([97; 46], [98; 97; 99], Some (1, [97; 99]));
 ([97; 46; 99], [100; 97; 98; 99; 100], Some (1, [97; 98; 99]));
 ([97; 46; 98; 46; 99], [100; 97; 100; 98; 97; 99; 100], Some (1, [97; 100; 98; 97; 99]));
 ([63; 97], [98], Some (0, []));
 ([63; 97], [97], Some (0, [97]));
 ([63; 97], [97; 97], Some (0, [97]));
 ([63; 97], [98; 97], Some (0, []));
 ([42; 97], [98], Some (0, []));
 ([42; 97], [97], Some (0, [97]));
 ([42; 97], [97; 97], Some (0, [97; 97]));
 ([42; 97], [98; 97], Some (0, []));
 ([42; 97], [98; 97; 97; 99], Some (0, []));
 ([43; 97], [98], None);
 ([43; 97], [97], Some (0, [97]));
 ([43; 97], [97; 97], Some (0, [97; 97]));
 ([43; 97], [98; 97], Some (1, [97]));
 ([43; 97], [98; 97; 97; 99], Some (1, [97; 97]));
 ([42; 98; 97; 98], [98; 97; 97; 97; 98], Some (3, [97; 98]));
 ([42; 98; 97; 97], [98; 97; 97; 97; 97; 98], Some (0, [98; 97; 97]));
 ([40; 97; 41], [97], Some (0, [97]));
 ([40; 98; 41], [97; 98], Some (1, [98]));
 ([40; 41], [98], Some (0, []));
 ([97; 124; 98], [98], None);
 ([97; 124; 98], [97; 98], Some (0, [97; 98]));
 ([124; 98], [98], Some (0, [98]));
 ([124; 97; 124; 98], [97], Some (0, [97]));
 ([124; 97; 124; 98], [98], Some (0, [98]));
 ([124; 40; 97; 41; 124; 98], [97; 98], Some (0, [97]));
 ([124; 97; 98; 124; 99; 100], [97], None);
 ([124; 97; 98; 124; 99; 100], [97; 98], Some (0, [97; 98]));
 ([124; 97; 98; 124; 99; 100], [99; 100], Some (0, [99; 100]));
 ([124; 97; 98; 124; 99; 100], [98; 99], None);
 ([124; 97; 97; 124; 97; 98], [97; 98], Some (0, [97; 98]));
 ([40; 124; 97; 124; 98; 41], [98], Some (0, [98]));
 ([40; 124; 97; 124; 98; 41], [97], Some (0, [97]));
 ([40; 124; 97; 124; 43; 98; 41], [98; 98], Some (0, [98; 98]));
 ([40; 124; 97; 124; 43; 98; 41], [98; 98; 98; 98], Some (0, [98; 98; 98; 98]));
 ([40; 124; 97; 124; 43; 98; 41], [98; 98; 98; 99], Some (0, [98; 98; 98]));
 ([40; 124; 97; 124; 43; 98; 41], [97; 98; 98; 98; 99], Some (0, [97]));
 ([40; 124; 97; 124; 43; 98; 41], [100; 98; 98; 98; 99], Some (1, [98; 98; 98]));
 ([43; 40; 124; 97; 98; 124; 99; 100; 41], [99; 100; 97; 98], Some (0, [99; 100; 97; 98]));
 ([43; 40; 124; 97; 98; 124; 99; 100; 41], [97; 98; 99; 100], Some (0, [97; 98; 99; 100]));
 ([43; 40; 124; 97; 98; 124; 99; 100; 41], [97; 98; 99; 100; 97; 98], Some (0, [97; 98; 99; 100; 97; 98]));
 ([43; 40; 124; 97; 98; 124; 99; 100; 41], [97; 98; 99; 100; 99; 100; 97; 98], Some (0, [97; 98; 99; 100; 99; 100; 97; 98]));
 ([43; 40; 124; 97; 98; 124; 99; 100; 101; 102; 41], [97; 98; 99; 100; 101; 102; 99; 100; 97; 98], Some (0, [97; 98; 99; 100; 101; 102]));
 ([43; 40; 124; 97; 98; 124; 99; 100; 124; 101; 102; 41], [97; 98; 99; 100; 101; 102; 99; 100; 97; 98], Some (0, [97; 98; 99; 100; 101; 102; 99; 100; 97; 98]));
 ([42; 97; 97; 97], [98; 97; 97; 97; 97; 98], None);
 ([97; 40; 124; 98; 99; 124; 98; 41; 99], [97; 98; 99; 99], Some (0, [97; 98; 99; 99]));
 ([97; 40; 124; 98; 99; 124; 98; 41; 99], [97; 98; 99], None);
 ([63; 97; 97], [97], None);
 ([97; 40; 124; 98; 99; 124; 98; 41; 43; 99], [97; 98; 99; 98; 99], None);
 ([97; 40; 124; 98; 124; 98; 99; 41; 43; 99], [97; 98; 99; 98; 99], Some (0, [97; 98; 99]));
 ([42; 40; 120; 41; 99], [97; 98; 99; 98; 99], Some (2, [99]));
 ([42; 40; 42; 40; 97; 41; 41], [97; 97; 97; 97; 97], Some (0, [97; 97; 97; 97; 97]));
 ([124; 98; 124; 99], [97; 98; 99], Some (1, [98]));
 ([97; 40; 98; 99; 124; 98; 41; 99], [97; 98; 99; 99], None);
 ([92; 98], [8], Some (0, [8]));
 ([92; 116], [97], None);
 ([92; 114], [13], Some (0, [13]));
 ([92; 114], [13], Some (0, [13]));
 ([92; 101], [27], Some (0, [27]));
 ([92; 102], [12], Some (0, [12]));
 ([92; 76], [76; 108], Some (1, [108]));
 ([92; 85], [117; 85], Some (1, [85]));
 ([92; 120; 48; 68], [13], Some (0, [13]));
 ([92; 120; 123; 68; 125; 48], [13; 48], Some (0, [13; 48]));
 ([92; 48; 49; 48], [8], Some (0, [8]));
 ([92; 49; 48], [8], Some (0, [8]));
 ([92; 117; 48; 48; 49; 49], [16], None);
 ([92; 117; 48; 48; 49; 48], [16], Some (0, [16]));
 ([92; 117; 123; 49; 48; 125; 48], [16; 48], Some (0, [16; 48]));
 ([92; 121], [121], Some (0, [121]));
 ([92; 117; 48; 48; 50; 81], [2; 81], Some (0, [2; 81]));
 ([92; 117; 48; 48; 48; 50; 52], [2; 52], Some (0, [2; 52]));
 ([92; 117; 123; 48; 48; 48; 48; 48; 48; 50; 52; 125], [120; 36], Some (1, [36]));
 ([92; 97], [45], None);
 ([92; 97], [122], Some (0, [122]));
 ([92; 97], [55], None);
 ([92; 100], [97], None);
 ([92; 100], [53], Some (0, [53]));
 ([92; 104], [103], None);
 ([92; 104], [97], Some (0, [97]));
 ([92; 104], [65], Some (0, [65]));
 ([92; 104], [53], Some (0, [53]));
 ([92; 119], [45], None);
 ([92; 119], [115], Some (0, [115]));
 ([92; 119], [90], Some (0, [90]));
 ([92; 119], [55], Some (0, [55]));
 ([91; 97; 99; 101; 93], [97], Some (0, [97]));
 ([91; 97; 99; 101; 93], [100], None);
 ([91; 97; 98; 99; 93], [98], Some (0, [98]));
 ([91; 97; 98; 99; 93], [99], Some (0, [99]));
 ([91; 97; 98; 99; 93], [100], None);
 ([91; 97; 45; 122; 93], [109], Some (0, [109]));
 ([91; 97; 93], [97], Some (0, [97]));
 ([91; 94; 97; 99; 101; 93], [98], Some (0, [98]));
 ([91; 94; 97; 99; 101; 93], [99], None);
 ([91; 94; 48; 45; 57; 93], [99], Some (0, [99]));
 ([43; 91; 94; 48; 45; 57; 93], [48; 52; 57; 99; 98; 48; 49; 50], Some (3, [99; 98]));
 ([91; 45; 97; 99; 101; 93], [45], Some (0, [45]));
 ([91; 97; 99; 101; 45; 93], [45], None);
 ([91; 97; 45; 122; 93], [100], Some (0, [100]));
 ([91; 97; 45; 122; 93], [48], None);
 ([91; 94; 97; 45; 122; 93], [48], Some (0, [48]));
 ([91; 94; 97; 45; 122; 93; 120], [48; 120], Some (0, [48; 120]));
 ([91; 97; 45; 122; 93; 120], [48; 120], None);
 ([91; 97; 45; 122; 93; 120], [102; 120], Some (0, [102; 120]));
 ([91; 102; 93; 120], [102; 120], Some (0, [102; 120]));
 ([91; 94; 102; 93; 120], [102; 120], None);
 ([91; 97; 45; 122; 93], [48], None);
 ([91; 97; 45; 122; 93], [103], Some (0, [103]));
 ([91; 103; 97; 45; 122; 93], [103], Some (0, [103]));
 ([91; 103; 97; 45; 122; 103; 93], [103], Some (0, [103]));
 ([91; 94; 103; 97; 45; 122; 103; 93], [103], None);
 ([91; 94; 97; 45; 122; 93], [103], None);
 ([91; 97; 45; 122; 93], [103], Some (0, [103]));
 ([91; 48; 45; 57; 93], [103], None);
 ([91; 103; 48; 45; 57; 93], [103], Some (0, [103]));
 ([91; 45; 57; 93], [45], Some (0, [45]));
 ([91; 45; 57; 93], [57], Some (0, [57]));
 ([91; 45; 57; 93], [93], None);
 ([91; 45; 57; 93], [91], None);
 ([91; 45; 45; 57; 93], [91], None);
 ([91; 45; 45; 57; 93], [45], Some (0, [45]));
 ([91; 45; 45; 57; 93], [43], None);
 ([91; 45; 45; 57; 93], [56], Some (0, [56]));
 ([91; 94; 45; 45; 57; 93], [56], None);
 ([91; 94; 45; 45; 57; 93], [43], Some (0, [43]));
 ([91; 94; 45; 57; 93], [43], Some (0, [43]));
 ([91; 94; 45; 57; 93], [45], None);
 ([91; 94; 45; 57; 93], [43], Some (0, [43]));
 ([43; 91; 45; 92; 93; 93; 88], [45; 45; 93; 88], Some (0, [45; 45; 93; 88]));
 ([43; 91; 45; 93; 93; 93; 88], [45; 93; 93; 88], Some (0, [45; 93; 93; 88]));
 ([43; 91; 92; 93; 93; 88], [45; 93; 93; 88], Some (1, [93; 93; 88]));
 ([43; 91; 93; 93; 88], [45; 93; 93; 88], None);
 ([43; 91; 94; 92; 93; 93; 88], [45; 93; 93; 88], None);
 ([43; 91; 94; 92; 93; 93; 88], [45; 93; 93; 45; 88], None);
 ([43; 91; 94; 92; 93; 93; 88], [45; 88], None);
 ([43; 91; 94; 97; 93; 88], [98; 88], None);
 ([43; 91; 92; 120; 52; 49; 45; 92; 120; 53; 65; 93], [97; 66; 67; 68; 69; 90; 122], Some (1, [66; 67; 68; 69; 90]));
 ([43; 91; 92; 117; 48; 48; 52; 49; 45; 92; 117; 48; 48; 53; 65; 93], [97; 66; 67; 68; 69; 90; 122], Some (1, [66; 67; 68; 69; 90]));
 ([91; 92; 97; 93], [45], None);
 ([91; 92; 97; 93], [122], Some (0, [122]));
 ([91; 92; 97; 93], [55], None);
 ([91; 92; 100; 93], [97], None);
 ([91; 92; 100; 93], [53], Some (0, [53]));
 ([91; 92; 104; 93], [103], None);
 ([91; 92; 104; 93], [97], Some (0, [97]));
 ([91; 92; 104; 93], [65], Some (0, [65]));
 ([91; 92; 104; 93], [53], Some (0, [53]));
 ([91; 92; 119; 93], [45], None);
 ([91; 92; 119; 93], [115], Some (0, [115]));
 ([91; 92; 119; 93], [90], Some (0, [90]));
 ([91; 92; 119; 93], [55], Some (0, [55]));
 ([91; 92; 97; 45; 93], [45], Some (0, [45]));
 ([91; 94; 92; 97; 93], [45], Some (0, [45]));
 ([91; 94; 92; 97; 93], [122], None);
 ([33; 40; 97; 41; 98], [98], Some (0, [98]));
 ([33; 40; 97; 41; 99], [98], None);
 ([33; 40; 97; 97; 41; 40; 124; 97; 124; 98; 41], [97], Some (0, [97]));
 ([33; 40; 97; 97; 41; 42; 40; 124; 97; 124; 98; 41], [97; 98], Some (0, [97; 98]));
 ([33; 40; 97; 97; 41; 42; 40; 124; 97; 124; 98; 41], [97; 98; 97; 97; 98; 98], Some (0, [97; 98; 97; 97; 98; 98]));
 ([33; 97; 40; 124; 97; 124; 98; 41], [97], None);
 ([33; 97; 40; 124; 97; 124; 98; 41], [98], Some (0, [98]));
 ([33; 97; 91; 97; 45; 122; 93], [98], Some (0, [98]));
 ([33; 97; 97], [97], None);
 ([33; 97; 98], [98], Some (0, [98]));
 ([33; 100; 40; 124; 97; 124; 43; 98; 41], [100; 98; 98; 98; 99], Some (1, [98; 98; 98]));
 ([40; 33; 97; 124; 97; 124; 98; 41], [98], Some (0, [98]));
 ([40; 33; 97; 124; 97; 124; 98; 41; 41], [97], None);
 ([40; 33; 100; 124; 97; 124; 43; 98; 41], [98; 98; 98; 99], Some (0, [98; 98; 98]));
 ([40; 33; 100; 124; 97; 124; 43; 98; 41], [100; 98; 98; 98; 99], Some (1, [98; 98; 98]));
 ([40; 124; 97; 124; 43; 98; 41], [100; 98; 98; 98; 99], Some (1, [98; 98; 98]));
 ([42; 40; 33; 40; 97; 41; 91; 97; 45; 122; 93; 41], [97; 98; 99; 100], Some (0, []));
 ([42; 40; 33; 40; 97; 97; 41; 124; 97; 124; 98; 41], [97; 98; 97; 97; 98; 98], Some (0, [97; 98]));
 ([42; 40; 33; 97; 91; 97; 45; 122; 93; 41], [97], Some (0, []));
 ([42; 40; 33; 97; 91; 97; 45; 122; 93; 41], [98], Some (0, [98]));
 ([43; 40; 33; 40; 97; 41; 91; 97; 45; 122; 93; 41], [97; 98; 99; 100], Some (1, [98; 99; 100]));
 ([43; 40; 33; 40; 97; 99; 41; 91; 97; 45; 122; 93; 41], [97; 98; 99; 100; 98; 97; 99; 100], Some (0, [97; 98; 99; 100; 98]));
 ([43; 40; 33; 40; 99; 100; 41; 91; 97; 45; 101; 93; 91; 99; 45; 102; 93; 41], [97; 98; 99; 100; 101; 101; 102; 100; 99; 99; 100; 102], Some (1, [98; 99; 100; 101; 101; 102; 100; 99]));
 ([43; 40; 33; 40; 100; 99; 41; 91; 97; 45; 101; 93; 91; 99; 45; 102; 93; 41], [97; 98; 99; 100; 101; 101; 102; 99; 100; 99; 100; 100; 99; 102], Some (1, [98; 99; 100; 101; 101; 102; 99; 100; 99; 100]));
 ([46], [226; 152; 144], Some (0, [226; 152; 144]));
 ([97; 58; 102; 111; 111], [97], Some (0, [97]));
 ([40; 97; 41; 58; 102; 111; 111], [97], Some (0, [97]))].
Definition peg_ok (x : list Z * list Z * option (Z * list Z)) : bool :=
  let '(p, t, e) := x in
  match search 3000 Plain null_policy p [] 0 (src_start t) ctx0, e with
  | Done (false, _, _, _), None => true
  | Done (true, a, b, _), Some (o, l) => (s_bytes a =? o) && bytes_eqb (string_to a b) l
  | _, _ => false
  end.
Example pegexp_test_cases : length peg_rows = 196%nat /\ forallb peg_ok peg_rows = true.
Proof. vm_compute. auto. Qed.

Import RxModel RxCompModel.
(** test/rxcompile_test.cpp and test/rxmatch_test.cpp compile with every
    feature and the extended syntax. *)
Definition feats := AllFeatures + ExtendedRE.

(** * test/rxcompile_test.cpp: regular expression, and the program (the test
    compares it as a C string, hence up to a NUL) or the error message; the
    rows the file comments out are here too. *)
Fixpoint upto_nul (l : list Z) : list Z :=
  match l with [] => [] | a :: r => if a =? 0 then [] else a :: upto_nul r end.
Definition same_msg (a b : msg) : bool :=
  match a, b with
  | MBadClass, MBadClass | MRepeated, MRepeated | MLimit, MLimit
  | MBadRepetition, MBadRepetition | MBadGroup, MBadGroup => true
  | _, _ => false
  end.
Definition compile_rows : list (list Z * (list Z + msg)) := [
 ([97], inl [83; 22; 10; 4; 1; 1; 1; 40; 1; 67; 97; 35; 65; 13; 46; 74; 9]);
 ([97; 98; 99], inl [83; 30; 10; 8; 1; 1; 1; 40; 1; 67; 97; 67; 98; 67; 99; 35; 65; 21; 46; 74; 9]);
 ([97; 32; 98; 32; 99], inl [83; 30; 10; 8; 1; 1; 1; 40; 1; 67; 97; 67; 98; 67; 99; 35; 65; 21; 46; 74; 9]);
 ([92; 97], inl [83; 22; 10; 4; 1; 1; 1; 40; 1; 67; 97; 35; 65; 13; 46; 74; 9]);
 ([92; 98], inl [83; 22; 10; 4; 1; 1; 1; 40; 1; 67; 8; 35; 65; 13; 46; 74; 9]);
 ([92; 101], inl [83; 22; 10; 4; 1; 1; 1; 40; 1; 67; 27; 35; 65; 13; 46; 74; 9]);
 ([92; 102], inl [83; 22; 10; 4; 1; 1; 1; 40; 1; 67; 12; 35; 65; 13; 46; 74; 9]);
 ([92; 110], inl [83; 22; 10; 4; 1; 1; 1; 40; 1; 67; 10; 35; 65; 13; 46; 74; 9]);
 ([92; 116], inl [83; 22; 10; 4; 1; 1; 1; 40; 1; 67; 9; 35; 65; 13; 46; 74; 9]);
 ([92; 114], inl [83; 22; 10; 4; 1; 1; 1; 40; 1; 67; 13; 35; 65; 13; 46; 74; 9]);
 ([97; 98; 92; 102; 63], inl [83; 34; 10; 8; 1; 1; 1; 40; 1; 67; 97; 67; 98; 65; 6; 67; 12; 35; 65; 25; 46; 74; 9]);
 ([97; 98; 92; 102; 42], inl [83; 38; 10; 8; 1; 1; 1; 40; 1; 67; 97; 67; 98; 65; 10; 67; 12; 74; 11; 35; 65; 29; 46; 74; 9]);
 ([97; 98; 92; 102; 43], inl [83; 34; 10; 8; 1; 1; 1; 40; 1; 67; 97; 67; 98; 67; 12; 65; 7; 35; 65; 25; 46; 74; 9]);
 ([92; 48], inl [83; 22; 10; 4; 1; 1; 1; 40; 1; 67]);
 ([92; 55], inl [83; 22; 10; 4; 1; 1; 1; 40; 1; 67; 7; 35; 65; 13; 46; 74; 9]);
 ([92; 48; 55], inl [83; 22; 10; 4; 1; 1; 1; 40; 1; 67; 7; 35; 65; 13; 46; 74; 9]);
 ([92; 48; 56], inl [83; 26; 10; 6; 1; 1; 1; 40; 1; 67]);
 ([92; 48; 55; 55], inl [83; 22; 10; 4; 1; 1; 1; 40; 1; 67; 63; 35; 65; 13; 46; 74; 9]);
 ([92; 48; 55; 55; 55], inl [83; 26; 10; 6; 1; 1; 1; 40; 1; 67; 63; 67; 55; 35; 65; 17; 46; 74; 9]);
 ([92; 48; 55; 55; 42], inl [83; 30; 10; 4; 1; 1; 1; 40; 1; 65; 10; 67; 63; 74; 11; 35; 65; 21; 46; 74; 9]);
 ([92; 120; 55], inl [83; 22; 10; 4; 1; 1; 1; 40; 1; 67; 7; 35; 65; 13; 46; 74; 9]);
 ([92; 120; 55; 71], inl [83; 26; 10; 6; 1; 1; 1; 40; 1; 67; 7; 67; 71; 35; 65; 17; 46; 74; 9]);
 ([92; 120; 55; 55], inl [83; 22; 10; 4; 1; 1; 1; 40; 1; 67; 119; 35; 65; 13; 46; 74; 9]);
 ([92; 120; 55; 69; 55], inl [83; 26; 10; 6; 1; 1; 1; 40; 1; 67; 126; 67; 55; 35; 65; 17; 46; 74; 9]);
 ([92; 120; 55; 55; 42], inl [83; 30; 10; 4; 1; 1; 1; 40; 1; 65; 10; 67; 119; 74; 11; 35; 65; 21; 46; 74; 9]);
 ([92; 117; 55; 55; 42], inl [83; 30; 10; 4; 1; 1; 1; 40; 1; 65; 10; 67; 119; 74; 11; 35; 65; 21; 46; 74; 9]);
 ([92; 117; 55], inl [83; 22; 10; 4; 1; 1; 1; 40; 1; 67; 7; 35; 65; 13; 46; 74; 9]);
 ([92; 117; 55; 55], inl [83; 22; 10; 4; 1; 1; 1; 40; 1; 67; 119; 35; 65; 13; 46; 74; 9]);
 ([92; 117; 55; 55; 55], inl [83; 24; 10; 6; 1; 1; 1; 40; 1; 67; 221; 183; 35; 65; 15; 46; 74; 9]);
 ([92; 117; 55; 55; 55; 55], inl [83; 26; 10; 8; 1; 1; 1; 40; 1; 67; 231; 157; 183; 35; 65; 17; 46; 74; 9]);
 ([92; 117; 70; 70; 70; 70; 70], inl [83; 28; 10; 10; 1; 1; 1; 40; 1; 67; 243; 191; 191; 191; 35; 65; 19; 46; 74; 9]);
 ([92; 117; 70; 70; 70; 70; 70; 49], inl [83; 32; 10; 12; 1; 1; 1; 40; 1; 67; 243; 191; 191; 191; 67; 49; 35; 65; 23; 46; 74; 9]);
 ([92; 117; 55; 55; 42], inl [83; 30; 10; 4; 1; 1; 1; 40; 1; 65; 10; 67; 119; 74; 11; 35; 65; 21; 46; 74; 9]);
 ([92; 115; 65], inl [83; 28; 10; 6; 1; 1; 1; 40; 1; 80; 1; 115; 67; 65; 35; 65; 19; 46; 74; 9]);
 ([97; 92; 115; 42], inl [83; 36; 10; 6; 1; 1; 1; 40; 1; 67; 97; 65; 12; 80; 1; 115; 74; 13; 35; 65; 27; 46; 74; 9]);
 ([92; 100; 65], inl [83; 28; 10; 6; 1; 1; 1; 40; 1; 80; 1; 100; 67; 65; 35; 65; 19; 46; 74; 9]);
 ([97; 92; 100; 42], inl [83; 36; 10; 6; 1; 1; 1; 40; 1; 67; 97; 65; 12; 80; 1; 100; 74; 13; 35; 65; 27; 46; 74; 9]);
 ([92; 104; 65], inl [83; 28; 10; 6; 1; 1; 1; 40; 1; 80; 1; 104; 67; 65; 35; 65; 19; 46; 74; 9]);
 ([97; 92; 104; 42], inl [83; 36; 10; 6; 1; 1; 1; 40; 1; 67; 97; 65; 12; 80; 1; 104; 74; 13; 35; 65; 27; 46; 74; 9]);
 ([92; 112; 123; 102; 111; 111; 125; 65], inl [83; 32; 10; 6; 1; 1; 1; 40; 1; 80; 3; 102; 111; 111; 67; 65; 35; 65; 23; 46; 74; 9]);
 ([97; 92; 112; 123; 102; 111; 111; 125; 42], inl [83; 40; 10; 6; 1; 1; 1; 40; 1; 67; 97; 65; 16; 80; 3; 102; 111; 111; 74; 17; 35; 65; 31; 46; 74; 9]);
 ([94; 97], inl [83; 24; 10; 6; 1; 1; 1; 40; 1; 94; 67; 97; 35; 65; 15; 46; 74; 9]);
 ([97; 94], inl [83; 24; 10; 6; 1; 1; 1; 40; 1; 67; 97; 94; 35; 65; 15; 46; 74; 9]);
 ([36], inl [83; 20; 10; 4; 1; 1; 1; 40; 1; 36; 35; 65; 11; 46; 74; 9]);
 ([36; 97], inl [83; 24; 10; 6; 1; 1; 1; 40; 1; 36; 67; 97; 35; 65; 15; 46; 74; 9]);
 ([46], inl [83; 20; 10; 4; 1; 1; 1; 40; 1; 46; 35; 65; 11; 46; 74; 9]);
 ([46; 42], inl [83; 28; 10; 4; 1; 1; 1; 40; 1; 65; 8; 46; 74; 9; 35; 65; 19; 46; 74; 9]);
 ([46; 43], inl [83; 24; 10; 4; 1; 1; 1; 40; 1; 46; 65; 5; 35; 65; 15; 46; 74; 9]);
 ([46; 123; 50; 44; 53; 125], inl [83; 30; 10; 8; 1; 1; 1; 40; 1; 90; 46; 82; 3; 6; 9; 35; 65; 21; 46; 74; 9]);
 ([97; 46; 98], inl [83; 28; 10; 8; 1; 1; 1; 40; 1; 67; 97; 46; 67; 98; 35; 65; 19; 46; 74; 9]);
 ([40; 97; 41], inl [83; 22; 10; 4; 2; 1; 1; 40; 1; 67; 97; 35; 65; 13; 46; 74; 9]);
 ([40; 97; 98; 41], inl [83; 26; 10; 6; 2; 1; 1; 40; 1; 67; 97; 67; 98; 35; 65; 17; 46; 74; 9]);
 ([40; 97; 41; 98], inl [83; 26; 10; 6; 2; 1; 1; 40; 1; 67; 97; 67; 98; 35; 65; 17; 46; 74; 9]);
 ([40; 97; 41; 40; 98; 41], inl [83; 26; 10; 6; 2; 1; 1; 40; 1; 67; 97; 67; 98; 35; 65; 17; 46; 74; 9]);
 ([97; 124; 98], inl [83; 34; 10; 8; 1; 1; 1; 40; 1; 65; 10; 67; 97; 74; 6; 67; 98; 35; 65; 25; 46; 74; 9]);
 ([97; 124; 98; 124; 99], inl [83; 46; 10; 10; 1; 1; 1; 40; 1; 65; 10; 67; 97; 74; 18; 65; 10; 67; 98; 74; 6; 67; 99; 35; 65; 37; 46; 74; 9]);
 ([97; 124; 98; 124; 99; 100; 101; 124; 102], inl [83; 66; 10; 16; 1; 1; 1; 40; 1; 65; 10; 67; 97; 74; 38; 65; 10; 67; 98; 74; 26; 65; 18; 67; 99; 67; 100; 67; 101; 74; 6; 67; 102; 35; 65; 57; 46; 74; 9]);
 ([40; 97; 124; 98; 41; 40; 99; 41], inl [83; 38; 10; 10; 2; 1; 1; 40; 1; 65; 10; 67; 97; 74; 6; 67; 98; 67; 99; 35; 65; 29; 46; 74; 9]);
 ([40; 97; 124; 98; 124; 99; 41; 40; 100; 41], inl [83; 50; 10; 12; 2; 1; 1; 40; 1; 65; 10; 67; 97; 74; 18; 65; 10; 67; 98; 74; 6; 67; 99; 67; 100; 35; 65; 41; 46; 74; 9]);
 ([40; 97; 124; 98; 41; 124; 40; 99; 41], inl [83; 46; 10; 12; 2; 1; 1; 40; 1; 65; 22; 65; 10; 67; 97; 74; 6; 67; 98; 74; 6; 67; 99; 35; 65; 37; 46; 74; 9]);
 ([65; 65; 65; 65; 65; 65; 65; 65; 65; 65; 65; 65; 65; 65; 65; 65; 65; 65; 65; 65; 65; 65; 65; 65; 65; 65; 65; 65; 65; 65; 65; 65; 65; 65; 65; 65; 65; 65; 65; 65; 65; 65; 65; 65; 65; 65; 65; 65; 65; 65; 65; 65; 65; 65; 65; 65; 65; 65; 65; 65; 65; 65; 65; 65; 65; 65; 65; 65; 65; 65; 65; 65; 65; 65; 65; 65; 65; 65; 65; 65; 65; 65; 65; 65; 65; 65; 65; 65; 65; 65; 65; 65; 65; 65; 65; 65; 65; 65; 65; 65; 65; 65; 65; 65; 65; 65; 65; 65; 65; 65; 65; 65; 65; 65; 65; 65; 65; 65; 65; 65; 65; 65; 65; 65; 65; 65; 65; 65; 124; 98], inl [83; 200; 164; 12; 196; 134; 1; 1; 1; 40; 1; 65; 200; 136; 67; 65; 67; 65; 67; 65; 67; 65; 67; 65; 67; 65; 67; 65; 67; 65; 67; 65; 67; 65; 67; 65; 67; 65; 67; 65; 67; 65; 67; 65; 67; 65; 67; 65; 67; 65; 67; 65; 67; 65; 67; 65; 67; 65; 67; 65; 67; 65; 67; 65; 67; 65; 67; 65; 67; 65; 67; 65; 67; 65; 67; 65; 67; 65; 67; 65; 67; 65; 67; 65; 67; 65; 67; 65; 67; 65; 67; 65; 67; 65; 67; 65; 67; 65; 67; 65; 67; 65; 67; 65; 67; 65; 67; 65; 67; 65; 67; 65; 67; 65; 67; 65; 67; 65; 67; 65; 67; 65; 67; 65; 67; 65; 67; 65; 67; 65; 67; 65; 67; 65; 67; 65; 67; 65; 67; 65; 67; 65; 67; 65; 67; 65; 67; 65; 67; 65; 67; 65; 67; 65; 67; 65; 67; 65; 67; 65; 67; 65; 67; 65; 67; 65; 67; 65; 67; 65; 67; 65; 67; 65; 67; 65; 67; 65; 67; 65; 67; 65; 67; 65; 67; 65; 67; 65; 67; 65; 67; 65; 67; 65; 67; 65; 67; 65; 67; 65; 67; 65; 67; 65; 67; 65; 67; 65; 67; 65; 67; 65; 67; 65; 67; 65; 67; 65; 67; 65; 67; 65; 67; 65; 67; 65; 67; 65; 67; 65; 67; 65; 67; 65; 67; 65; 67; 65; 67; 65; 67; 65; 67; 65; 67; 65; 67; 65; 67; 65; 67; 65; 67; 65; 67; 65; 67; 65; 67; 65; 67; 65; 67; 65; 67; 65; 67; 65; 67; 65; 74; 6; 67; 98; 35; 65; 200; 151; 46; 74; 11]);
 ([40; 97; 124; 65; 65; 65; 65; 65; 65; 65; 65; 65; 65; 65; 65; 65; 65; 65; 65; 65; 65; 65; 65; 65; 65; 65; 65; 65; 65; 65; 65; 65; 65; 65; 65; 65; 65; 65; 65; 65; 65; 65; 65; 65; 65; 65; 65; 65; 65; 65; 65; 65; 65; 65; 65; 65; 65; 65; 65; 65; 65; 65; 65; 65; 65; 65; 65; 65; 65; 65; 65; 65; 65; 65; 65; 65; 65; 65; 65; 65; 65; 65; 65; 65; 65; 65; 65; 65; 65; 65; 65; 65; 65; 65; 65; 65; 65; 65; 65; 65; 65; 65; 65; 65; 65; 65; 65; 65; 65; 65; 65; 65; 65; 65; 65; 65; 65; 65; 65; 65; 65; 65; 65; 65; 65; 65; 65; 65; 65; 65; 65; 41], inl [83; 200; 164; 12; 196; 134; 2; 1; 1; 40; 1; 65; 12; 67; 97; 74; 200; 132; 67; 65; 67; 65; 67; 65; 67; 65; 67; 65; 67; 65; 67; 65; 67; 65; 67; 65; 67; 65; 67; 65; 67; 65; 67; 65; 67; 65; 67; 65; 67; 65; 67; 65; 67; 65; 67; 65; 67; 65; 67; 65; 67; 65; 67; 65; 67; 65; 67; 65; 67; 65; 67; 65; 67; 65; 67; 65; 67; 65; 67; 65; 67; 65; 67; 65; 67; 65; 67; 65; 67; 65; 67; 65; 67; 65; 67; 65; 67; 65; 67; 65; 67; 65; 67; 65; 67; 65; 67; 65; 67; 65; 67; 65; 67; 65; 67; 65; 67; 65; 67; 65; 67; 65; 67; 65; 67; 65; 67; 65; 67; 65; 67; 65; 67; 65; 67; 65; 67; 65; 67; 65; 67; 65; 67; 65; 67; 65; 67; 65; 67; 65; 67; 65; 67; 65; 67; 65; 67; 65; 67; 65; 67; 65; 67; 65; 67; 65; 67; 65; 67; 65; 67; 65; 67; 65; 67; 65; 67; 65; 67; 65; 67; 65; 67; 65; 67; 65; 67; 65; 67; 65; 67; 65; 67; 65; 67; 65; 67; 65; 67; 65; 67; 65; 67; 65; 67; 65; 67; 65; 67; 65; 67; 65; 67; 65; 67; 65; 67; 65; 67; 65; 67; 65; 67; 65; 67; 65; 67; 65; 67; 65; 67; 65; 67; 65; 67; 65; 67; 65; 67; 65; 67; 65; 67; 65; 67; 65; 67; 65; 67; 65; 67; 65; 67; 65; 67; 65; 67; 65; 67; 65; 67; 65; 67; 65; 67; 65; 67; 65; 67; 65; 67; 65; 67; 65; 35; 65; 200; 151; 46; 74; 11]);
 ([40; 97; 98; 124; 65; 65; 65; 65; 65; 65; 65; 65; 65; 65; 65; 65; 65; 65; 65; 65; 65; 65; 65; 65; 65; 65; 65; 65; 65; 65; 65; 65; 65; 65; 65; 65; 65; 65; 65; 65; 65; 65; 65; 65; 65; 65; 65; 65; 65; 65; 65; 65; 65; 65; 65; 65; 65; 65; 65; 65; 65; 65; 65; 65; 65; 65; 65; 65; 65; 65; 65; 65; 65; 65; 65; 65; 65; 65; 65; 65; 65; 65; 65; 65; 65; 65; 65; 65; 65; 65; 65; 65; 65; 65; 65; 65; 65; 65; 65; 65; 65; 65; 65; 65; 65; 65; 65; 65; 65; 65; 65; 65; 65; 65; 65; 65; 65; 65; 65; 65; 65; 65; 65; 65; 65; 65; 65; 65; 65; 65; 65; 65; 124; 99; 100; 41], inl [83; 200; 186; 12; 196; 140; 2; 1; 1; 40; 1; 65; 16; 67; 97; 67; 98; 74; 200; 150; 65; 200; 136; 67; 65; 67; 65; 67; 65; 67; 65; 67; 65; 67; 65; 67; 65; 67; 65; 67; 65; 67; 65; 67; 65; 67; 65; 67; 65; 67; 65; 67; 65; 67; 65; 67; 65; 67; 65; 67; 65; 67; 65; 67; 65; 67; 65; 67; 65; 67; 65; 67; 65; 67; 65; 67; 65; 67; 65; 67; 65; 67; 65; 67; 65; 67; 65; 67; 65; 67; 65; 67; 65; 67; 65; 67; 65; 67; 65; 67; 65; 67; 65; 67; 65; 67; 65; 67; 65; 67; 65; 67; 65; 67; 65; 67; 65; 67; 65; 67; 65; 67; 65; 67; 65; 67; 65; 67; 65; 67; 65; 67; 65; 67; 65; 67; 65; 67; 65; 67; 65; 67; 65; 67; 65; 67; 65; 67; 65; 67; 65; 67; 65; 67; 65; 67; 65; 67; 65; 67; 65; 67; 65; 67; 65; 67; 65; 67; 65; 67; 65; 67; 65; 67; 65; 67; 65; 67; 65; 67; 65; 67; 65; 67; 65; 67; 65; 67; 65; 67; 65; 67; 65; 67; 65; 67; 65; 67; 65; 67; 65; 67; 65; 67; 65; 67; 65; 67; 65; 67; 65; 67; 65; 67; 65; 67; 65; 67; 65; 67; 65; 67; 65; 67; 65; 67; 65; 67; 65; 67; 65; 67; 65; 67; 65; 67; 65; 67; 65; 67; 65; 67; 65; 67; 65; 67; 65; 67; 65; 67; 65; 67; 65; 67; 65; 67; 65; 67; 65; 67; 65; 67; 65; 67; 65; 67; 65; 67; 65; 67; 65; 67; 65; 67; 65; 67; 65; 67; 65; 74; 10; 67; 99; 67; 100; 35; 65; 200; 173; 46; 74; 11]);
 ([40; 97; 98; 124; 99; 100; 124; 65; 65; 65; 65; 65; 65; 65; 65; 65; 65; 65; 65; 65; 65; 65; 65; 65; 65; 65; 65; 65; 65; 65; 65; 65; 65; 65; 65; 65; 65; 65; 65; 65; 65; 65; 65; 65; 65; 65; 65; 65; 65; 65; 65; 65; 65; 65; 65; 65; 65; 65; 65; 65; 65; 65; 65; 65; 65; 65; 65; 65; 65; 65; 65; 65; 65; 65; 65; 65; 65; 65; 65; 65; 65; 65; 65; 65; 65; 65; 65; 65; 65; 65; 65; 65; 65; 65; 65; 65; 65; 65; 65; 65; 65; 65; 65; 65; 65; 65; 65; 65; 65; 65; 65; 65; 65; 65; 65; 65; 65; 65; 65; 65; 65; 65; 65; 65; 65; 65; 65; 65; 65; 65; 65; 65; 65; 65; 65; 124; 101; 102; 124; 103; 104; 41], inl [83; 201; 156; 12; 196; 148; 2; 1; 1; 40; 1; 65; 16; 67; 97; 67; 98; 74; 200; 184; 65; 16; 67; 99; 67; 100; 74; 200; 166; 65; 200; 136; 67; 65; 67; 65; 67; 65; 67; 65; 67; 65; 67; 65; 67; 65; 67; 65; 67; 65; 67; 65; 67; 65; 67; 65; 67; 65; 67; 65; 67; 65; 67; 65; 67; 65; 67; 65; 67; 65; 67; 65; 67; 65; 67; 65; 67; 65; 67; 65; 67; 65; 67; 65; 67; 65; 67; 65; 67; 65; 67; 65; 67; 65; 67; 65; 67; 65; 67; 65; 67; 65; 67; 65; 67; 65; 67; 65; 67; 65; 67; 65; 67; 65; 67; 65; 67; 65; 67; 65; 67; 65; 67; 65; 67; 65; 67; 65; 67; 65; 67; 65; 67; 65; 67; 65; 67; 65; 67; 65; 67; 65; 67; 65; 67; 65; 67; 65; 67; 65; 67; 65; 67; 65; 67; 65; 67; 65; 67; 65; 67; 65; 67; 65; 67; 65; 67; 65; 67; 65; 67; 65; 67; 65; 67; 65; 67; 65; 67; 65; 67; 65; 67; 65; 67; 65; 67; 65; 67; 65; 67; 65; 67; 65; 67; 65; 67; 65; 67; 65; 67; 65; 67; 65; 67; 65; 67; 65; 67; 65; 67; 65; 67; 65; 67; 65; 67; 65; 67; 65; 67; 65; 67; 65; 67; 65; 67; 65; 67; 65; 67; 65; 67; 65; 67; 65; 67; 65; 67; 65; 67; 65; 67; 65; 67; 65; 67; 65; 67; 65; 67; 65; 67; 65; 67; 65; 67; 65; 67; 65; 67; 65; 67; 65; 67; 65; 67; 65; 67; 65; 67; 65; 67; 65; 67; 65; 67; 65; 67; 65; 67; 65; 67; 65; 67; 65; 67; 65; 74; 26; 65; 14; 67; 101; 67; 102; 74; 10; 67; 103; 67; 104; 35; 65; 201; 143; 46; 74; 11]);
 ([91; 97; 45; 99; 93], inl [83; 26; 10; 4; 1; 1; 1; 40; 1; 76; 2; 97; 99; 35; 65; 17; 46; 74; 9]);
 ([91; 97; 92; 45; 99; 93], inl [83; 34; 10; 4; 1; 1; 1; 40; 1; 76; 6; 97; 97; 45; 45; 99; 99; 35; 65; 25; 46; 74; 9]);
 ([91; 97; 45; 99; 92; 93; 93], inl [83; 30; 10; 4; 1; 1; 1; 40; 1; 76; 4; 97; 99; 93; 93; 35; 65; 21; 46; 74; 9]);
 ([91; 97; 45; 99; 92; 110; 93], inl [83; 30; 10; 4; 1; 1; 1; 40; 1; 76; 4; 97; 99; 110; 110; 35; 65; 21; 46; 74; 9]);
 ([91; 97; 45; 99; 100; 101; 102; 45; 103; 93], inl [83; 38; 10; 4; 1; 1; 1; 40; 1; 76; 8; 97; 99; 100; 100; 101; 101; 102; 103; 35; 65; 29; 46; 74; 9]);
 ([91; 45; 93], inl [83; 26; 10; 4; 1; 1; 1; 40; 1; 76; 2; 45; 45; 35; 65; 17; 46; 74; 9]);
 ([91; 45; 97; 93], inl [83; 30; 10; 4; 1; 1; 1; 40; 1; 76; 4; 45; 45; 97; 97; 35; 65; 21; 46; 74; 9]);
 ([91; 97; 45; 93], inl [83; 30; 10; 4; 1; 1; 1; 40; 1; 76; 4; 97; 97; 45; 45; 35; 65; 21; 46; 74; 9]);
 ([91; 94; 45; 97; 98; 45; 99; 93], inl [83; 34; 10; 4; 1; 1; 1; 40; 1; 78; 6; 45; 45; 97; 97; 98; 99; 35; 65; 25; 46; 74; 9]);
 ([91; 94; 45; 93], inl [83; 26; 10; 4; 1; 1; 1; 40; 1; 78; 2; 45; 45; 35; 65; 17; 46; 74; 9]);
 ([91; 97; 45; 99], inr MBadClass);
 ([91; 92], inr MBadClass);
 ([97; 63], inl [83; 26; 10; 4; 1; 1; 1; 40; 1; 65; 6; 67; 97; 35; 65; 17; 46; 74; 9]);
 ([97; 42], inl [83; 30; 10; 4; 1; 1; 1; 40; 1; 65; 10; 67; 97; 74; 11; 35; 65; 21; 46; 74; 9]);
 ([97; 43], inl [83; 26; 10; 4; 1; 1; 1; 40; 1; 67; 97; 65; 7; 35; 65; 17; 46; 74; 9]);
 ([97; 98; 99; 63], inl [83; 34; 10; 8; 1; 1; 1; 40; 1; 67; 97; 67; 98; 65; 6; 67; 99; 35; 65; 25; 46; 74; 9]);
 ([97; 98; 99; 42], inl [83; 38; 10; 8; 1; 1; 1; 40; 1; 67; 97; 67; 98; 65; 10; 67; 99; 74; 11; 35; 65; 29; 46; 74; 9]);
 ([97; 98; 99; 43], inl [83; 34; 10; 8; 1; 1; 1; 40; 1; 67; 97; 67; 98; 67; 99; 65; 7; 35; 65; 25; 46; 74; 9]);
 ([40; 97; 98; 99; 41; 63], inl [83; 34; 10; 8; 2; 1; 1; 40; 1; 65; 14; 67; 97; 67; 98; 67; 99; 35; 65; 25; 46; 74; 9]);
 ([40; 97; 98; 99; 41; 42], inl [83; 38; 10; 8; 2; 1; 1; 40; 1; 65; 18; 67; 97; 67; 98; 67; 99; 74; 19; 35; 65; 29; 46; 74; 9]);
 ([40; 97; 98; 99; 41; 43], inl [83; 34; 10; 8; 2; 1; 1; 40; 1; 67; 97; 67; 98; 67; 99; 65; 15; 35; 65; 25; 46; 74; 9]);
 ([40; 97; 124; 98; 63; 124; 99; 42; 124; 100; 43; 41; 42], inl [83; 82; 10; 12; 2; 1; 1; 40; 1; 65; 62; 65; 10; 67; 97; 74; 46; 65; 14; 65; 6; 67; 98; 74; 30; 65; 18; 65; 10; 67; 99; 74; 11; 74; 10; 67; 100; 65; 7; 74; 63; 35; 65; 73; 46; 74; 9]);
 ([40; 40; 40; 40; 97; 42; 41; 42; 41; 42; 41; 42; 41; 42], inl [83; 62; 10; 4; 5; 1; 1; 40; 1; 65; 42; 65; 34; 65; 26; 65; 18; 65; 10; 67; 97; 74; 11; 74; 19; 74; 27; 74; 35; 74; 43; 35; 65; 53; 46; 74; 9]);
 ([40; 40; 40; 40; 40; 97; 42; 41; 42; 41; 42; 41; 42; 41; 42; 41; 42], inl [83; 70; 10; 4; 6; 1; 1; 40; 1; 65; 50; 65; 42; 65; 34; 65; 26; 65; 18; 65; 10; 67; 97; 74; 11; 74; 19; 74; 27; 74; 35; 74; 43; 74; 51; 35; 65; 61; 46; 74; 9]);
 ([63], inr MRepeated);
 ([42], inr MRepeated);
 ([43], inr MRepeated);
 ([97; 98; 99; 42; 43; 100; 101; 102], inr MRepeated);
 ([40; 97; 98; 99; 41; 63; 63], inr MRepeated);
 ([40; 97; 98; 99; 41; 63; 43], inr MRepeated);
 ([40; 97; 98; 99; 41; 63; 42], inr MRepeated);
 ([40; 97; 124; 98; 41; 42; 63], inr MRepeated);
 ([40; 97; 98; 99; 41; 42; 42], inr MRepeated);
 ([40; 97; 124; 98; 41; 42; 43], inr MRepeated);
 ([40; 97; 124; 98; 41; 43; 63], inr MRepeated);
 ([40; 97; 124; 98; 41; 43; 42], inr MRepeated);
 ([40; 97; 124; 98; 41; 43; 43], inr MRepeated);
 ([97; 123; 50; 44; 51; 125], inl [83; 32; 10; 8; 1; 1; 1; 40; 1; 90; 67; 97; 82; 3; 4; 11; 35; 65; 23; 46; 74; 9]);
 ([97; 123; 32; 50; 32; 44; 32; 51; 32; 125], inl [83; 32; 10; 8; 1; 1; 1; 40; 1; 90; 67; 97; 82; 3; 4; 11; 35; 65; 23; 46; 74; 9]);
 ([97; 123; 50; 44; 125], inl [83; 32; 10; 8; 1; 1; 1; 40; 1; 90; 67; 97; 82; 3; 1; 11; 35; 65; 23; 46; 74; 9]);
 ([97; 123; 50; 44; 9; 125], inl [83; 32; 10; 8; 1; 1; 1; 40; 1; 90; 67; 97; 82; 3; 1; 11; 35; 65; 23; 46; 74; 9]);
 ([97; 123; 44; 51; 125], inl [83; 32; 10; 4; 1; 1; 1; 40; 1; 90; 67; 97; 82; 1; 4; 11; 35; 65; 23; 46; 74; 9]);
 ([97; 123; 32; 44; 51; 125], inl [83; 32; 10; 4; 1; 1; 1; 40; 1; 90; 67; 97; 82; 1; 4; 11; 35; 65; 23; 46; 74; 9]);
 ([97; 123; 50; 53; 52; 44; 50; 53; 52; 125], inl [83; 34; 12; 200; 128; 1; 1; 1; 40; 1; 90; 67; 97; 82; 255; 255; 11; 35; 65; 23; 46; 74; 9]);
 ([97; 123; 50; 53; 53; 44; 50; 53; 53; 125], inr MLimit);
 ([97; 123; 50; 53; 52; 44; 50; 53; 53; 125], inr MLimit);
 ([97; 123; 45; 49; 44; 125], inr MBadRepetition);
 ([40; 63; 60; 97; 62; 98; 41], inl [83; 34; 14; 4; 2; 2; 2; 1; 97; 40; 1; 40; 2; 67; 98; 41; 2; 35; 65; 21; 46; 74; 9]);
 ([40; 63; 60; 102; 111; 111; 62; 97; 124; 98; 63; 124; 99; 42; 124; 100; 43; 41; 123; 50; 44; 53; 125], inl [83; 100; 18; 16; 2; 2; 2; 3; 102; 111; 111; 40; 1; 90; 40; 2; 65; 10; 67; 97; 74; 46; 65; 14; 65; 6; 67; 98; 74; 30; 65; 18; 65; 10; 67; 99; 74; 11; 74; 10; 67; 100; 65; 7; 41; 2; 82; 3; 6; 71; 35; 65; 83; 46; 74; 9]);
 ([40; 63; 38; 97; 41; 40; 63; 60; 97; 62; 98; 41], inr MBadGroup)].
Definition compile_ok (x : list Z * (list Z + msg)) : bool :=
  match compile feats 0 (fst x), snd x with
  | Ok (Some p, None), inl e => bytes_eqb (upto_nul p) e
  | Ok (None, Some m), inr e => same_msg m e
  | _, _ => false
  end.
Example rxcompile_tests : length compile_rows = 114%nat /\ forallb compile_ok compile_rows = true.
Proof. vm_compute. auto. Qed.

(** * test/rxmatch_test.cpp: regular expression, text ([None]: the row has no
    text, the expression must not compile or not match), offset (-1: no match)
    and length of the match. *)
Definition match_rows : list (list Z * option (list Z) * (Z * Z)) := [
 ([], Some [97], (0, 0));
 ([124], Some [97], (0, 0));
 ([124; 97; 124], Some [97], (0, 1));
 ([97; 124; 124], Some [97], (0, 1));
 ([92; 124], Some [124], (0, 1));
 ([92; 40], Some [40], (0, 1));
 ([92; 41], Some [41], (0, 1));
 ([92; 42], Some [42], (0, 1));
 ([92; 43], Some [43], (0, 1));
 ([92; 63], Some [63], (0, 1));
 ([123], None, (0, 1));
 ([125], Some [125], (0, 1));
 ([92; 46], Some [46], (0, 1));
 ([92; 94], Some [94], (0, 1));
 ([92; 36], Some [36], (0, 1));
 ([92; 92], Some [92], (0, 1));
 ([92; 45], Some [45], (0, 1));
 ([45], Some [45], (0, 1));
 ([92; 95], Some [95], (0, 1));
 ([97], Some [97], (0, 1));
 ([97; 98], Some [98; 97; 98; 99], (1, 2));
 ([97; 98; 99], Some [98; 97; 98; 99; 100], (1, 3));
 ([94], Some [98; 97], (0, 0));
 ([94; 97], Some [98; 97], (-1, 0));
 ([94; 97], Some [97; 98], (0, 1));
 ([94; 97], Some [10; 97], (1, 1));
 ([94; 97], Some [98; 10; 97], (2, 1));
 ([36], Some [98; 97], (2, 0));
 ([97; 36], Some [97; 98], (-1, 0));
 ([97; 36], Some [98; 97], (1, 1));
 ([97; 36], Some [98; 97; 98], (-1, 0));
 ([97; 36], Some [98; 97; 10], (1, 1));
 ([97; 36], Some [97; 10; 98], (0, 1));
 ([97; 124; 94], Some [98; 10; 99], (0, 0));
 ([97; 124; 94; 99], Some [98; 10; 99], (2, 1));
 ([46], Some [98; 97], (0, 1));
 ([97; 46], Some [98; 97; 99], (1, 2));
 ([97; 46; 99], Some [100; 97; 98; 99; 100], (1, 3));
 ([97; 46; 98; 46; 99], Some [100; 97; 100; 98; 97; 99; 100], (1, 5));
 ([91; 97; 99; 101; 93], Some [97], (0, 1));
 ([91; 97; 99; 101; 93], Some [100], (-1, 0));
 ([91; 97; 98; 99; 93], Some [98], (0, 1));
 ([91; 97; 98; 99; 93], Some [99], (0, 1));
 ([91; 97; 98; 99; 93], Some [100], (-1, 0));
 ([91; 97; 45; 122; 93], Some [109], (0, 1));
 ([91; 97; 93], Some [97], (0, 1));
 ([91; 94; 97; 99; 101; 93], Some [98], (0, 1));
 ([91; 94; 97; 99; 101; 93], Some [99], (-1, 0));
 ([91; 94; 48; 45; 57; 93], Some [99], (0, 1));
 ([91; 94; 48; 45; 57; 93; 43], Some [48; 52; 57; 99; 98; 48; 49; 50], (3, 2));
 ([91; 45; 97; 99; 101; 93], Some [45], (0, 1));
 ([91; 97; 99; 101; 45; 93], Some [45], (0, 1));
 ([91; 97; 92; 45; 101; 93], Some [45], (0, 1));
 ([91; 97; 92; 93; 101; 93], Some [93], (0, 1));
 ([91; 97; 99; 101], None, (0, 0));
 ([91; 97; 99; 101; 92], None, (0, 0));
 ([91; 97; 45; 92], None, (0, 0));
 ([92; 115], Some [35], (-1, 0));
 ([92; 115], Some [97; 32; 98], (1, 1));
 ([92; 100], Some [97; 48; 98], (1, 1));
 ([92; 100], Some [97; 57; 98], (1, 1));
 ([92; 100], Some [97; 1632; 98], (1, 1));
 ([92; 100], Some [97; 1641; 98], (1, 1));
 ([92; 104], Some [120; 48; 122], (1, 1));
 ([92; 104], Some [120; 57; 122], (1, 1));
 ([92; 104], Some [120; 1632; 122], (1, 1));
 ([92; 104], Some [120; 1632; 122], (1, 1));
 ([92; 104], Some [120; 97; 122], (1, 1));
 ([92; 104], Some [120; 65; 122], (1, 1));
 ([92; 104], Some [120; 102; 122], (1, 1));
 ([92; 104], Some [120; 70; 122], (1, 1));
 ([92; 104], Some [120; 103; 122], (-1, 0));
 ([92; 104], Some [120; 71; 122], (-1, 0));
 ([97; 63], Some [98], (0, 0));
 ([97; 63], Some [97], (0, 1));
 ([97; 63], Some [97; 97], (0, 1));
 ([97; 63], Some [98; 97], (0, 0));
 ([97; 42], Some [98], (0, 0));
 ([97; 42], Some [97], (0, 1));
 ([97; 42], Some [97; 97], (0, 2));
 ([97; 42], Some [98; 97], (0, 0));
 ([97; 42], Some [98; 97; 97; 99], (0, 0));
 ([97; 43], Some [98], (-1, 0));
 ([97; 43], Some [97], (0, 1));
 ([97; 43], Some [97; 97], (0, 2));
 ([97; 43], Some [98; 97], (1, 1));
 ([97; 43], Some [98; 97; 97; 99], (1, 2));
 ([40; 120; 123; 50; 125; 41; 123; 50; 125], Some [97; 120; 120; 120; 120; 98], (1, 4));
 ([40; 40; 120; 123; 50; 125; 41; 123; 50; 125; 41; 123; 50; 125], Some [97; 120; 120; 120; 120; 120; 120; 120; 120; 98], (1, 8));
 ([40; 40; 40; 120; 123; 50; 125; 41; 123; 50; 125; 41; 123; 50; 125; 41; 123; 50; 125], Some [97; 120; 120; 120; 120; 120; 120; 120; 120; 120; 120; 120; 120; 120; 120; 120; 120; 120; 120; 98], (1, 16));
 ([40; 40; 40; 40; 40; 40; 40; 120; 123; 50; 125; 41; 123; 50; 125; 41; 123; 50; 125; 41; 123; 50; 125; 41; 123; 50; 125; 41; 123; 50; 125; 41; 123; 50; 125; 41; 123; 50; 125], Some [120; 120; 120; 120; 120; 120; 120; 120; 120; 120; 120; 120; 120; 120; 120; 120; 120; 120; 120; 120; 120; 120; 120; 120; 120; 120; 120; 120; 120; 120; 120; 120; 120; 120; 120; 120], (-1, 256));
 ([40; 40; 40; 40; 40; 40; 40; 40; 120; 123; 50; 125; 41; 123; 50; 125; 41; 123; 50; 125; 41; 123; 50; 125; 41; 123; 50; 125; 41; 123; 50; 125; 41; 123; 50; 125; 41; 123; 50; 125; 41; 123; 50; 125], None, (-1, 0));
 ([97; 123; 50; 44; 52; 125], Some [98], (-1, 0));
 ([97; 123; 50; 44; 52; 125], Some [97; 97], (0, 2));
 ([97; 123; 50; 44; 52; 125], Some [97; 97; 97], (0, 3));
 ([97; 123; 50; 44; 52; 125], Some [97; 97; 97; 97], (0, 4));
 ([97; 123; 50; 44; 52; 125], Some [97; 97; 97; 97; 97], (0, 4));
 ([97; 123; 50; 44; 52; 125], Some [97], (-1, 1));
 ([97; 123; 50; 44; 52; 125], Some [98; 97], (-1, 0));
 ([97; 123; 50; 44; 52; 125], Some [98; 97; 97], (1, 2));
 ([97; 123; 50; 44; 52; 125], Some [98; 97; 97; 99], (1, 2));
 ([97; 123; 50; 44; 52; 125], Some [98; 97; 97; 97; 97; 99], (1, 4));
 ([98; 97; 42; 98], Some [98; 97; 97; 97; 98], (0, 5));
 ([97; 123; 50; 125; 98], Some [98; 97; 97; 97; 98], (2, 3));
 ([97; 123; 50; 44; 125; 98], Some [98; 97; 97; 97; 98], (1, 4));
 ([98; 97; 123; 50; 125; 98], Some [98; 97; 97; 97; 98], (-1, 0));
 ([98; 97; 123; 50; 125; 98], Some [98; 97; 97; 98], (0, 4));
 ([98; 97; 123; 50; 125; 97], Some [98; 97; 97; 97], (0, 4));
 ([98; 97; 123; 50; 44; 52; 125; 97], Some [98; 97; 97; 97], (0, 4));
 ([98; 97; 123; 50; 44; 52; 125; 97], Some [98; 97; 97; 97; 97], (0, 5));
 ([98; 97; 123; 50; 44; 51; 125; 97; 123; 50; 44; 51; 125], Some [98; 97; 97; 97; 97; 97], (0, 6));
 ([98; 40; 97; 41; 123; 50; 44; 51; 125; 97; 123; 50; 44; 51; 125], Some [98; 97; 97; 97; 97; 97], (0, 6));
 ([98; 40; 97; 123; 50; 44; 51; 125; 41; 40; 97; 123; 50; 44; 51; 125; 41], Some [98; 97; 97; 97; 97; 97], (0, 6));
 ([97; 123; 50; 125; 97], Some [98; 97; 97; 97; 97], (1, 3));
 ([98; 97; 42; 97], Some [98; 97; 97; 97; 97; 98], (0, 5));
 ([97; 40; 98; 99; 124; 98; 41; 99], Some [97; 98; 99; 99], (0, 4));
 ([97; 42; 97; 97], Some [98; 97; 97; 97; 97; 98], (1, 4));
 ([97; 40; 98; 99; 124; 98; 41; 99], Some [97; 98; 99], (0, 3));
 ([97; 63; 97], Some [97], (0, 1));
 ([97; 40; 98; 99; 124; 98; 41; 43; 99], Some [97; 98; 99; 98; 99], (0, 5));
 ([97; 40; 98; 124; 98; 99; 41; 43; 99], Some [97; 98; 99; 98; 99], (0, 5));
 ([40; 41; 42; 99], Some [97; 98; 99; 98; 99], (2, 1));
 ([40; 40; 97; 41; 42; 41; 42], Some [97; 97; 97; 97; 97], (0, 5));
 ([98; 124; 99], Some [97; 98; 99], (1, 1));
 ([40; 97; 41], Some [97], (0, 1));
 ([40; 98; 41], Some [97; 98], (1, 1));
 ([40; 97; 41; 124; 98], Some [97; 98], (0, 1));
 ([40; 40; 63; 33; 97; 41; 91; 97; 45; 122; 93; 41; 42], Some [97; 98; 99; 100], (0, 0));
 ([40; 40; 63; 33; 97; 41; 91; 97; 45; 122; 93; 41; 43], Some [97; 98; 99; 100], (1, 3));
 ([40; 40; 63; 33; 97; 99; 41; 91; 97; 45; 122; 93; 41; 43], Some [97; 98; 99; 100; 98; 97; 99; 100], (0, 5));
 ([40; 40; 63; 33; 99; 100; 41; 91; 97; 45; 101; 93; 91; 99; 45; 102; 93; 41; 43], Some [97; 98; 99; 100; 101; 101; 102; 100; 99; 99; 100; 102], (1, 8));
 ([40; 40; 63; 33; 100; 99; 41; 91; 97; 45; 101; 93; 91; 99; 45; 102; 93; 41; 43], Some [97; 98; 99; 100; 101; 101; 102; 99; 100; 99; 100; 100; 99; 102], (1, 10))].
Definition match_ok (x : list Z * option (list Z) * (Z * Z)) : bool :=
  let '(re, t, (o, l)) := x in
  match compile feats 0 re with
  | Ok (None, Some _) => match t with None => true | _ => false end
  | Ok (Some p, None) =>
      match match_after 2000 0 p (match t with None => [] | Some t => t end) 0 with
      | Ok r => match r_cap1 r with
                | None => o <? 0
                | Some b => (r_cap0 r =? o) && (b - r_cap0 r =? l)
                end
      | _ => false
      end
  | _ => false
  end.
Example rxmatch_tests : length match_rows = 132%nat /\ forallb match_ok match_rows = true.
Proof. vm_compute. auto. Qed.

(** 202, a row the file comments out with "Fails": five nested counts over 32
    characters.  The model fails the same way (and passes the sixteen of four
    nested counts); C40_counts_refuted is the smaller case. *)
Example rxmatch_failing_row :
  match_ok ([40; 40; 40; 40; 120; 123; 50; 125; 41; 123; 50; 125; 41; 123; 50; 125; 41; 123; 50; 125; 41; 123; 50; 125],
            Some (97 :: repeat 120 32 ++ [98]), (1, 32)) = false.
Proof. vm_compute. reflexivity. Qed.
