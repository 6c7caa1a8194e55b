(** C01 to C09: map text, tokens, documents, plane lines, decimal numbers. *)
From Coq Require Import Reals SpecFloat.
From Flocq Require Import Core.
From Verif Require Import Prelude F32 Text MapModel MapSpec BaseProofs TokenProofs ParserProofs PlaneProofs
  FloatProofs DecimalProofs MapProofs Witness.

(** * C01 One token per line, classified by first character *)

(** Every text has lines, and only one sequence of lines. *)
Theorem C01_lines_exist : forall b text, exists! ls, lines_spec b text ls.
Proof. exact TokenProofs.lines_unique. Qed.
Print Assumptions C01_lines_exist.

Theorem C01_one_token_per_line : forall p text ls ts,
  lines_spec (p_keep_bare_cr p) text ls ->
  (tokenize p text = Ok ts <-> (forall l, In l ls -> ~ bad_line l) /\ Forall2 token_spec ls ts).
Proof. exact TokenProofs.tokenize_lines_ok. Qed.
Print Assumptions C01_one_token_per_line.

Theorem C01_panic_iff : forall p text ls,
  lines_spec (p_keep_bare_cr p) text ls ->
  ((exists w, tokenize p text = Panic w) <-> exists l, In l ls /\ bad_line l) /\
  ((exists ts, tokenize p text = Ok ts) \/ (exists w, tokenize p text = Panic w)).
Proof. exact TokenProofs.tokenize_lines_panic. Qed.
Print Assumptions C01_panic_iff.

(** The classification is total and single-valued on lines that are not bad. *)
Theorem C01_token_unique : forall l, ~ bad_line l -> exists! t, token_spec l t.
Proof. exact TokenProofs.token_spec_unique. Qed.
Print Assumptions C01_token_unique.

(** CRLF and LF lines, an indented line, an empty line, an unterminated last line. *)
Example C01_example : tokenize demo (lit "/x" ++ [13; 10]%N ++ lit " {" ++ [10; 10]%N ++ lit "{") =
  Ok [TComment (lit "/x"); TUnrecognized (lit " {"); TUnrecognized []; TOpen].
Proof. vm_compute. reflexivity. Qed.
Example C01_example_lines : lines_spec true (lit "/x" ++ [13; 10]%N ++ lit " {" ++ [10; 10]%N ++ lit "{")
  [lit "/x"; lit " {"; []; lit "{"].
Proof. apply lines_spec_iff. vm_compute. reflexivity. Qed.
Example C01_example_bad : bad_line (prop_line (lit "a") []) -> False.
Proof. intros [_ H]. vm_compute in H. lia. Qed.
Example C01_example_panic : bad_line ([34%N] ++ lit "key" ++ [34%N]) /\
  is_panic (tokenize demo ([34%N] ++ lit "key" ++ [34%N])) = true.
Proof. split; [split; [eexists; reflexivity|vm_compute; lia]|vm_compute; reflexivity]. Qed.

(** * C02 Property lines round-trip *)
Theorem C02_property_line : forall p text k sep v rest ls,
  let line := [34%N] ++ k ++ [34%N] ++ sep ++ [34%N] ++ v ++ [34%N] ++ rest in
  ~ In 34%N k -> ~ In 34%N v -> ~ In 34%N sep ->
  lines_spec (p_keep_bare_cr p) text ls -> forall pre post, ls = pre ++ line :: post ->
  forall ts, tokenize p text = Ok ts -> nth_error ts (length pre) = Some (TProperty k v).
Proof. exact TokenProofs.property_round_trip. Qed.
Print Assumptions C02_property_line.

(** The simplest form: a file that is this one line. *)
Theorem C02_property_file : forall p k v rest,
  ~ In 34%N k -> ~ In 10%N k -> ~ In 34%N v -> ~ In 10%N v -> ~ In 10%N rest ->
  tokenize p ([34%N] ++ k ++ [34; 32; 34]%N ++ v ++ [34%N] ++ rest ++ [10%N]) = Ok [TProperty k v].
Proof. exact TokenProofs.property_file. Qed.
Print Assumptions C02_property_file.

Example C02_example : tokenize demo (lit "// c" ++ [10%N] ++ prop_line (lit "angle") (lit "12 { } / 3") ++ lit " x" ++ [10%N]) =
  Ok [TComment (lit "// c"); TProperty (lit "angle") (lit "12 { } / 3")].
Proof. vm_compute. reflexivity. Qed.

(** * C03 Map grammar *)
Theorem C03_document : forall T (O : num T) lower (d : doc) ts,
  significant ts = doc_tokens d ->
  (forall e b l, In e d -> In b (doc_brushes e) -> In l b -> exists pl, parse_plane O lower l = Ok pl) ->
  exists paths es, parse_tokens O lower ts = Ok (paths, es) /\
    Forall2 (entity_agrees (fun l pl => parse_plane O lower l = Ok pl)) d es.
Proof. exact (fun T O lower => ParserProofs.parse_doc O lower). Qed.
Print Assumptions C03_document.

(** The same from the text of the file. *)
Theorem C03_document_text : forall p text ls ts (d : doc),
  lines_spec (p_keep_bare_cr p) text ls -> Forall2 token_spec ls ts -> significant ts = doc_tokens d ->
  (forall e b l, In e d -> In b (doc_brushes e) -> In l b ->
     exists ws pl, written ws l /\ plane_words (parse_f32 (p_modern_parse p)) (to_lowercase p) ws pl) ->
  exists paths es, load p text = Ok (paths, es) /\
    Forall2 (entity_agrees (fun l pl => exists ws, written ws l /\
      plane_words (parse_f32 (p_modern_parse p)) (to_lowercase p) ws pl)) d es.
Proof. exact MapProofs.load_doc. Qed.
Print Assumptions C03_document_text.

Definition demo_doc : doc := [
  [DProp (lit "classname") (lit "worldspawn"); DProp (lit "message") (lit "first");
   DBrush [nth 6 demo_lines []; nth 7 demo_lines []]; DProp (lit "message") (lit "second")];
  [DProp (lit "classname") (lit "light")]].
Example C03_example : exists ts, tokenize demo demo_text = Ok ts /\ significant ts = doc_tokens demo_doc /\
  length ts = 14.
Proof. eexists. split; [vm_compute; reflexivity|]. split; vm_compute; reflexivity. Qed.
Example C03_example_planes : forall l, In l [nth 6 demo_lines []; nth 7 demo_lines []] ->
  is_ok (parse_plane (f32_num demo) (to_lowercase demo) l) = true.
Proof. intros l [<-|[<-|[]]]; vm_compute; reflexivity. Qed.
Example C03_example_values :
  match load demo demo_text with
  | Ok (_, [w; l]) => get_property w (lit "message") = Some (lit "second") /\ map (@length _) (e_brushes w) = [2] /\
                      get_property l (lit "classname") = Some (lit "light")
  | _ => False
  end.
Proof. vm_compute. repeat split. Qed.

(** * C04 Exact acceptance condition *)
Theorem C04_accept_iff : forall T (O : num T) lower ts,
  (exists paths es, parse_tokens O lower ts = Ok (paths, es)) <-> well_scoped (parse_plane O lower) ts.
Proof. exact (fun T O lower => ParserProofs.parse_accepts O lower). Qed.
Print Assumptions C04_accept_iff.

(** The first offending token decides how it fails: in the wrong scope an error with the message
    for that scope, ... *)
Theorem C04_scope_error : forall T (O : num T) lower pre t post,
  well_scoped (parse_plane O lower) pre -> legal (depth_after pre) t = false ->
  parse_tokens O lower (pre ++ t :: post) = Err (scope_error (depth_after pre) t).
Proof. exact (fun T O lower => ParserProofs.parse_scope_error O lower). Qed.
Print Assumptions C04_scope_error.

(** ... a malformed plane fails the way reading that plane fails. *)
Theorem C04_plane_error : forall T (O : num T) lower pre line post,
  well_scoped (parse_plane O lower) pre -> depth_after pre = 2 -> is_ok (parse_plane O lower line) = false ->
  parse_tokens O lower (pre ++ TPlane line :: post) =
  match parse_plane O lower line with Err e => Err e | Panic w => Panic w | _ => OutOfFuel end.
Proof. exact (fun T O lower => ParserProofs.parse_plane_error O lower). Qed.
Print Assumptions C04_plane_error.

(** There is no further case. *)
Theorem C04_cases : forall T (O : num T) lower ts,
  well_scoped (parse_plane O lower) ts \/
  exists pre t post, ts = pre ++ t :: post /\ well_scoped (parse_plane O lower) pre /\
    (legal (depth_after pre) t = false \/
     exists line, t = TPlane line /\ depth_after pre = 2 /\ is_ok (parse_plane O lower line) = false).
Proof. exact (fun T O lower => ParserProofs.scope_cases O lower). Qed.
Print Assumptions C04_cases.

Example C04_example_errors :
  parse_tokens (f32_num demo) (to_lowercase demo) [TClose] = Err (lit "Close brace in file scope") /\
  parse_tokens (f32_num demo) (to_lowercase demo) [TOpen; TOpen; TComment []; TOpen] = Err (lit "Open brace in brush scope") /\
  parse_tokens (f32_num demo) (to_lowercase demo) [TOpen; TClose; TProperty [] []] = Err (lit "Property in file scope") /\
  is_panic (parse_tokens (f32_num demo) (to_lowercase demo) [TOpen; TOpen; TPlane (lit "( 1"); TClose; TClose; TClose]) = true.
Proof. vm_compute. repeat split. Qed.
Example C04_example_ok : exists ts, tokenize demo demo_text = Ok ts /\ well_scoped (parse_plane (f32_num demo) (to_lowercase demo)) ts.
Proof.
  eexists. split; [vm_compute; reflexivity|]. apply C04_accept_iff. eexists. eexists. vm_compute. reflexivity.
Qed.

(** * C05 Truncation at a line boundary *)
Theorem C05_truncated_tokens : forall T (O : num T) lower ts1 ts2 paths es,
  parse_tokens O lower (ts1 ++ ts2) = Ok (paths, es) ->
  exists paths1 es1, parse_tokens O lower ts1 = Ok (paths1, es1) /\ cut_entities es1 es.
Proof. exact (fun T O lower => ParserProofs.parse_truncated O lower). Qed.
Print Assumptions C05_truncated_tokens.

Theorem C05_truncated_file : forall p t1 t2 paths es,
  load p (t1 ++ [10%N] ++ t2) = Ok (paths, es) ->
  exists paths1 es1, load p (t1 ++ [10%N]) = Ok (paths1, es1) /\ cut_entities es1 es.
Proof. exact ParserProofs.load_truncated. Qed.
Print Assumptions C05_truncated_file.

(** The demo map cut inside its brush: one entity, one brush, one plane. *)
Example C05_example :
  match load demo (unlines (firstn 7 demo_lines)) with
  | Ok (_, [e]) => map (@length _) (e_brushes e) = [1] /\ get_property e (lit "message") = Some (lit "first")
  | _ => False
  end.
Proof. vm_compute. repeat split. Qed.

(** * C06 Comments and unrecognised lines are inert *)
Theorem C06_inert_tokens : forall T (O : num T) lower ts1 ts2,
  significant ts1 = significant ts2 -> parse_tokens O lower ts1 = parse_tokens O lower ts2.
Proof. exact MapProofs.parse_same_significant. Qed.
Print Assumptions C06_inert_tokens.

Theorem C06_inert_lines : forall p t1 t2 ls1 ls2,
  lines_spec (p_keep_bare_cr p) t1 ls1 -> lines_spec (p_keep_bare_cr p) t2 ls2 ->
  filter (fun l => negb (inert_line l)) ls1 = filter (fun l => negb (inert_line l)) ls2 ->
  load p t1 = load p t2.
Proof. exact MapProofs.load_same. Qed.
Print Assumptions C06_inert_lines.

Example C06_example : load demo demo_text = load demo (unlines (filter (fun l => negb (inert_line l)) demo_lines)) /\
  length (filter inert_line demo_lines) = 2.
Proof. vm_compute. repeat split. Qed.

(** * C07 Brush plane lines round-trip *)

(** For any number type and any way of writing numbers that reads back. *)
Theorem C07_plane_round_trip : forall T (O : num T) lower (show : T -> str) (good : T -> Prop) pl line,
  (forall x, good x -> n_parse O (show x) = Some x) -> n_parse O (lit "[") = None ->
  good_plane good pl -> written (show_plane show pl) line ->
  parse_plane O lower line =
  Ok (BrushPlane (bp_v0 pl) (bp_v1 pl) (bp_v2 pl) (lower (bp_texture pl)) (bp_uv pl) (bp_rotation pl)
        (bp_scale pl) (bp_extra pl)).
Proof. exact MapProofs.plane_round_trip. Qed.
Print Assumptions C07_plane_round_trip.

(** For f32 written with the standard formatting (every finite value; -0 only if its sign is printed). *)
Theorem C07_plane_round_trip_f32 : forall p pl line,
  good_plane (fun x => f32_valid x = true /\ f32_finite x = true /\ (x = S754_zero true -> p_neg_zero p = true)) pl ->
  written (show_plane (show_f32 (p_neg_zero p)) pl) line ->
  parse_plane (f32_num p) (to_lowercase p) line =
  Ok (BrushPlane (bp_v0 pl) (bp_v1 pl) (bp_v2 pl) (to_lowercase p (bp_texture pl)) (bp_uv pl) (bp_rotation pl)
        (bp_scale pl) (bp_extra pl)).
Proof. exact MapProofs.plane_round_trip_f32. Qed.
Print Assumptions C07_plane_round_trip_f32.

Definition f (m : positive) (e : Z) : f32 := S754_finite false (m * 8388608)%positive (e - 23).
Definition demo_plane : brush_plane f32 :=
  BrushPlane (V3 (f 1 0) (f 1 1) (f 1 2)) (V3 (S754_finite true 8388608 (-23)) f32_zero (f 1 (-1))) (V3 f32_zero f32_zero f32_zero)
    (lit "BASE/Wall") (UVValve (V3 (f 1 0) f32_zero f32_zero) (f 1 3) (V3 f32_zero f32_zero (f 1 0)) f32_zero)
    f32_zero (V2 (f 1 0) (f 1 0)) (ExDaikatana (SurfaceData 7 (-3) (f 1 5)) (Color (f 1 0) f32_zero (f 1 0))).
Example C07_example : exists line,
  written (show_plane (show_f32 true) demo_plane) line /\
  line = lit "( 1 2 4 ) ( -1 0 0.5 ) ( 0 0 0 ) BASE/Wall [ 1 0 0 8 ] [ 0 0 1 0 ] 0 1 1 7 -3 32 1 0 1".
Proof. eexists. split; [|reflexivity]. apply written_iff. vm_compute. reflexivity. Qed.
Example C07_example_good : good_plane (fun x => f32_valid x = true /\ f32_finite x = true /\ (x = S754_zero true -> p_neg_zero demo = true)) demo_plane.
Proof. unfold good_plane, good_v3, good_uv, good_extra, good_sd, i32_range, i32_min, i32_max; simpl. repeat split; auto; lia. Qed.

(** * C08 Malformed plane lines *)

(** A line is read iff it has exactly the words of a plane; the result is that plane. *)
Theorem C08_read_iff : forall T (O : num T) lower line ws pl, written ws line ->
  (parse_plane O lower line = Ok pl <-> plane_words (n_parse O) lower ws pl).
Proof. exact MapProofs.plane_read_iff. Qed.
Print Assumptions C08_read_iff.

(** No readable plane at the start of the line: a panic. *)
Theorem C08_too_short_or_not_numeric : forall T (O : num T) lower line ws, written ws line ->
  (~ exists front extra pl, ws = front ++ extra /\ plane_words (n_parse O) lower front pl /\ bp_extra pl = ExNone) ->
  exists w, parse_plane O lower line = Panic w.
Proof. exact MapProofs.plane_no_front. Qed.
Print Assumptions C08_too_short_or_not_numeric.

(** In particular fewer than 21 words (31 for the Valve form), or a coordinate that is not a number. *)
Theorem C08_fields : forall T (O : num T) lower line ws, written ws line ->
  length ws < 21 \/
  (exists w, nth_error ws 16 = Some w /\ n_parse O w = None /\ length ws < 31) \/
  (exists i w, In i [1; 2; 3; 6; 7; 8; 11; 12; 13] /\ nth_error ws i = Some w /\ n_parse O w = None) ->
  exists w, parse_plane O lower line = Panic w.
Proof. exact MapProofs.plane_fields. Qed.
Print Assumptions C08_fields.

(** Behind a readable plane: wrong number of extra words is an error, ... *)
Theorem C08_extra_count : forall T (O : num T) lower line ws front extra pl, written ws line ->
  ws = front ++ extra -> plane_words (n_parse O) lower front pl -> bp_extra pl = ExNone ->
  ~ In (length extra) [0; 1; 3; 6] ->
  parse_plane O lower line = Err (lit "Unrecognized extra data").
Proof. exact MapProofs.plane_extra_count. Qed.
Print Assumptions C08_extra_count.

(** ... unreadable Quake 2 or Daikatana data is an error, and a single word that is not a number a panic. *)
Theorem C08_extra_unreadable : forall T (O : num T) lower line ws front extra pl, written ws line ->
  ws = front ++ extra -> plane_words (n_parse O) lower front pl -> bp_extra pl = ExNone ->
  (~ exists x, extra_words (n_parse O) extra x) ->
  (length extra = 3 \/ length extra = 6 -> exists e, parse_plane O lower line = Err e) /\
  (length extra = 1 -> exists w, parse_plane O lower line = Panic w).
Proof. exact MapProofs.plane_extra_unreadable. Qed.
Print Assumptions C08_extra_unreadable.

Example C08_example :
  let front := nth 6 demo_lines [] in
  is_ok (parse_plane (f32_num demo) (to_lowercase demo) front) = true /\
  is_panic (parse_plane (f32_num demo) (to_lowercase demo) (removelast front)) = true /\
  is_err (parse_plane (f32_num demo) (to_lowercase demo) (front ++ lit " 1 2")) = true /\
  is_err (parse_plane (f32_num demo) (to_lowercase demo) (front ++ lit " 1 2 x")) = true /\
  is_err (parse_plane (f32_num demo) (to_lowercase demo) (front ++ lit " 1 2.5 3")) = true /\
  is_panic (parse_plane (f32_num demo) (to_lowercase demo) (front ++ lit " x")) = true.
Proof. vm_compute. repeat split. Qed.

(** * C09 Numbers print so that they read back *)
Theorem C09_round_trip : forall modern neg_zero x,
  f32_valid x = true -> f32_finite x = true -> (x = S754_zero true -> neg_zero = true) ->
  parse_f32 modern (show_f32 neg_zero x) = Some x.
Proof. exact MapProofs.float_round_trip. Qed.
Print Assumptions C09_round_trip.

(** The remaining value: -0.0 printed without its sign reads back as +0.0. *)
Theorem C09_negative_zero : forall modern, parse_f32 modern (show_f32 false (S754_zero true)) = Some (S754_zero false).
Proof. exact MapProofs.float_negative_zero. Qed.
Print Assumptions C09_negative_zero.

(** Reading is correctly rounded: the datum read is the real number [m * 10^e] rounded to nearest,
    ties to even, and infinity exactly when that is out of range. *)
Theorem C09_correctly_rounded : forall s m e,
  let r := (IZR (cond_Zopp s (Z.of_N m)) * bpow radix10 e)%R in
  let z := dec_to_f32 s m e in
  f32_valid z = true /\
  if Rlt_bool (Rabs (round radix2 (SpecFloat.fexp 24 128) ZnearestE r)) (bpow radix2 128)
  then f32_finite z = true /\ val z = round radix2 (SpecFloat.fexp 24 128) ZnearestE r
  else z = S754_infinity s.
Proof. exact FloatProofs.dec_correct. Qed.
Print Assumptions C09_correctly_rounded.

Example C09_example : show_f32 true (S754_finite false 13421773 (-27)) = lit "0.1" /\
  f32_valid (S754_finite false 13421773 (-27)) = true /\
  parse_f32 true (lit "1e-1") = Some (S754_finite false 13421773 (-27)) /\
  show_f32 true (S754_finite true 1 (-149)) = lit "-0.000000000000000000000000000000000000000000001" /\
  show_f32 true (S754_finite false 16777215 104) = lit "340282350000000000000000000000000000000".
Proof. vm_compute. repeat split. Qed.
