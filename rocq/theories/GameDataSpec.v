(** Specification vocabulary for the FGD writer: a reader for the FGD text format, written from the
    format alone, and what of the game data the format shows. *)
From Coq Require SpecFloat.
From Verif Require Import Prelude F32 Text MapModel GameDataModel.
From Verif Require Export TextSpec.
Local Open Scope N_scope.

(** ** What an FGD file says *)
Inductive fgd_literal := Bare (s : str) | Quoted (s : str).
Inductive fgd_meta := ABase (classes : list str) | AColor (channels : list str) | ASize (coords : list str).
Inductive fgd_property :=
| AInteger (short value long : str)
| AFloat (short value long : str)
| AString (short value long : str)
| AColor255 (short value long : str)
| AChoices (short default : str) (choices : list (fgd_literal * str))
| AFlags (flags : list (str * str * str))        (* value, name, default *)
| ATargetSource (short long : str)
| ATargetDestination (short long : str).
Record fgd_entity := FgdEntity {
  ae_class : str; ae_meta : list fgd_meta; ae_name : str; ae_description : str;
  ae_properties : list (str * fgd_property) }.
Record fgd_file := FgdFile { af_name : str; af_includes : list str; af_entities : list fgd_entity }.

(** ** The reader *)
Notation "'let*' p := r 'in' k" := (match r with Some p => k | None => None end)
  (at level 200, p pattern, k at level 200).

(** Text before the first [d], and the text behind that [d]. *)
Fixpoint until (d : N) (s : str) : option (str * str) :=
  match s with
  | [] => None
  | c :: t => if c =? d then Some ([], t) else let* (a, r) := until d t in Some (c :: a, r)
  end.
Fixpoint expect (w s : str) : option str :=
  match w, s with
  | [], _ => Some s
  | a :: w', b :: s' => if a =? b then expect w' s' else None
  | _, [] => None
  end.
(** Items up to the word [stop]. *)
Fixpoint many {A} (fuel : nat) (stop : str) (item : str -> option (A * str)) (s : str)
  : option (list A * str) :=
  match fuel with
  | O => None
  | S f =>
    match expect stop s with
    | Some r => Some ([], r)
    | None => let* (a, r) := item s in let* (l, r') := many f stop item r in Some (a :: l, r')
    end
  end.

Definition drop_space (s : str) : str := match s with 32 :: t => t | _ => s end.
Definition comma_list (s : str) : list str :=
  match s with [] => [] | _ => map drop_space (split_char 44 s) end.

(** [word(body) ] *)
Definition read_meta (s : str) : option (fgd_meta * str) :=
  let* (word, s) := until 40 s in
  let* (body, s) := until 41 s in
  let* s := expect (lit " ") s in
  if str_eqb word (lit "base") then Some (ABase (comma_list body), s)
  else if str_eqb word (lit "color") then Some (AColor (split_char 32 body), s)
  else if str_eqb word (lit "size") then Some (ASize (comma_list body), s)
  else None.

(** A quoted string, opening quote included. *)
Definition read_quoted (s : str) : option (str * str) := let* s := expect [34] s in until 34 s.

Definition read_choice (s : str) : option (fgd_literal * str * str) :=
  let* s := expect [9; 9] s in
  let* (v, s) := match read_quoted s with
                 | Some (v, r) => let* r := expect (lit " ") r in Some (Quoted v, r)
                 | None => let* (v, r) := until 32 s in Some (Bare v, r)
                 end in
  let* s := expect (lit ": ") s in
  let* (name, s) := read_quoted s in
  let* s := expect [10] s in
  Some ((v, name), s).

Definition read_flag (s : str) : option (str * str * str * str) :=
  let* s := expect [9; 9] s in
  let* (v, s) := until 32 s in
  let* s := expect (lit ": ") s in
  let* (name, s) := read_quoted s in
  let* s := expect (lit " : ") s in
  let* (d, s) := until 10 s in
  Some ((v, name, d), s).

(** [ : short : value : long]; the value is a bare word or a quoted string *)
Definition read_short (s : str) : option (str * str) :=
  let* s := expect (lit " : ") s in read_quoted s.
Definition read_bare (s : str) : option (str * str) := until 32 s.
Definition read_field (value : str -> option (str * str)) (s : str) : option (str * str * str * str) :=
  let* (short, s) := read_short s in
  let* s := expect (lit " : ") s in
  let* (v, s) := value s in
  let* s := expect (lit ": ") s in
  let* (long, s) := read_quoted s in
  Some ((short, v, long), s).
Definition read_value (s : str) : option (str * str) :=
  let* (v, s) := read_quoted s in let* s := expect (lit " ") s in Some (v, s).
Definition read_target (s : str) : option (str * str * str) :=
  let* (short, s) := read_short s in
  let* s := expect (lit " : : ") s in
  let* (long, s) := read_quoted s in
  Some ((short, long), s).
Definition opening : str := lit " =" ++ [10; 9] ++ lit "[" ++ [10].
Definition closing : str := [9] ++ lit "]".

Definition read_body (ty : str) (s : str) : option (fgd_property * str) :=
  if str_eqb ty (lit "integer") then
    let* (a, v, b, s) := read_field read_bare s in Some (AInteger a v b, s)
  else if str_eqb ty (lit "float") then
    let* (a, v, b, s) := read_field read_bare s in Some (AFloat a v b, s)
  else if str_eqb ty (lit "string") then
    let* (a, v, b, s) := read_field read_value s in Some (AString a v b, s)
  else if str_eqb ty (lit "color255") then
    let* (a, v, b, s) := read_field read_value s in Some (AColor255 a v b, s)
  else if str_eqb ty (lit "choices") then
    let* (a, s) := read_short s in
    let* s := expect (lit " : ") s in
    let* (d, s) := read_quoted s in
    let* s := expect opening s in
    let* (l, s) := many (S (length s)) closing read_choice s in
    Some (AChoices a d l, s)
  else if str_eqb ty (lit "flags") then
    let* s := expect opening s in
    let* (l, s) := many (S (length s)) closing read_flag s in
    Some (AFlags l, s)
  else if str_eqb ty (lit "target_source") then
    let* (a, b, s) := read_target s in Some (ATargetSource a b, s)
  else if str_eqb ty (lit "target_destination") then
    let* (a, b, s) := read_target s in Some (ATargetDestination a b, s)
  else None.

Definition read_property (s : str) : option (str * fgd_property * str) :=
  let* s := expect [9] s in
  let* (name, s) := until 40 s in
  let* (ty, s) := until 41 s in
  let* (b, s) := read_body ty s in
  let* s := expect [10] s in
  Some ((name, b), s).

Definition read_entity (s : str) : option (fgd_entity * str) :=
  let* s := expect (lit "@") s in
  let* (class, s) := until 32 s in
  let* (meta, s) := many (S (length s)) (lit "= ") read_meta s in
  let* (name, s) := until 32 s in
  let* s := expect (lit ": ") s in
  let* (description, s) := read_quoted s in
  let* s := expect [10; 91; 10] s in
  let* (props, s) := many (S (length s)) (lit "]") read_property s in
  let* s := expect [10; 10] s in
  Some (FgdEntity class meta name description props, s).

Fixpoint read_entities (fuel : nat) (s : str) : option (list fgd_entity) :=
  match s, fuel with
  | [], _ => Some []
  | _, O => None
  | _, S f => let* (e, r) := read_entity s in let* l := read_entities f r in Some (e :: l)
  end.

Definition read_include (s : str) : option (str * str) :=
  let* s := expect (lit "@include ") s in
  let* (i, s) := read_quoted s in
  let* s := expect [10] s in
  Some (i, s).

Definition read_fgd (s : str) : option fgd_file :=
  let* s := expect (lit "// ") s in
  let* (name, s) := until 10 s in
  let* s := expect [10] s in
  let* (includes, s) := many (S (length s)) [10] read_include s in
  let* es := read_entities (S (length s)) s in
  Some (FgdFile name includes es).

(** ** What the format shows of the game data.
    Not shown: the long description of choices and both descriptions of flags, whether a string
    default was a vector, colour components beyond their 0-255 channel, the index (rather than the
    value) of a choices default, the default bits beyond the declared flags. *)
Section Visible.
  Context (p : platform).
  Definition num_text (x : f32) : str := show_f32 (p_neg_zero p) x.
  (** 255 times the component, rounded to f32, truncated and saturated to i32. *)
  Definition channel_text (x : f32) : str := show_Z (f32_to_i32 (f32_mul x (f32_of_N 255))).
  Definition channels (c : color f32) : list str :=
    [channel_text (c_r c); channel_text (c_g c); channel_text (c_b c)].
  Definition spaced (x y z : str) : str := x ++ [32] ++ y ++ [32] ++ z.
  Definition coords (v : vec3 f32) : list str := [num_text (vx v); num_text (vy v); num_text (vz v)].

  Definition visible_meta (m : metadata f32) : fgd_meta :=
    match m with
    | MBase cs => ABase cs
    | MColor c => AColor (channels c)
    | MSize lo hi => ASize (coords lo ++ coords hi)
    end.

  Definition literal_of (c : choice_data f32) : fgd_literal :=
    match c with ChInteger i => Bare (show_Z i) | ChFloat x => Bare (num_text x) | ChString s => Quoted s end.
  Definition literal_text (l : fgd_literal) : str := match l with Bare s => s | Quoted s => s end.

  Fixpoint visible_flags (i : Z) (default : Z) (flags : list str) : list (str * str * str) :=
    match flags with
    | [] => []
    | f :: t => (show_Z (2 ^ i), f, if Z.testbit default i then lit "1" else lit "0")
                :: visible_flags (i + 1) default t
    end.

  Definition visible_body (pr : forge_property f32) : fgd_property :=
    let short := fp_short pr in
    let long := fp_long pr in
    match fp_data pr with
    | FInteger i => AInteger short (show_Z i) long
    | FFloat x => AFloat short (num_text x) long
    | FVector3 v => AString short (spaced (num_text (vx v)) (num_text (vy v)) (num_text (vz v))) long
    | FString s => AString short s long
    | FColor c => AColor255 short (spaced (channel_text (c_r c)) (channel_text (c_g c)) (channel_text (c_b c))) long
    | FChoices cs d =>
      AChoices short
        (match nth_error cs (Z.to_nat d) with Some c => literal_text (literal_of (ch_value c)) | None => [] end)
        (map (fun c => (literal_of (ch_value c), ch_name c)) cs)
    | FFlags fs d => AFlags (visible_flags 0 d fs)
    | FTargetSource => ATargetSource short long
    | FTargetDestination => ATargetDestination short long
    end.

  Definition class_word (c : class_type) : str :=
    match c with
    | BaseClass => lit "BaseClass" | PointClass => lit "PointClass" | SolidClass => lit "SolidClass"
    end.
  Definition visible_entity (e : forge_entity f32) : fgd_entity :=
    FgdEntity (class_word (fe_class e)) (map visible_meta (fe_metadata e)) (fe_name e) (fe_description e)
      (map (fun pr => (fp_name pr, visible_body pr)) (fe_properties e)).
  Definition visible (g : forge_data f32) : fgd_file :=
    FgdFile (fd_name g) (fd_includes g) (map visible_entity (fd_definitions g)).
End Visible.

(** ** Well-formed game data *)
Definition no_quote (s : str) : Prop := ~ In 34 s.
Definition wf_meta (m : metadata f32) : Prop :=
  match m with
  | MBase cs => forall c, In c cs -> c <> [] /\ ~ In 32 c /\ ~ In 41 c /\ ~ In 44 c
  | _ => True
  end.
Definition wf_choice (c : choice f32) : Prop :=
  no_quote (ch_name c) /\ match ch_value c with ChString s => no_quote s | _ => True end.
Definition wf_data (d : property_data f32) : Prop :=
  match d with
  | FString s => no_quote s
  | FChoices cs d => Forall wf_choice cs /\ (0 <= d < Z.of_nat (length cs))%Z
  | FFlags fs _ => Forall no_quote fs /\ (length fs <= 31)%nat
  | _ => True
  end.
Definition wf_property (pr : forge_property f32) : Prop :=
  ~ In 40 (fp_name pr) /\ no_quote (fp_short pr) /\ no_quote (fp_long pr) /\ wf_data (fp_data pr).
Definition wf_entity (e : forge_entity f32) : Prop :=
  Forall wf_meta (fe_metadata e) /\ ~ In 32 (fe_name e) /\ no_quote (fe_description e)
  /\ Forall wf_property (fe_properties e).
Definition wf_forge (g : forge_data f32) : Prop :=
  ~ In 10 (fd_name g) /\ Forall no_quote (fd_includes g) /\ Forall wf_entity (fd_definitions g).

(** ** When two game data differ only in what the format does not show *)
Section Agree.
  Context (p : platform).
  (** Equal numbers; the two zeros are one when the platform prints both without sign. *)
  Definition same_number (x y : f32) : Prop :=
    x = y \/ (p_neg_zero p = false /\ exists s t, x = SpecFloat.S754_zero s /\ y = SpecFloat.S754_zero t).
  Definition same_vec (v w : vec3 f32) : Prop :=
    same_number (vx v) (vx w) /\ same_number (vy v) (vy w) /\ same_number (vz v) (vz w).
  Definition byte_of (x : f32) : Z := f32_to_i32 (f32_mul x (f32_of_N 255)).
  Definition same_color (a b : color f32) : Prop :=
    byte_of (c_r a) = byte_of (c_r b) /\ byte_of (c_g a) = byte_of (c_g b) /\ byte_of (c_b a) = byte_of (c_b b).

  Inductive agree_meta : metadata f32 -> metadata f32 -> Prop :=
  | AgBase : forall cs, agree_meta (MBase cs) (MBase cs)
  | AgColor : forall a b, same_color a b -> agree_meta (MColor a) (MColor b)
  | AgSize : forall a b c d, same_vec a c -> same_vec b d -> agree_meta (MSize a b) (MSize c d).

  (** A choice value does not tell an integral number from an integer. *)
  Inductive agree_value : choice_data f32 -> choice_data f32 -> Prop :=
  | AgInt : forall i, agree_value (ChInteger i) (ChInteger i)
  | AgFloat : forall x y, same_number x y -> agree_value (ChFloat x) (ChFloat y)
  | AgIntFloat : forall i x, show_Z i = num_text p x -> agree_value (ChInteger i) (ChFloat x)
  | AgFloatInt : forall i x, show_Z i = num_text p x -> agree_value (ChFloat x) (ChInteger i)
  | AgStr : forall s, agree_value (ChString s) (ChString s).
  Definition agree_choice (a b : choice f32) : Prop :=
    ch_name a = ch_name b /\ agree_value (ch_value a) (ch_value b).
  Definition default_text (cs : list (choice f32)) (d : Z) : option str :=
    option_map (fun c => literal_text (literal_of p (ch_value c))) (nth_error cs (Z.to_nat d)).

  Definition vector_text (v : vec3 f32) : str :=
    spaced (num_text p (vx v)) (num_text p (vy v)) (num_text p (vz v)).
  (** [sh] and [lo] say whether the two descriptions must agree. *)
  Inductive agree_data : forall (sh lo : bool), property_data f32 -> property_data f32 -> Prop :=
  | AgInteger : forall i, agree_data true true (FInteger i) (FInteger i)
  | AgF32 : forall x y, same_number x y -> agree_data true true (FFloat x) (FFloat y)
  | AgVec : forall v w, same_vec v w -> agree_data true true (FVector3 v) (FVector3 w)
  | AgString : forall s, agree_data true true (FString s) (FString s)
  | AgVecString : forall v, agree_data true true (FVector3 v) (FString (vector_text v))
  | AgStringVec : forall v, agree_data true true (FString (vector_text v)) (FVector3 v)
  | AgCol : forall a b, same_color a b -> agree_data true true (FColor a) (FColor b)
  | AgChoices : forall cs d cs' d', Forall2 agree_choice cs cs' -> default_text cs d = default_text cs' d' ->
      agree_data true false (FChoices cs d) (FChoices cs' d')
  | AgFlags : forall fs d d', (forall i, (0 <= i < Z.of_nat (length fs))%Z -> Z.testbit d i = Z.testbit d' i) ->
      agree_data false false (FFlags fs d) (FFlags fs d')
  | AgSource : agree_data true true FTargetSource FTargetSource
  | AgDestination : agree_data true true FTargetDestination FTargetDestination.
  Definition agree_property (a b : forge_property f32) : Prop :=
    fp_name a = fp_name b /\
    exists sh lo, agree_data sh lo (fp_data a) (fp_data b)
    /\ (sh = true -> fp_short a = fp_short b) /\ (lo = true -> fp_long a = fp_long b).
  Definition agree_entity (a b : forge_entity f32) : Prop :=
    fe_class a = fe_class b /\ fe_name a = fe_name b /\ fe_description a = fe_description b
    /\ Forall2 agree_meta (fe_metadata a) (fe_metadata b)
    /\ Forall2 agree_property (fe_properties a) (fe_properties b).
  Definition agree (a b : forge_data f32) : Prop :=
    fd_name a = fd_name b /\ fd_includes a = fd_includes b
    /\ Forall2 agree_entity (fd_definitions a) (fd_definitions b).
End Agree.

(** Values of the Rust types: binary32 data and 32-bit integers. *)
Definition valid_vec (v : vec3 f32) : Prop :=
  f32_valid (vx v) = true /\ f32_valid (vy v) = true /\ f32_valid (vz v) = true.
Definition typed_meta (m : metadata f32) : Prop :=
  match m with MSize a b => valid_vec a /\ valid_vec b | _ => True end.
Definition typed_value (c : choice_data f32) : Prop :=
  match c with ChInteger i => i32_range i | ChFloat x => f32_valid x = true | ChString _ => True end.
Definition typed_data (d : property_data f32) : Prop :=
  match d with
  | FInteger i => i32_range i
  | FFloat x => f32_valid x = true
  | FVector3 v => valid_vec v
  | FChoices cs _ => Forall (fun c => typed_value (ch_value c)) cs
  | _ => True
  end.
Definition typed_forge (g : forge_data f32) : Prop :=
  Forall (fun e => Forall typed_meta (fe_metadata e)
                   /\ Forall (fun pr => typed_data (fp_data pr)) (fe_properties e)) (fd_definitions g).

(** Names separated by a comma and a space. *)
Fixpoint comma_separated (l : list str) : str :=
  match l with
  | [] => []
  | [x] => x
  | x :: t => x ++ lit ", " ++ comma_separated t
  end.

(** One flag line: value, quoted name, default digit. *)
Definition flag_line (value : Z) (name : str) (default : bool) : str :=
  [9; 9] ++ show_Z value ++ lit " : " ++ [34] ++ name ++ [34] ++ lit " : "
  ++ (if default then lit "1" else lit "0") ++ [10].

(** [x <= y] as Rust evaluates it *)
Definition le32 (x y : f32) : bool :=
  match f32_cmp x y with Some Lt | Some Eq => true | _ => false end.
