(** Game data: definition types and the FGD writer.  Models src/game_data/. *)
From Verif Require Import Prelude F32 Text MapModel.

(** ** Enumerations and their numeric codes *)

(** src/game_data/types/collision_type.rs:1-27.  [From<i64>] panics on other numbers. *)
Inductive collision_type := CNone | CConvex | CConcave.
Definition collision_code (t : collision_type) : Z :=
  match t with CNone => 0 | CConvex => 1 | CConcave => 2 end.
Definition collision_of_code (i : Z) : res collision_type :=
  match i with
  | 0%Z => Ok CNone | 1%Z => Ok CConvex | 2%Z => Ok CConcave
  | _ => Panic (lit "Invalid collision type")
  end.

(** src/game_data/types/visual_type.rs:1-24 *)
Inductive visual_type := VNone | VMesh.
Definition visual_code (t : visual_type) : Z := match t with VNone => 0 | VMesh => 1 end.
Definition visual_of_code (i : Z) : res visual_type :=
  match i with
  | 0%Z => Ok VNone | 1%Z => Ok VMesh
  | _ => Panic (lit "Invalid visual type")
  end.

(** src/game_data/types/entity_type.rs:1-26 *)
Inductive entity_type := EPlaceholder | EClass (s : str) | EPrefab (s : str).
Definition entity_type_code (t : entity_type) : Z :=
  match t with EPlaceholder => 0 | EClass _ => 1 | EPrefab _ => 2 end.

(** src/game_data/types/component_type.rs:1-14 *)
Inductive component_type := CompNone | CompScript (s : str).
Definition component_code (t : component_type) : Z :=
  match t with CompNone => 0 | CompScript _ => 1 end.

(** src/game_data/types/point_data.rs:3-8 *)
Inductive application_type := AProperties | ADictionary | AMetadata.

(** src/game_data/forge/entity.rs:3-29 *)
Inductive class_type := BaseClass | PointClass | SolidClass.
Definition class_code (t : class_type) : Z :=
  match t with BaseClass => 0 | PointClass => 1 | SolidClass => 2 end.
Definition class_of_code (i : Z) : res class_type :=
  match i with
  | 0%Z => Ok BaseClass | 1%Z => Ok PointClass | 2%Z => Ok SolidClass
  | _ => Panic (lit "Unexpected class type")
  end.

(** ** Delivered properties: src/game_data/types/properties.rs:6-17 *)
Inductive property (T : Type) :=
| PrInteger (i : Z)
| PrFloat (x : T)
| PrVector3 (v : vec3 T)
| PrString (s : str)
| PrColor (c : color T)
| PrChoices (i : Z)
| PrFlags (i : Z)
| PrTargetSource
| PrTargetDestination.
Arguments PrInteger {T}. Arguments PrFloat {T}. Arguments PrVector3 {T}. Arguments PrString {T}.
Arguments PrColor {T}. Arguments PrChoices {T}. Arguments PrFlags {T}.
Arguments PrTargetSource {T}. Arguments PrTargetDestination {T}.
Definition properties (T : Type) := hmap (property T).

(** src/game_data/types/point_data.rs:10-16, brush_data.rs:3-7, entity.rs:6-16 *)
Record point_data (T : Type) := PointData {
  pd_type : entity_type; pd_component : component_type;
  pd_application : application_type; pd_properties : properties T }.
Arguments PointData {T}. Arguments pd_type {T}. Arguments pd_component {T}.
Arguments pd_application {T}. Arguments pd_properties {T}.
Record brush_data := BrushData { bd_visual : visual_type; bd_collision : collision_type }.
Inductive entity_data (T : Type) := DPoint (p : point_data T) | DBrush (p : point_data T) (b : brush_data).
Arguments DPoint {T}. Arguments DBrush {T}.
Record entity_def (T : Type) := EntityDef { ed_classname : str; ed_data : entity_data T }.
Arguments EntityDef {T}. Arguments ed_classname {T}. Arguments ed_data {T}.

(** src/game_data/types/worldspawn_layer.rs:3-11, game_data.rs:1-5 *)
Record worldspawn_layer := WorldspawnLayer {
  wl_name : str; wl_texture : str; wl_type : entity_type; wl_component : component_type;
  wl_visual : visual_type; wl_collision : collision_type }.
Record game_data (T : Type) := GameData {
  gd_entities : list (entity_def T); gd_layers : list worldspawn_layer }.
Arguments GameData {T}. Arguments gd_entities {T}. Arguments gd_layers {T}.

(** ** Forge (FGD) definitions *)

(** src/game_data/forge/choice.rs:3-24 *)
Inductive choice_data (T : Type) := ChInteger (i : Z) | ChFloat (x : T) | ChString (s : str).
Arguments ChInteger {T}. Arguments ChFloat {T}. Arguments ChString {T}.
Record choice (T : Type) := Choice { ch_name : str; ch_value : choice_data T }.
Arguments Choice {T}. Arguments ch_name {T}. Arguments ch_value {T}.

(** src/game_data/forge/property.rs:4-23 *)
Inductive property_data (T : Type) :=
| FInteger (i : Z)
| FFloat (x : T)
| FVector3 (v : vec3 T)
| FString (s : str)
| FColor (c : color T)
| FChoices (choices : list (choice T)) (default : Z)
| FFlags (flags : list str) (default : Z)
| FTargetSource
| FTargetDestination.
Arguments FInteger {T}. Arguments FFloat {T}. Arguments FVector3 {T}. Arguments FString {T}.
Arguments FColor {T}. Arguments FChoices {T}. Arguments FFlags {T}.
Arguments FTargetSource {T}. Arguments FTargetDestination {T}.
Record forge_property (T : Type) := ForgeProperty {
  fp_name : str; fp_short : str; fp_long : str; fp_data : property_data T }.
Arguments ForgeProperty {T}. Arguments fp_name {T}. Arguments fp_short {T}.
Arguments fp_long {T}. Arguments fp_data {T}.

(** src/game_data/forge/metadata.rs:4-9 and its numbering 25-33 *)
Inductive metadata (T : Type) :=
| MBase (classes : list str) | MColor (c : color T) | MSize (lo hi : vec3 T).
Arguments MBase {T}. Arguments MColor {T}. Arguments MSize {T}.
Definition metadata_code {T} (m : metadata T) : Z :=
  match m with MBase _ => 0 | MColor _ => 1 | MSize _ _ => 2 end.

(** src/game_data/forge/entity.rs:31-38 *)
Record forge_entity (T : Type) := ForgeEntity {
  fe_class : class_type; fe_metadata : list (metadata T); fe_name : str;
  fe_description : str; fe_properties : list (forge_property T) }.
Arguments ForgeEntity {T}. Arguments fe_class {T}. Arguments fe_metadata {T}. Arguments fe_name {T}.
Arguments fe_description {T}. Arguments fe_properties {T}.

(** src/game_data/forge/game_data.rs:3-8 *)
Record forge_data (T : Type) := ForgeData {
  fd_name : str; fd_includes : list str; fd_definitions : list (forge_entity T) }.
Arguments ForgeData {T}. Arguments fd_name {T}. Arguments fd_includes {T}. Arguments fd_definitions {T}.

(** ** The FGD writer (always f32) *)
Section Writer.
  Context (p : platform).
  Definition show_float (x : f32) : str := show_f32 (p_neg_zero p) x.

  (** The double quote character. *)
  Definition q : str := [34%N].
  Definition nl : str := [10%N].
  Definition tab : str := [9%N].

  (** Color::to_string, src/types/color.rs:23-32 *)
  Definition channel (x : f32) : Z := f32_to_i32 (f32_mul x (f32_of_N 255)).
  Definition show_color (c : color f32) : str :=
    show_Z (channel (c_r c)) ++ lit " " ++ show_Z (channel (c_g c)) ++ lit " " ++ show_Z (channel (c_b c)).

  (** Metadata::Base list, metadata.rs:40-46: the separator depends on the accumulator being empty *)
  Definition join_base (classes : list str) : str :=
    fold_left (fun acc next => (match acc with [] => [] | _ => acc ++ lit ", " end) ++ next) classes [].

  (** Metadata::to_string, metadata.rs:35-56 *)
  Definition show_vec (v : vec3 f32) : str :=
    show_float (vx v) ++ lit ", " ++ show_float (vy v) ++ lit ", " ++ show_float (vz v).
  Definition show_metadata (m : metadata f32) : str :=
    match m with
    | MBase classes => lit "base(" ++ join_base classes ++ lit ")"
    | MColor c => lit "color(" ++ show_color c ++ lit ")"
    | MSize lo hi => lit "size(" ++ show_vec lo ++ lit ", " ++ show_vec hi ++ lit ")"
    end.

  (** Display for ChoiceData, choice.rs:10-18 *)
  Definition show_choice_data (c : choice_data f32) : str :=
    match c with ChInteger i => show_Z i | ChFloat x => show_float x | ChString s => s end.

  (** Choice::to_string, choice.rs:55-64 *)
  Definition show_choice (c : choice f32) : str :=
    (match ch_value c with
     | ChInteger i => show_Z i
     | ChFloat x => show_float x
     | ChString s => q ++ s ++ q
     end) ++ lit " : " ++ q ++ ch_name c ++ q.

  (** [2_i32.pow(i)], property.rs:109 *)
  Definition flag_bit (i : nat) : res Z :=
    if (Z.of_nat i <? 31)%Z then Ok (2 ^ Z.of_nat i)%Z
    else if p_overflow_checks p then Panic (lit "attempt to multiply with overflow")
    else Ok (if (Z.of_nat i =? 31)%Z then i32_min else 0%Z).

  (** One line of a flags property, property.rs:108-116 *)
  Definition show_flag (default : Z) (f : nat * str) : res str :=
    bit <- flag_bit (fst f) ;;
    Ok (tab ++ tab ++ show_Z bit ++ lit " : " ++ q ++ snd f ++ q ++ lit " : "
        ++ (if (0 <? Z.land default bit)%Z then lit "1" else lit "0") ++ nl).

  (** [choices\[*default as usize\]], property.rs:99 *)
  Definition nth_choice (choices : list (choice f32)) (default : Z) : res (choice f32) :=
    if (default <? 0)%Z then Panic (lit "index out of bounds")
    else unwrap (lit "index out of bounds")
           (if (default <? Z.of_nat (length choices))%Z then nth_error choices (Z.to_nat default) else None).

  (** Property::to_string, property.rs:59-129 *)
  Definition show_property (pr : forge_property f32) : res str :=
    let name := fp_name pr in
    let short := q ++ fp_short pr ++ q in
    let long := q ++ fp_long pr ++ q in
    match fp_data pr with
    | FInteger i => Ok (name ++ lit "(integer) : " ++ short ++ lit " : " ++ show_Z i ++ lit " : " ++ long)
    | FFloat x => Ok (name ++ lit "(float) : " ++ short ++ lit " : " ++ show_float x ++ lit " : " ++ long)
    | FVector3 v =>
      Ok (name ++ lit "(string) : " ++ short ++ lit " : " ++ q ++ show_float (vx v) ++ lit " "
          ++ show_float (vy v) ++ lit " " ++ show_float (vz v) ++ q ++ lit " : " ++ long)
    | FString s => Ok (name ++ lit "(string) : " ++ short ++ lit " : " ++ q ++ s ++ q ++ lit " : " ++ long)
    | FColor c => Ok (name ++ lit "(color255) : " ++ short ++ lit " : " ++ q ++ show_color c ++ q ++ lit " : " ++ long)
    | FChoices choices default =>
      let body := flat_map (fun c => tab ++ tab ++ show_choice c ++ nl) choices in
      c <- nth_choice choices default ;;
      Ok (name ++ lit "(choices) : " ++ short ++ lit " : " ++ q ++ show_choice_data (ch_value c) ++ q
          ++ lit " =" ++ nl ++ tab ++ lit "[" ++ nl ++ body ++ tab ++ lit "]")
    | FFlags flags default =>
      ls <- mapM (show_flag default) (enumerate flags) ;;
      Ok (name ++ lit "(flags) =" ++ nl ++ tab ++ lit "[" ++ nl ++ concat ls ++ tab ++ lit "]")
    | FTargetSource => Ok (name ++ lit "(target_source) : " ++ short ++ lit " : : " ++ long)
    | FTargetDestination => Ok (name ++ lit "(target_destination) : " ++ short ++ lit " : : " ++ long)
    end.

  (** Entity::to_string, forge/entity.rs:92-113 *)
  Definition show_class (c : class_type) : str :=
    match c with
    | BaseClass => lit "@BaseClass" | PointClass => lit "@PointClass" | SolidClass => lit "@SolidClass"
    end.
  Definition show_entity (e : forge_entity f32) : res str :=
    let meta := flat_map (fun m => show_metadata m ++ lit " ") (fe_metadata e) in
    props <- mapM show_property (fe_properties e) ;;
    Ok (show_class (fe_class e) ++ lit " " ++ meta ++ lit "= " ++ fe_name e ++ lit " : "
        ++ q ++ fe_description e ++ q ++ nl ++ lit "[" ++ nl
        ++ flat_map (fun s => tab ++ s ++ nl) props ++ lit "]").

  (** GameData::to_string, forge/game_data.rs:39-51 *)
  Definition show_forge_data (g : forge_data f32) : res str :=
    es <- mapM show_entity (fd_definitions g) ;;
    let entities := flat_map (fun s => s ++ nl ++ nl) es in
    let includes := flat_map (fun s => lit "@include " ++ q ++ s ++ q ++ nl) (fd_includes g) in
    Ok (lit "// " ++ fd_name g ++ nl ++ nl ++ includes ++ nl ++ entities).
End Writer.
