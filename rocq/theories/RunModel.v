(** The two entry points.  Models src/lib.rs. *)
From Verif Require Import Prelude F32 Text MapModel DiffModel GeoModel LayerModel GameDataModel SceneModel.

(** A file as [fs::read_to_string] sees it. *)
Inductive file :=
| Unreadable                     (* open or read fails *)
| Contents (bs : list N).

(** [fs::read_to_string(path)?], src/lib.rs:60, 89, 90 *)
Definition read_to_string (f : file) : res str :=
  match f with
  | Unreadable => Err (lit "io")
  | Contents bs =>
    match utf8_decode bs with
    | Some s => Ok s
    | None => Err (lit "stream did not contain valid UTF-8")
    end
  end.

(** Config, src/lib.rs:17-24, with the map file already resolved to its contents *)
Record config := Config {
  cf_map : file;
  cf_textures : texture_info;
  cf_blacklist : blacklist;
  cf_forge : forge_data f32;
  cf_game : game_data f32
}.

(** run, src/lib.rs:55-86.  [order] is the iteration order the layer HashMap happens to have;
    [fuel] bounds the depth of the group recursion only. *)
Definition run (p : platform) (order : hmap (list (brush_geo f32)) -> list (str * list (brush_geo f32)))
  (fuel : nat) (c : config) : res (list (node f32)) :=
  text <- read_to_string (cf_map c) ;;
  tokens <- tokenize p text ;;
  '(_, entities) <- parse_tokens (f32_num p) (to_lowercase p) tokens ;;
  geometry <- build_geometry (f32_num p) (cf_textures c) entities ;;
  '(data, layers) <- layer_filter (combine entities geometry) ;;
  build_scene (f32_num p) fuel (cf_game c) (cf_forge c) (cf_blacklist c) data (order layers).

(** run_diff, src/lib.rs:88-99; the diff is printed, the model returns it *)
Definition run_diff (p : platform) (a b : file) : res diff :=
  sa <- read_to_string a ;;
  sb <- read_to_string b ;;
  ta <- tokenize p sa ;;
  tb <- tokenize p sb ;;
  diff_tokens ta tb.
