(** Two crates, one of brick and one of wood with a brick on a side, to try C113 on. *)
From Verif Require Import Prelude F32 Text MapModel GeoModel LayerModel GameDataModel SceneModel RunModel Witness SceneWitness
  MapSpec Utf8Spec RunSpec TreeSpec HideSpec GeoWitness RunWitness.

Definition wooden (pl : brush_plane f32) : brush_plane f32 :=
  BrushPlane (bp_v0 pl) (bp_v1 pl) (bp_v2 pl) (lit "wood") (bp_uv pl) (bp_rotation pl) (bp_scale pl) (bp_extra pl).
Definition far_crate : list (brush_plane f32) :=
  match box_planes 48 (-8) 0 80 24 32 8 8 standard_uv with pl :: l => pl :: map wooden l | [] => [] end.
Definition crates : map_source := [ [MProp (lit "classname") (lit "worldspawn"); MBrush (crate standard_uv); MBrush far_crate] ].
Definition crates_config (bl : blacklist) : config := Config (Contents (map_bytes (polar true) crates)) ((lit "wood", (32, 32)%N) :: textures) bl no_fd yard_gd.

Definition index_counts (ns : list (node f32)) : list (option str * nat) := match ns with
  | NActor _ _ (NVisual _ (VisMesh l) :: _) :: _ => map (fun s => (s_texture s, length (s_indices s))) l
  | _ => []
  end.
Definition counts (bl : blacklist) : list (option str * nat) :=
  match run (polar true) given 4 (crates_config bl) with Ok ns => index_counts ns | _ => [] end.

(** With nothing listed, with brick brushes hidden, with wood planes hidden as well. *)
Theorem crates_hidden : let b0 := Blacklist [] [] in let b1 := Blacklist [lit "brick"] [] in let b2 := Blacklist [lit "brick"] [lit "wood"] in
  wider b0 b1 /\ wider b1 b2 /\ (exists nodes, run (polar true) given 4 (crates_config b0) = Ok nodes)
  /\ counts b0 = [(Some (lit "brick"), 42); (Some (lit "wood"), 30)]
  /\ counts b1 = [(Some (lit "brick"), 6); (Some (lit "wood"), 30)] /\ counts b2 = [(Some (lit "brick"), 6)].
Proof.
  cbv zeta. split; [split; intros x []|]. split; [split; [apply incl_refl|intros x []]|]. split; [eexists; vm_compute; reflexivity|].
  split; [|split]; vm_compute; reflexivity.
Qed.
