(** Sample geometry used by the examples of C30 to C35. *)
From Verif Require Import Prelude F32 Text MapModel GeoModel LayerModel GameDataModel SceneModel GatherSpec SurfaceSpec.

Definition w0 : f32 := f32_of_N 0.
Definition w1 : f32 := f32_of_N 1.
Definition at_ (x y z : f32) (n : vec3 f32) : vertex f32 := Vertex (V3 x y z) n (V3 w1 w0 w0, w1) (Some (V2 w0 w0)) None.
Definition up : vec3 f32 := V3 w0 w0 w1.
Definition side : vec3 f32 := V3 w0 w1 w0.
Definition tex : option str := Some (lit "t").

(** A floor, a wall on its edge, and the same wall again. *)
Definition floor : face f32 := Face (V3 w0 w0 w0) [at_ w0 w0 w0 up; at_ w1 w0 w0 up; at_ w0 w1 w0 up] [0; 1; 2] tex.
Definition wall : face f32 := Face (V3 w0 w0 w0) [at_ w0 w0 w0 side; at_ w0 w0 w1 side; at_ w1 w0 w0 side] [0; 1; 2] tex.
Definition doubled : entity_geo f32 :=
  EntityGeo (V3 w0 w0 w0) [BrushGeo (V3 w0 w0 w0) [floor; wall; wall]].
Definition plain : entity_geo f32 :=
  EntityGeo (V3 w0 w0 w0) [BrushGeo (V3 w0 w0 w0) [floor; wall]; BrushGeo (V3 w0 w0 w0) [floor]].

Lemma doubled_in_bounds : geometry_in_bounds doubled.
Proof.
  intros b f [<-|[]] Hf i Hi. simpl in Hf.
  repeat match goal with H : _ \/ _ |- _ => destruct H | H : False |- _ => destruct H end; subst;
    simpl in Hi; repeat match goal with H : _ \/ _ |- _ => destruct H | H : False |- _ => destruct H end; subst; simpl; lia.
Qed.

Lemma plain_in_bounds : geometry_in_bounds plain.
Proof.
  intros b f Hb Hf i Hi. simpl in Hb.
  repeat match goal with H : _ \/ _ |- _ => destruct H | H : False |- _ => destruct H end; subst; simpl in Hf;
    repeat match goal with H : _ \/ _ |- _ => destruct H | H : False |- _ => destruct H end; subst;
    simpl in Hi; repeat match goal with H : _ \/ _ |- _ => destruct H | H : False |- _ => destruct H end; subst; simpl; lia.
Qed.
Definition surface_of (r : res (option (surface f32))) : surface f32 :=
  match r with Ok (Some s) => s | _ => Surface None [] [] [] None None [] end.

Lemma doubled_corner : forall p,
  exists s, texture_surface (f32_num p) doubled blacklist_default tex = Ok (Some s)
    /\ nth_error (s_indices s) 6 = Some 0
    /\ nth_error (s_normals s) 0 = Some up
    /\ nth_error (flat_map face_corners (selected_faces (drawn_brush blacklist_default) (with_texture tex) doubled)) 6
       = Some (Some (at_ w0 w0 w0 side)).
Proof.
  intros p. exists (surface_of (texture_surface (f32_num p) doubled blacklist_default tex)).
  repeat split; vm_compute; reflexivity.
Qed.
