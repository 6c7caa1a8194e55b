(** Maps to try whole runs on. *)
From Coq Require Import SpecFloat Permutation.
From Verif Require Import Prelude F32 Text MapModel DiffModel GeoModel LayerModel GameDataModel SceneModel RunModel
  Witness GatherSpec GeoSpec LayerSpec SurfaceSpec TreeSpec GameDataSpec PropertySpec SceneWitness GeoWitness MapSpec Utf8Spec RunSpec
  BaseProofs TreeProofs RunProofs DocumentProofs PrintProofs.

(** ** A map *)
Definition castle : map_source :=
  [ [MProp (lit "classname") (lit "lamp")];
    [MProp (lit "classname") (lit "worldspawn"); MBrush (crate standard_uv)];
    [MProp (lit "classname") (lit "door"); MProp (lit "_tb_id") (lit "7")];
    [MProp (lit "classname") (lit "handle"); MProp (lit "_tb_group") (lit "7")] ].
Definition castle_config : config := Config (Contents (map_bytes (polar true) castle)) textures (Blacklist [] []) no_fd yard_gd.
Definition given (m : hmap (list (brush_geo f32))) : list (str * list (brush_geo f32)) := m.

Ltac each H := repeat (destruct H as [<-|H]; [|try contradiction]); try contradiction.
Ltac plainly := split; [repeat (apply Forall_cons; [unfold scalar; vm_compute; intuition discriminate|]); apply Forall_nil
  |split; vm_compute; intuition discriminate].

Lemma crate_exact : forall pl, In pl (crate standard_uv) ->
  exact_plane (polar true) pl /\ word (bp_texture pl) /\ Forall scalar (bp_texture pl) /\ finite_vec (plane_normal (f32_num (polar true)) pl).
Proof.
  intros pl H. unfold crate, box_planes in H. simpl in H.
  repeat (destruct H as [<-|H]; [split; [vm_compute; repeat split; intros; discriminate|split; [split; [discriminate|reflexivity]|split; [
    repeat (apply Forall_cons; [unfold scalar; vm_compute; intuition discriminate|]); apply Forall_nil|vm_compute; repeat split]]]|]).
  contradiction.
Qed.
Lemma castle_printable : printable (polar true) castle.
Proof.
  intros e i He Hi. simpl in He. repeat (destruct He as [<-|He]; [simpl in Hi; repeat (destruct Hi as [<-|Hi]; [|]); try contradiction; simpl|]);
    try contradiction; try (split; plainly).
  intros pl Hp. destruct (crate_exact pl Hp) as (A & B & C & _). auto.
Qed.
Lemma castle_normals : source_normals (polar true) castle.
Proof.
  intros e b pl u v He Hb Hp _. simpl in He.
  repeat (destruct He as [<-|He]; [simpl in Hb; repeat (destruct Hb as [Hb|Hb]; [try discriminate|]); try contradiction|]); try contradiction.
  injection Hb as <-. now destruct (crate_exact pl Hp) as (_ & _ & _ & A).
Qed.
Lemma castle_world : exists others w, doc_world (source_doc (polar true) castle) others w
  /\ ungrouped_classes others = [Some (lit "lamp"); Some (lit "door")].
Proof.
  do 2 eexists. split.
  - eexists [_], [_; _]. split; [reflexivity|]. split; [reflexivity|]. split; [reflexivity|].
    intros e H. simpl in H. repeat (destruct H as [<-|H]; [vm_compute; discriminate|]). contradiction.
  - reflexivity.
Qed.
Lemma castle_classes : doc_classes (source_doc (polar true) castle).
Proof. intros e H. simpl in H. repeat (destruct H as [<-|H]; [eexists; reflexivity|]). contradiction. Qed.
Lemma castle_distinct : doc_distinct (source_doc (polar true) castle).
Proof.
  intros i j a b x. unfold source_doc, castle, map.
  do 4 (destruct i as [|i]; [do 4 (destruct j as [|j]; [cbn [nth_error]; intros [= <-] [= <-]; try congruence; intros H K; vm_compute in H, K; congruence|]); cbn; destruct j; discriminate|]).
  cbn. destruct i; discriminate.
Qed.
Lemma castle_integral : doc_integral no_fd (source_doc (polar true) castle).
Proof. intros e fe k s _ H. contradiction. Qed.

(** What goes wrong: an id that is no number on an entity of a declared class. *)
Definition door_class : forge_data f32 := ForgeData [] [] [ForgeEntity PointClass [] (lit "door") [] []].
Definition gate : map_source :=
  [ [MProp (lit "classname") (lit "worldspawn")]; [MProp (lit "classname") (lit "door"); MProp (lit "_tb_id") (lit "x")] ].
Lemma gate_panics : forall p order fuel, exists c m w others why, cf_map c = Contents (map_bytes p m) /\ printable p m
  /\ source_normals p m /\ doc_world (source_doc p m) others w /\ doc_classes (source_doc p m) /\ doc_distinct (source_doc p m)
  /\ run p order (S fuel) c = Panic why.
Proof.
  intros p order fuel. exists (Config (Contents (map_bytes p gate)) [] (Blacklist [] []) door_class (GameData [] [])), gate.
  do 3 eexists. split; [reflexivity|]. split.
  { intros e i He Hi. simpl in He. repeat (destruct He as [<-|He]; [simpl in Hi; repeat (destruct Hi as [<-|Hi]; [|]); try contradiction; simpl|]);
    try contradiction; try (split; plainly). }
  split.
  { intros e b pl u v He Hb. simpl in He. repeat (destruct He as [<-|He]; [simpl in Hb; repeat (destruct Hb as [Hb|Hb]; [discriminate|]); contradiction|]). contradiction. }
  split.
  { eexists [], [_]. split; [reflexivity|]. split; [reflexivity|]. split; [reflexivity|].
    intros e H. simpl in H. repeat (destruct H as [<-|H]; [vm_compute; discriminate|]). contradiction. }
  split; [intros e H; simpl in H; repeat (destruct H as [<-|H]; [eexists; reflexivity|]); contradiction|].
  split.
  { intros i j a b x. unfold source_doc, gate, map.
    do 2 (destruct i as [|i]; [do 2 (destruct j as [|j]; [cbn [nth_error]; intros [= <-] [= <-]; try congruence; intros H K; vm_compute in H, K; congruence|]); cbn; destruct j; discriminate|]).
    cbn. destruct i; discriminate. }
  vm_compute.
  match goal with |- match ?f ?l with _ => _ end = _ => assert (M : forall x, exists r, f x = Ok r);
    [induction x as [|[a b] x (r & E)]; [eexists; reflexivity|cbn; rewrite E; eexists; reflexivity]
    |destruct (M l) as (r & E); rewrite E] end.
  reflexivity.
Qed.

(** A map whose two doors share an id, one being in the group of that id. *)
Definition tangle : map_source :=
  [ [MProp (lit "classname") (lit "worldspawn")];
    [MProp (lit "classname") (lit "door"); MProp (lit "_tb_id") (lit "1")];
    [MProp (lit "classname") (lit "door"); MProp (lit "_tb_id") (lit "1"); MProp (lit "_tb_group") (lit "1")] ].
Definition on_file (f : file) : config := Config f textures (Blacklist [] []) door_class yard_gd.
Definition outcome {A} (r : res A) : nat := match r with Ok _ => 0 | Err _ => 1 | Panic _ => 2 | OutOfFuel => 3 end.

Lemma loop_cyclic : cyclic loop_data.
Proof.
  assert (R : reaches loop_data 1) by (apply ReachRoot; vm_compute; auto).
  assert (G : in_group loop_data 1 2) by (split; [simpl; lia|exists (lit "1"); split; reflexivity]).
  exists 2, 0. split; [exact (ReachGroup _ _ _ R G)|]. apply WalkDown with 2; [|constructor].
  split; [simpl; lia|]. exists (lit "1"). split; reflexivity.
Qed.
Lemma loop_usable : all_usable no_fd loop_data.
Proof.
  intros i e g _ H. split; [|intros fe (c & _ & pre & post & H' & _); destruct pre; discriminate].
  do 3 (destruct i as [|i]; [injection H as <- _; eexists; reflexivity|]). destruct i; discriminate.
Qed.
Lemma loop_bounds : forall e g, In (e, g) loop_data -> geometry_in_bounds g.
Proof. intros e g H b f Hb. change g with (snd (e, g)) in Hb. revert Hb. generalize dependent (e, g). intros d H Hb. simpl in H. repeat (destruct H as [<-|H]; [contradiction|]). contradiction. Qed.
Lemma nameless : ~ all_usable no_fd [ent [(lit "classname", lit "worldspawn")]; ent [(lit "light", lit "300")]].
Proof.
  intros H. match type of H with all_usable _ ?d => assert (R : reaches d 1) by (apply ReachRoot; vm_compute; auto) end.
  destruct (H 1 _ _ R eq_refl) as ((c & E) & _). discriminate.
Qed.
