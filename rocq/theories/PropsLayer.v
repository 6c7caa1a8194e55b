(** C22 to C24: layer filter. *)
From Coq Require Import Permutation.
From Verif Require Import Prelude F32 Text MapModel GeoModel LayerModel DiffSpec LayerSpec LayerProofs.

(** * C22 Layer splitting conserves brushes *)
Theorem C22_conserve : forall T (data out : list (entity T * entity_geo T)) layers,
  layer_filter data = Ok (out, layers) ->
  exists we wg others rest w s,
    single_world data we wg others /\
    out = (we, EntityGeo (eg_center wg) rest) :: others /\
    two_layers layers w s /\
    Permutation (rest ++ w ++ s) (eg_brushes wg) /\
    subseq rest (eg_brushes wg) /\ subseq w (eg_brushes wg) /\ subseq s (eg_brushes wg).
Proof. exact @LayerProofs.conserve. Qed.
Print Assumptions C22_conserve.

(** * C23 Layer membership *)
Theorem C23_parts : forall T (data out : list (entity T * entity_geo T)) layers,
  layer_filter data = Ok (out, layers) ->
  exists we wg others rest w s,
    single_world data we wg others /\
    out = (we, EntityGeo (eg_center wg) rest) :: others /\
    two_layers layers w s /\
    selected (all_faces water) (eg_brushes wg) w /\
    selected (fun b => ~ all_faces water b /\ all_faces slime b) (eg_brushes wg) s /\
    selected (fun b => ~ all_faces water b /\ ~ all_faces slime b) (eg_brushes wg) rest.
Proof. exact @LayerProofs.membership. Qed.
Print Assumptions C23_parts.

Theorem C23_membership : forall T (data out : list (entity T * entity_geo T)) layers,
  layer_filter data = Ok (out, layers) ->
  forall we wg others, single_world data we wg others ->
  exists w s, two_layers layers w s /\
    (forall b, In b w <-> In b (eg_brushes wg) /\ all_faces water b) /\
    (forall b, bg_faces b <> [] -> (In b s <-> In b (eg_brushes wg) /\ all_faces slime b)) /\
    (forall b, In b (eg_brushes wg) -> bg_faces b = [] -> In b w /\ ~ In b s).
Proof. exact @LayerProofs.membership_iff. Qed.
Print Assumptions C23_membership.

(** * C24 Exactly one worldspawn *)
Theorem C24_single : forall T (data : list (entity T * entity_geo T)),
  (forall we wg others, single_world data we wg others ->
     exists geo layers, layer_filter data = Ok ((we, geo) :: others, layers)) /\
  ((forall we wg others, ~ single_world data we wg others) -> exists w, layer_filter data = Panic w) /\
  (forall r, layer_filter data = Ok r -> exists we wg others, single_world data we wg others).
Proof. exact @LayerProofs.single. Qed.
Print Assumptions C24_single.

(** A worldspawn in second place with a water, a slime, a mixed and a plain brush. *)
Definition tface (t : option str) : face nat := Face (V3 0 0 0) [] [] t.
Definition ex_light : entity nat * entity_geo nat :=
  (Entity [(lit "classname", lit "light")] [], EntityGeo (V3 1 2 3) []).
Definition ex_slime := BrushGeo (V3 1 0 0) [tface (Some slime); tface (Some slime)].
Definition ex_mixed := BrushGeo (V3 2 0 0) [tface (Some slime); tface (Some water)].
Definition ex_water := BrushGeo (V3 3 0 0) [tface (Some water)].
Definition ex_plain := BrushGeo (V3 4 0 0) [tface None].
Definition ex_hollow : brush_geo nat := BrushGeo (V3 5 0 0) [].
Definition ex_we : entity nat := Entity [(lit "classname", lit "worldspawn")] [].
Definition ex_brushes := [ex_slime; ex_mixed; ex_water; ex_plain; ex_hollow].
Example C22_example :
  layer_filter [ex_light; (ex_we, EntityGeo (V3 7 7 7) ex_brushes)] =
    Ok ([(ex_we, EntityGeo (V3 7 7 7) [ex_mixed; ex_plain]); ex_light],
        [(water, [ex_water; ex_hollow]); (slime, [ex_slime])]).
Proof. vm_compute. reflexivity. Qed.
Example C24_example : layer_filter [ex_light] = Panic (lit "Worldspawn element not a singleton").
Proof. vm_compute. reflexivity. Qed.
Example C24_example2 :
  single_world [ex_light; (ex_we, EntityGeo (V3 7 7 7) ex_brushes)] ex_we (EntityGeo (V3 7 7 7) ex_brushes) [ex_light].
Proof.
  exists [ex_light], []. repeat split. intros d [<-|[]]. discriminate.
Qed.
