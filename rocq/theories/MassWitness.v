(** A map with a moat, to try C135 on. *)
From Coq Require Import Reals Lra Lia ZArith Permutation.
From Verif Require Import Prelude F32 Text MapModel GeoModel LayerModel GameDataModel SceneModel RunModel
  Witness GatherSpec GeoSpec LayerSpec SurfaceSpec TreeSpec GameDataSpec PropertySpec GeoWitness MapSpec Utf8Spec RunSpec
  InvarianceSpec RealSpec ErrorSpec PointsSpec CornerSpec WoundSpec CoverSpec EdgeSpec SeamSpec ShellSpec BrickSpec BulkSpec MassSpec BaseProofs RunProofs RunWitness ErrorProofs ErrorWitness KeptWitness TriangleWitness CoverWitness SeamWitness BrickWitness BulkWitness.
From Verif Require InvarianceProofs ShellProofs.
Local Open Scope R_scope.
Local Notation P := squared.

Lemma moat_planes : forall e lines planes, In e moat_doc -> In lines (doc_brushes e) -> Forall2 (reads_as P) lines planes -> planes = box6 \/ planes = map (paint water) box6.
Proof.
  intros e lines planes He Hl F. destruct (moat_brushes e lines He Hl) as (items & b & _ & _ & -> & Eb).
  assert (E : planes = b) by (eapply InvarianceProofs.Forall2_functional; [apply InvarianceProofs.read_unique|exact F|exact (lines_read b Eb)]). rewrite E. exact Eb.
Qed.
Lemma moat_firm : firm_document P haze moat_doc.
Proof.
  intros e lines planes He Hl F. destruct box_bulk as (g & _ & _ & _ & H & D & N & Ne & _). destruct (moat_planes e lines planes He Hl F) as [->| ->].
  - split; [exact Ne|]. split; [exact H|]. split; [exists heart; exact D|exact N].
  - split; [discriminate|]. split; [intros pl I; apply in_map_iff in I; destruct I as (q & <- & I); apply good_paint, H, I|].
    replace (map plane_of (map (paint water) box6)) with (map plane_of box6) by (now rewrite map_map). split; [exists heart; exact D|exact N].
Qed.
Lemma corner_paint : forall t planes pl x, true_corner (map (paint t) planes) (paint t pl) x -> true_corner planes pl x.
Proof.
  intros t planes pl x ((p1 & p2 & I1 & I2 & X) & S). apply in_map_iff in I1, I2. destruct I1 as (q1 & <- & I1). destruct I2 as (q2 & <- & I2).
  split; [exists q1, q2; auto|]. intros q I. exact (S (paint t q) (in_map _ _ _ I)).
Qed.
Lemma moat_near : forall e lines planes, In e moat_doc -> In lines (doc_brushes e) -> Forall2 (reads_as P) lines planes -> farthest planes heart 28 /\ across planes 56.
Proof.
  intros e lines planes He Hl F. destruct box_bulk as (g & _ & _ & _ & _ & _ & _ & _ & Fa & Ac & _). destruct (moat_planes e lines planes He Hl F) as [->| ->]; [split; assumption|].
  split; [intros pl x I Cx|intros pl x y I Cx Cy]; apply in_map_iff in I; destruct I as (q & <- & I); apply corner_paint in Cx; [now apply (Fa q)|]. apply corner_paint in Cy. now apply (Ac q).
Qed.

Theorem moat_massive : exists nodes, file_text (cf_map moat_config) moat_text /\ text_document P moat_text moat_doc /\ grid_document P moat_doc /\ firm_document P haze moat_doc
  /\ run P given 4 moat_config = Ok nodes
  /\ (forall e lines ln pl, In e moat_doc -> In lines (doc_brushes e) -> In ln lines -> reads_as P ln pl -> ~ In (bp_texture pl) (bl_plane (cf_blacklist moat_config)))
  /\ (forall e lines planes, In e moat_doc -> In lines (doc_brushes e) -> Forall2 (reads_as P) lines planes -> farthest planes heart 28 /\ across planes 56) /\ allowance haze <= / 1000
  /\ (exists n0 o k T, In n0 nodes /\ InvarianceSpec.within (NCollision o k) n0 /\ In T (shells32 (NCollision o k)) /\ length T = 12%nat)
  /\ exists n0 o v T, In n0 nodes /\ InvarianceSpec.within (NVisual o v) n0 /\ In T (shells32 (NVisual o v)) /\ length T = 12%nat.
Proof.
  destruct moat_read as (F & T & G).
  assert (E : exists o a ov v vs ch nodes o1 a1 o2 a2 x y oc cs z rest, run P given 4 moat_config = Ok (NActor o a (NVisual ov (VisMesh (v :: vs)) :: ch) :: nodes)
    /\ nodes = x :: NActor o1 a1 (NActor o2 a2 (y :: NCollision oc (ColConcave (z :: cs)) :: rest) :: []) :: []).
  { do 17 eexists. split; [vm_compute; reflexivity|reflexivity]. }
  destruct E as (o & a & ov & v & vs & ch & nodes & o1 & a1 & o2 & a2 & x & y & oc & cs & z & rest & E & En).
  assert (L : match run P given 4 moat_config with
    | Ok (NActor _ _ (NVisual _ (VisMesh l) :: _) :: _ :: NActor _ _ (NActor _ _ (_ :: NCollision _ k :: _) :: []) :: []) =>
        fold_right Nat.add 0%nat (map (fun s => length (triples (s_indices s))) l) = 12%nat /\ match k with ColConcave (t :: _) => length (triples (cc_indices t)) = 12%nat | _ => True end
    | _ => True end) by (vm_compute; split; reflexivity).
  rewrite E in L. subst nodes. destruct L as (L1 & L2).
  eexists. split; [exact F|]. split; [exact T|]. split; [exact G|]. split; [exact moat_firm|]. split; [exact E|]. split; [intros e ls ln pl _ _ _ _ H; exact H|]. split; [exact moat_near|].
  split; [unfold allowance, haze; replace (10 ^ 20) with 100000000000000000000 by ring; lra|]. split.
  - eexists. exists oc, (ColConcave (z :: cs)). eexists. split; [right; right; left; reflexivity|]. split; [|split; [cbn [shells32 map]; left; reflexivity|]].
    + eapply WithinChild; [left; reflexivity|]. eapply WithinChild; [right; left; reflexivity|]. constructor.
    + unfold drawn_triangles. rewrite ShellProofs.triples_map, map_length. exact L2.
  - eexists. exists ov, (VisMesh (v :: vs)). eexists. split; [left; reflexivity|]. split; [|split; [cbn [shells32]; left; reflexivity|]]. { eapply WithinChild; [left; reflexivity|]. constructor. }
    rewrite <- L1. clear. induction (v :: vs) as [|f l IH]; [reflexivity|]. cbn [flat_map map fold_right]. rewrite app_length, IH. f_equal. unfold drawn_triangles. now rewrite ShellProofs.triples_map, map_length.
Qed.
