(** Concave against convex collision shapes: proofs of C156. *)
From Coq Require Import Reals Lra Lia Permutation.
From Verif Require Import Prelude F32 Text MapModel GeoModel LayerModel GameDataModel SceneModel GatherSpec GeoSpec RealSpec WindSpec SolidSpec RigidSpec EdgeSpec RaySpec ShellSpec CladSpec CastSpec WrapSpec AgreeSpec
  BaseProofs GeoProofs RealProofs WindProofs SolidProofs EdgeProofs RayProofs PierceProofs ShellProofs ShellFinal CladProofs CastProofs WrapProofs.
Local Open Scope R_scope.

Lemma surface_skin : forall planes l, bounded (solid planes) -> (forall q, In q planes -> proper q) -> casts planes l -> forall x, surface_of planes x <-> skin l x.
Proof.
  intros planes l Bd Pr C x. unfold skin. rewrite (C x). split.
  - intros (S & q & Iq & On). split; [exact S|]. exists (facing q). intros t Ht H. apply C in H. apply slack_on in On. rewrite solid_slack in H. specialize (H q Iq).
    change (onwards x (facing q) t) with (moved x (facing q) t) in H. rewrite slack_moved, On in H.
    assert (P : 0 < rate q (facing q)).
    { specialize (Pr q Iq). apply RealProofs.norm_pos in Pr. unfold rate. rewrite <- RealProofs.norm_sq. now apply Rmult_lt_0_compat. }
    pose proof (Rmult_lt_0_compat _ _ Ht P). lra.
  - intros (S & w & H). split; [exact S|]. destruct (Exists_dec (fun q => slack q x = 0) planes (fun q => Req_EM_T (slack q x) 0)) as [X|N].
    { apply Exists_exists in X. destruct X as (q & Iq & Z). exists q. split; [exact Iq|]. now apply slack_on. }
    exfalso.
    assert (D : deep planes x).
    { intros q Iq. rewrite solid_slack in S. specialize (S q Iq). destruct S as [S|S]; [unfold slack in S; lra|]. exfalso. apply N. apply Exists_exists. exists q. split; [exact Iq|]. now symmetry. }
    destruct (v3_dec w (V3 0 0 0)) as [->|Nw].
    + apply (H 1); [lra|]. apply C. replace (onwards x (V3 0 0 0) 1) with x; [exact S|]. unfold onwards. apply v3_ext; cbn [vx vy vz]; ring.
    + destruct (leaves planes x Bd D w Nw) as (t & Ht & _ & _ & L). apply (H t Ht). apply C. apply L; lra.
Qed.
Lemma core_deep : forall planes l, bounded (solid planes) -> (forall q, In q planes -> proper q) -> casts planes l -> forall x, core l x -> deep planes x.
Proof.
  intros planes l Bd Pr C x (S & H) q Iq. apply C in S. pose proof S as S'. rewrite solid_slack in S'. specialize (S' q Iq). destruct S' as [S'|S']; [unfold slack in S'; lra|]. exfalso.
  assert (X : skin l x) by (apply (surface_skin planes l Bd Pr C); split; [exact S|]; exists q; split; [exact Iq|]; apply slack_on; now symmetry).
  destruct X as (_ & w & X). destruct (H w) as (t & Ht & Hh). exact (X t Ht Hh).
Qed.

Section Entity.
Context (parse : str -> option R) (cosine radians : R -> R) (atan2 : R -> R -> R)
  (quat : vec3 R -> R -> vec3 R -> vec3 R) (mat2 : R -> vec2 R -> vec2 R).
Local Notation O := (real_num parse cosine radians atan2 quat mat2).
Context (An : polar_angle atan2) (tx : texture_info) (e : entity R) (g : entity_geo R).
Context (Built : build_entity_geo O tx e = Ok g) (Good : forall planes, In planes (e_brushes e) -> good_brush O tx e planes).

Lemma both_built : Forall2 (fun planes b => In planes (e_brushes e) /\ build_brush O tx e planes = Ok b) (e_brushes e) (eg_brushes g).
Proof.
  unfold build_entity_geo in Built. apply bind_ok in Built. destruct Built as (bs & Eb & Ee). injection Ee as <-. cbn [eg_brushes]. apply mapM_ok in Eb.
  assert (G : forall l bs', (forall planes, In planes l -> In planes (e_brushes e)) -> Forall2 (fun planes b => build_brush O tx e planes = Ok b) l bs' ->
    Forall2 (fun planes b => In planes (e_brushes e) /\ build_brush O tx e planes = Ok b) l bs').
  { intros l bs' Sub F. induction F as [|planes b l bs' X F IH]; constructor; [split; [apply Sub; now left|exact X]|apply IH; intros; apply Sub; now right]. }
  apply G; [auto|exact Eb].
Qed.
Lemma good_proper : forall planes b, In planes (e_brushes e) -> build_brush O tx e planes = Ok b -> forall q, In q planes -> proper q.
Proof.
  intros planes b I E q Iq. destruct (Good planes I) as (H & _). unfold build_brush in E. apply bind_ok in E. destruct E as (fs & Ef & _). apply mapM_ok in Ef.
  destruct (Forall2_in_l _ _ _ _ _ _ Ef Iq) as (f & _ & E). exact (proj1 (H q f Iq E)).
Qed.
Context (shapes : list (convex R)) (Ex : collision_of O CConvex g = Ok (ColConvex shapes)).
(** The shapes are those of the brushes. *)
Lemma cast_shapes : Forall2 (fun planes shape => In planes (e_brushes e) /\ casts planes (cx_points shape) /\ bounded (solid planes) /\ forall q, In q planes -> proper q) (e_brushes e) shapes.
Proof.
  destruct (convex_gathered parse cosine radians atan2 quat mat2 g) as (shapes' & E & F). rewrite Ex in E. injection E as <-. pose proof both_built as B. revert F B.
  generalize (eg_brushes g) at 1 2. intros bs F B. assert (G : forall l, Forall2 (fun planes b => In planes (e_brushes e) /\ build_brush O tx e planes = Ok b) l bs ->
    Forall2 (fun planes shape => In planes (e_brushes e) /\ casts planes (cx_points shape) /\ bounded (solid planes) /\ forall q, In q planes -> proper q) l shapes); [|exact (G _ B)].
  clear B Ex. induction F as [|b s bs shapes' Gt F IH]; intros l B; inversion B as [|planes b' l' bs' (I & Eb) B' E1 E2]; subst; constructor; [|exact (IH _ B')].
  split; [exact I|]. destruct (Good planes I) as (H & Bd & _). split; [|split; [exact Bd|exact (good_proper planes b I Eb)]].
  unfold build_brush in Eb. apply bind_ok in Eb. destruct Eb as (fs & Ef & Eb). injection Eb as <-. cbn [bg_faces] in Gt. apply mapM_ok in Ef.
  exact (faces_cast parse cosine radians atan2 quat mat2 tx e planes fs _ Ef (conj H Bd) Gt).
Qed.
Context (k : collision R) (c : vec3 R) (T : list corner3) (Ek : collision_of O CConcave g = Ok k) (IT : In T (shells (NCollision c k))).
Lemma both_covered : forall x, covered T x <-> exists planes, In planes (e_brushes e) /\ surface_of planes x.
Proof.
  assert (G' : forall e' planes, In e' [e] -> In planes (e_brushes e') -> good_brush O tx e' planes) by (intros e' planes [<-|[]]; apply Good).
  destruct (concave_laid parse cosine radians atan2 quat mat2 tx [e] g k) with (c := c) (T := T) as (_ & E); [|exact Ek|exact IT|].
  - intros b Ib. destruct (Forall2_in_r _ _ _ _ _ _ both_built Ib) as (planes & _ & Ip & Eb). exists e, planes. split; [now left|auto].
  - rewrite E. exact (chosen_covered parse cosine radians atan2 quat mat2 An tx [e] G' e (e_brushes e) (eg_brushes g) _ (or_introl eq_refl) both_built (Permutation_refl _)).
Qed.
Theorem shapes_agree : forall x, covered T x <-> exists shape, In shape shapes /\ skin (cx_points shape) x.
Proof.
  intros x. rewrite both_covered. pose proof cast_shapes as F. split.
  - intros (planes & Ip & S). destruct (Forall2_in_l _ _ _ _ _ _ F Ip) as (shape & Is & _ & C & Bd & Pr). exists shape. split; [exact Is|]. now apply (surface_skin planes).
  - intros (shape & Is & S). destruct (Forall2_in_r _ _ _ _ _ _ F Is) as (planes & Ip & _ & C & Bd & Pr). exists planes. split; [exact Ip|]. now apply (surface_skin planes (cx_points shape)).
Qed.
Theorem shapes_stop : forall shape x y, In shape shapes -> core (cx_points shape) x -> ~ in_hull (cx_points shape) y -> exists s, 0 < s < 1 /\ covered T (towards x y s).
Proof.
  intros shape x y Is Cx Ny. destruct (Forall2_in_r _ _ _ _ _ _ cast_shapes Is) as (planes & Ip & _ & C & Bd & Pr).
  assert (D := core_deep planes _ Bd Pr C x Cx). rewrite (C y) in Ny. destruct (surface_way planes Bd x y D Ny) as (s & Ss & M). exists s. split; [exact Ss|].
  apply both_covered. exists planes. split; [exact Ip|]. apply M; [lra|reflexivity].
Qed.
End Entity.
