(** Meshes and concave shapes are closed: proofs of C125. *)
From Coq Require Import Reals Lra Lia Permutation.
From Verif Require Import Prelude F32 Text MapModel GeoModel LayerModel GameDataModel SceneModel GatherSpec SurfaceSpec LayerSpec InvarianceSpec GeoSpec RealSpec WindSpec SolidSpec RigidSpec EdgeSpec ShellSpec
  BaseProofs ShiftProofs LayerProofs GeoProofs SurfaceProofs RealProofs WindProofs EdgeProofs ClosedProofs.
Local Open Scope R_scope.

(** ** Lists of triangles *)
Lemma triples_map : forall A B (g : A -> B) l, triples (map g l) = map (fun '(i, j, k) => (g i, g j, g k)) (triples l).
Proof.
  intros A B g. fix IH 1. intros [|a [|b [|c l]]]; [reflexivity..|]. cbn [map triples]. now rewrite IH.
Qed.
Lemma triples_app : forall A n (l l' : list A), length l = (3 * n)%nat -> triples (l ++ l') = triples l ++ triples l'.
Proof.
  intros A n. induction n as [|n IH]; intros l l' L; [destruct l; [reflexivity|discriminate]|].
  destruct l as [|a [|b [|c l]]]; cbn [length] in L; try lia. cbn [app triples]. f_equal. apply IH. lia.
Qed.
Lemma triples_flat : forall A B (g : A -> list B) l, (forall x, In x l -> exists n, length (g x) = (3 * n)%nat) -> triples (flat_map g l) = flat_map (fun x => triples (g x)) l.
Proof.
  intros A B g l. induction l as [|a l IH]; intros H; [reflexivity|]. cbn [flat_map]. destruct (H a (or_introl eq_refl)) as (n & L). rewrite (triples_app _ n) by exact L.
  now rewrite IH by (intros x I; apply H; now right).
Qed.
Lemma flat_map_map : forall A B C (g : B -> list C) (h : A -> B) l, flat_map g (map h l) = flat_map (fun x => g (h x)) l.
Proof. intros A B C g h l. induction l as [|a l IH]; [reflexivity|]. cbn [map flat_map]. now rewrite IH. Qed.
Lemma flat_map_flat : forall A B C (g : B -> list C) (h : A -> list B) l, flat_map g (flat_map h l) = flat_map (fun x => flat_map g (h x)) l.
Proof. intros A B C g h l. induction l as [|a l IH]; [reflexivity|]. cbn [flat_map]. now rewrite flat_map_app, IH. Qed.

Lemma tight_app : forall l l', watertight l -> watertight l' -> watertight (l ++ l').
Proof. intros l l' H H'. unfold watertight. rewrite flat_map_app, map_app. now apply Permutation_app. Qed.
Lemma tight_flat : forall A (g : A -> list corner3) l, (forall x, In x l -> watertight (g x)) -> watertight (flat_map g l).
Proof.
  intros A g l. induction l as [|a l IH]; intros H; [constructor|]. cbn [flat_map]. apply tight_app; [apply H; now left|apply IH; intros x I; apply H; now right].
Qed.
Lemma tight_perm : forall l l', Permutation l l' -> watertight l -> watertight l'.
Proof.
  intros l l' P H. unfold watertight in *. pose proof (Permutation_flat_map three_sides P) as Q. rewrite <- Q. exact H.
Qed.
Lemma numbers_app : forall A (g : A -> R) l l', sum_numbers g (l ++ l') = sum_numbers g l + sum_numbers g l'.
Proof. intros A g l l'. induction l as [|a l IH]; cbn [app sum_numbers fold_right]; [unfold sum_numbers; ring|]. fold (sum_numbers g (l ++ l')) (sum_numbers g l). rewrite IH. ring. Qed.
Lemma numbers_perm : forall A (g : A -> R) l l', Permutation l l' -> sum_numbers g l = sum_numbers g l'.
Proof.
  intros A g l l' H. induction H as [|x l l' H IH|x y l|l l' l'' H IH H' IH']; [reflexivity| | |congruence]; cbn [sum_numbers fold_right].
  - fold (sum_numbers g l) (sum_numbers g l'). now rewrite IH.
  - ring.
Qed.
Lemma encloses_app : forall l l', encloses l -> encloses l' -> encloses (l ++ l').
Proof. intros l l' (v & P & H) (v' & P' & H'). exists (v + v'). split; [lra|]. intros c. rewrite numbers_app, H, H'. ring. Qed.
Lemma encloses_flat : forall A (g : A -> list corner3) l, l <> [] -> (forall x, In x l -> encloses (g x)) -> encloses (flat_map g l).
Proof.
  intros A g l. induction l as [|a l IH]; intros N H; [congruence|]. cbn [flat_map]. destruct l as [|b l]; [rewrite app_nil_r; apply H; now left|].
  apply encloses_app; [apply H; now left|]. apply IH; [discriminate|]. intros x I. apply H. now right.
Qed.
Lemma encloses_perm : forall l l', Permutation l l' -> encloses l -> encloses l'.
Proof. intros l l' P (v & Pv & H). exists v. split; [exact Pv|]. intros c. rewrite <- (H c). symmetry. now apply numbers_perm. Qed.

(** ** The sides of a fan *)
Lemma fan_sides : forall o l a, exists D, Permutation (flat_map three_sides (fans o (a :: l))) (match l with [] => [] | _ => (o, a) :: walk (a :: l ++ [o]) end ++ D) /\ Permutation D (map swap D).
Proof.
  intros o l. induction l as [|b l IH]; intros a; [exists []; split; constructor|]. destruct (IH b) as (D & P & Q). change (fans o (a :: b :: l)) with ((o, a, b) :: fans o (b :: l)).
  cbn [flat_map three_sides app]. change (walk (a :: b :: l ++ [o])) with ((a, b) :: walk (b :: l ++ [o])).
  destruct l as [|c l].
  - exists D. split; [|exact Q]. cbn [app walk]. cbn [app] in P. now do 3 constructor.
  - exists ((b, o) :: (o, b) :: D). split.
    + rewrite P. cbn [app]. do 2 constructor. etransitivity; [|apply Permutation_middle]. constructor. etransitivity; [|apply Permutation_middle]. constructor. reflexivity.
    + cbn [map swap fst snd]. rewrite <- Q. apply perm_swap.
Qed.

Section Scene.
Context (parse : str -> option R) (cosine radians : R -> R) (atan2 : R -> R -> R)
  (quat : vec3 R -> R -> vec3 R -> vec3 R) (mat2 : R -> vec2 R -> vec2 R).
Local Notation O := (real_num parse cosine radians atan2 quat mat2).
Local Notation laws := (real_laws parse cosine radians atan2 quat mat2).
Context (An : polar_angle atan2).

Lemma face_sides : forall tx e planes plane f, build_face O tx e planes plane = Ok f ->
  exists D, Permutation (flat_map three_sides (face_triangles f)) (round f ++ D) /\ Permutation D (map swap D).
Proof.
  intros tx e planes plane f E. rewrite (triangles_fan _ _ _ _ _ _ _ _ _ _ _ E). unfold round. destruct (points f) as [|o [|a l]]; [exists []; split; constructor..|].
  destruct (length (o :: a :: l) <? 3)%nat eqn:L; [exists []; split; constructor|]. destruct (fan_sides o l a) as (D & P & Q). exists D. split; [|exact Q]. rewrite P.
  destruct l as [|b l]; [discriminate|]. reflexivity.
Qed.
Lemma brush_closed : forall tx e planes b, build_brush O tx e planes = Ok b -> good_brush O tx e planes ->
  watertight (all_triangles (bg_faces b)) /\ encloses (all_triangles (bg_faces b)).
Proof.
  intros tx e planes b E (H & Bd & (o & Dp) & Nr). assert (H' : forall plane f, In plane planes -> In f (bg_faces b) -> build_face O tx e planes plane = Ok f -> proper plane /\ crisp planes f /\ sharp planes plane) by auto.
  split; [|exact (volume_positive _ _ _ _ _ _ _ _ _ _ o E An H' Bd Dp Nr)].
  pose proof (rounds_swap _ _ _ _ _ _ _ _ _ _ o E An H' Bd Dp Nr) as Pm. pose proof (faces_of _ _ _ _ _ _ _ _ _ _ E H') as F.
  unfold watertight. change (fun pq : vec3 R * vec3 R => (snd pq, fst pq)) with swap. unfold all_triangles. rewrite flat_map_flat.
  assert (G : exists D, Permutation (flat_map (fun f => flat_map three_sides (face_triangles f)) (bg_faces b)) (flat_map round (bg_faces b) ++ D) /\ Permutation D (map swap D)).
  { assert (Ff : forall f, In f (bg_faces b) -> exists D, Permutation (flat_map three_sides (face_triangles f)) (round f ++ D) /\ Permutation D (map swap D)).
    { intros f I. destruct (Forall2_in_r _ _ _ _ _ _ F I) as (P & _ & Ep). exact (face_sides _ _ _ _ _ Ep). }
    clear - Ff. induction (bg_faces b) as [|f l IH]; [exists []; split; constructor|]. destruct (IH (fun g I => Ff g (or_intror I))) as (D & P & Q). destruct (Ff f (or_introl eq_refl)) as (D' & P' & Q').
    exists (D' ++ D). split; [|rewrite map_app; now apply Permutation_app]. cbn [flat_map]. rewrite P, P'. rewrite <- !app_assoc. apply Permutation_app_head. rewrite !app_assoc. apply Permutation_app_tail. apply Permutation_app_comm. }
  destruct G as (D & P & Q). change (Permutation (flat_map (fun f => flat_map three_sides (face_triangles f)) (bg_faces b)) (map swap (flat_map (fun f => flat_map three_sides (face_triangles f)) (bg_faces b)))).
  rewrite P, map_app. now apply Permutation_app.
Qed.

(** ** What is drawn *)
Definition fanned (f : face R) : Prop := in_bounds f /\ exists n, length (f_indices f) = (3 * n)%nat.
Lemma built_fanned : forall tx e planes plane f, build_face O tx e planes plane = Ok f -> fanned f.
Proof.
  intros tx e planes plane f E. pose proof (face_fan _ _ _ _ _ _ E) as K. split; [exact (proj1 (proj2 K))|].
  destruct (face_inv _ _ _ _ _ _ E) as (_ & _ & _ & _ & _ & _ & Ei & _). rewrite Ei. unfold fan. destruct (length (f_vertices f) <? 3)%nat; [now exists 0%nat|].
  exists (length (f_vertices f) - 2)%nat. assert (G : forall n s, length (flat_map (fun i => [0%nat; (i + 1)%nat; (i + 2)%nat]) (seq s n)) = (3 * n)%nat); [|apply G].
  clear. induction n as [|n IH]; intros s; [reflexivity|]. cbn [seq flat_map]. rewrite app_length, IH. cbn [length]. lia.
Qed.
Lemma draws_triangles : forall points ix faces, draws O points ix faces -> (forall f, In f faces -> fanned f) -> drawn_triangles points ix = all_triangles faces.
Proof.
  intros points ix faces (_ & _ & D) F. unfold drawn_triangles.
  assert (M : map (spot points) ix = flat_map (fun f => map (place f) (f_indices f)) faces).
  { assert (M : map (spot points) ix = map (fun c => match c with Some w => vt_pos w | None => V3 0 0 0 end) (flat_map face_corners faces)).
    { clear F. induction D as [|i c ix cs (x & w & Ex & -> & K) D IH]; [reflexivity|]. cbn [map]. f_equal; [|exact IH]. unfold spot. rewrite Ex. destruct K as [K|K]; [exact K|].
      destruct K as (K1 & K2 & K3). apply (real_eq parse cosine radians atan2 quat mat2) in K1, K2, K3. destruct x as [x1 x2 x3], (vt_pos w) as [w1 w2 w3]. cbn [vx vy vz] in *. congruence. }
    rewrite M. clear. induction faces as [|f l IH]; [reflexivity|]. cbn [flat_map]. rewrite map_app, IH. f_equal. unfold face_corners, corners. rewrite map_map. apply map_ext. intros i. reflexivity. }
  rewrite M, triples_flat by (intros f I; rewrite map_length; exact (proj2 (F f I))). unfold all_triangles.
  clear. induction faces as [|f l IH]; [reflexivity|]. cbn [flat_map]. rewrite IH, triples_map. reflexivity.
Qed.

Section Geometry.
Context (tx : texture_info) (es : list (entity R)).
Context (Good : forall e planes, In e es -> In planes (e_brushes e) -> good_brush O tx e planes).
Definition from_map (b : brush_geo R) : Prop := exists e planes, In e es /\ In planes (e_brushes e) /\ build_brush O tx e planes = Ok b.
Lemma from_faces : forall b f, from_map b -> In f (bg_faces b) -> fanned f.
Proof.
  intros b f (e & planes & Ie & Ip & E) I. unfold build_brush in E. apply bind_ok in E. destruct E as (fs & Ef & E). injection E as <-. cbn [bg_faces] in I. apply mapM_ok in Ef.
  destruct (Forall2_in_r _ _ _ _ _ _ Ef I) as (P & _ & Ep). exact (built_fanned _ _ _ _ _ Ep).
Qed.
Lemma from_closed : forall b, from_map b -> watertight (all_triangles (bg_faces b)) /\ encloses (all_triangles (bg_faces b)).
Proof. intros b (e & planes & Ie & Ip & E). exact (brush_closed _ _ _ _ E (Good e planes Ie Ip)). Qed.
Definition closed (l : list corner3) : Prop := watertight l /\ encloses l.
Lemma brushes_closed : forall bs, (forall b, In b bs -> from_map b) -> bs <> [] -> closed (flat_map (fun b => all_triangles (bg_faces b)) bs).
Proof.
  intros bs F N. split; [apply tight_flat|apply encloses_flat; [exact N|]]; intros b I; now apply from_closed, F.
Qed.
Lemma closed_perm : forall l l', Permutation l l' -> closed l -> closed l'.
Proof. intros l l' P (A & B). split; [exact (tight_perm _ _ P A)|exact (encloses_perm _ _ P B)]. Qed.
Lemma all_flat : forall A (h : A -> list (face R)) l, all_triangles (flat_map h l) = flat_map (fun x => all_triangles (h x)) l.
Proof. intros A h l. unfold all_triangles. apply flat_map_flat. Qed.

Lemma concave_laid : forall g k, (forall b, In b (eg_brushes g) -> from_map b) -> concave_collision O g = Ok k -> forall c T, In T (shells (NCollision c k)) ->
  eg_brushes g <> [] /\ T = flat_map (fun b => all_triangles (bg_faces b)) (eg_brushes g).
Proof.
  intros g k F E c T I. assert (Bd : geometry_in_bounds g) by (intros b f Ib If; exact (proj1 (from_faces b f (F b Ib) If))).
  destruct (concave_full O laws g Bd) as (kept & vs & ix & E' & Fk & Ev & D & _). unfold collision_of in E'. rewrite E in E'. injection E' as ->.
  destruct vs as [|v vs]; [destruct I|]. cbn [shells map In cc_vertices cc_indices] in I. destruct I as [<-|[]].
  rewrite (draws_triangles _ _ _ D) by (intros f If; apply in_flat_map in If; destruct If as (b & Ib & If); exact (from_faces b f (F b Ib) If)).
  rewrite all_flat. split; [|reflexivity]. intros N. rewrite N in Fk. inversion Fk; subst. discriminate.
Qed.

(** Faces sorted by texture are the faces. *)
Lemma split_textures : forall ts (l : list (face R)), NoDup ts -> (forall f, In f l -> In (f_texture f) ts) ->
  Permutation (flat_map (fun t => filter (with_texture t) l) ts) l.
Proof.
  intros ts l N. induction l as [|f l IH]; intros H; [clear; induction ts; [constructor|exact IHts]|].
  specialize (IH (fun g I => H g (or_intror I))). pose proof (H f (or_introl eq_refl)) as I. apply in_split in I. destruct I as (t1 & t2 & ->).
  assert (N' : ~ In (f_texture f) (t1 ++ t2)) by now apply NoDup_remove_2 in N.
  assert (Sk : forall ts', ~ In (f_texture f) ts' -> flat_map (fun t => filter (with_texture t) (f :: l)) ts' = flat_map (fun t => filter (with_texture t) l) ts').
  { clear. induction ts' as [|t ts' IH]; intros N; [reflexivity|]. cbn [flat_map]. rewrite IH by (intros I; apply N; now right). f_equal. cbn [filter].
    destruct (with_texture t f) eqn:W; [|reflexivity]. apply with_texture_true in W. exfalso. apply N. left. now symmetry. }
  rewrite flat_map_app in IH |- *. cbn [flat_map] in IH |- *. rewrite !Sk by (intros I; apply N'; apply in_or_app; tauto). cbn [filter].
  assert (W : with_texture (f_texture f) f = true) by now apply with_texture_true. rewrite W. cbn [app]. etransitivity; [symmetry; apply Permutation_middle|]. now constructor.
Qed.
Lemma surface_drawn : forall g bl t os, (forall b, In b (eg_brushes g) -> from_map b) -> texture_surface O g bl t = Ok os ->
  match os with Some s => drawn_triangles (s_vertices s) (s_indices s) | None => [] end = all_triangles (selected_faces (drawn_brush bl) (with_texture t) g)
  /\ (os <> None -> filter (drawn_brush bl) (eg_brushes g) <> []).
Proof.
  intros g bl t os F E. assert (Bd : geometry_in_bounds g) by (intros b f Ib If; exact (proj1 (from_faces b f (F b Ib) If))).
  assert (Fs : forall f, In f (selected_faces (drawn_brush bl) (with_texture t) g) -> fanned f).
  { intros f I. unfold selected_faces in I. apply in_flat_map in I. destruct I as (b & Ib & If). apply filter_In in Ib, If. exact (from_faces b f (F b (proj1 Ib)) (proj1 If)). }
  destruct os as [s|].
  - split; [exact (draws_triangles _ _ _ (surface_draws O laws _ _ _ _ Bd E) Fs)|]. intros _ N.
    destruct (surface_full O laws g bl t Bd) as (os & E' & kept & res & Fk & _ & M). rewrite E in E'. injection E' as <-. rewrite N in Fk. inversion Fk; subst. destruct M as (M & _). now apply M.
  - split; [|congruence]. pose proof (proj1 (surface_absent O laws g bl t None Bd E) eq_refl) as Z. symmetry. unfold all_triangles.
    revert Z Fs. generalize (selected_faces (drawn_brush bl) (with_texture t) g). induction l as [|f l IH]; intros Z Fs; [reflexivity|]. cbn [flat_map].
    rewrite (IH (fun x I => Z x (or_intror I)) (fun x I => Fs x (or_intror I))). destruct (Fs f (or_introl eq_refl)) as (B & _). unfold in_bounds in B. rewrite (Z f (or_introl eq_refl)) in B.
    destruct (f_indices f) as [|i ix]; [reflexivity|]. specialize (B i (or_introl eq_refl)). cbn [length] in B. lia.
Qed.
Lemma surfaces_laid : forall g bl ts l, (forall b, In b (eg_brushes g) -> from_map b) -> mapM (texture_surface O g bl) ts = Ok l -> NoDup ts ->
  (forall b f, In b (eg_brushes g) -> In f (bg_faces b) -> In (f_texture f) ts) -> filter_map (fun o => o) l <> [] ->
  filter (drawn_brush bl) (eg_brushes g) <> [] /\
  Permutation (flat_map (fun b => all_triangles (bg_faces b)) (filter (drawn_brush bl) (eg_brushes g))) (flat_map (fun s => drawn_triangles (s_vertices s) (s_indices s)) (filter_map (fun o => o) l)).
Proof.
  intros g bl ts l F M N H Ne. apply mapM_ok in M.
  assert (E : flat_map (fun s => drawn_triangles (s_vertices s) (s_indices s)) (filter_map (fun o => o) l) = flat_map (fun t => all_triangles (selected_faces (drawn_brush bl) (with_texture t) g)) ts).
  { clear Ne N H. induction M as [|t os ts l E M IH]; [reflexivity|]. destruct (surface_drawn g bl t os F E) as (D & _). cbn [flat_map]. rewrite <- D.
    destruct os as [s|]; cbn [filter_map flat_map app]; now rewrite IH. }
  assert (Nf : filter (drawn_brush bl) (eg_brushes g) <> []).
  { destruct (filter_map (fun o => o) l) as [|s l'] eqn:Ef; [congruence|]. assert (I : In s (filter_map (fun o => o) l)) by (rewrite Ef; now left). apply filter_map_In in I. destruct I as (o & Io & ->).
    destruct (Forall2_in_r _ _ _ _ _ _ M Io) as (t & _ & Et). apply (surface_drawn g bl t (Some s) F Et). discriminate. }
  rewrite E. clear E M. set (bs := filter (drawn_brush bl) (eg_brushes g)) in *.
  split; [exact Nf|]. rewrite <- all_flat. unfold all_triangles at 1.
  set (g0 := fun f => map (fun '(i, j, k) => (place f i, place f j, place f k)) (triples (f_indices f))).
  rewrite <- (Permutation_flat_map g0 (split_textures ts (flat_map bg_faces bs) N (fun f I => let '(ex_intro _ b (conj Ib If)) := proj1 (in_flat_map _ _ _) I in H b f (proj1 (proj1 (filter_In _ _ _) Ib)) If))).
  rewrite flat_map_flat. apply Permutation_refl'. apply flat_map_ext. intros t. unfold all_triangles, selected_faces. fold bs. f_equal.
  clear. induction bs as [|b bs IH]; [reflexivity|]. cbn [flat_map]. rewrite filter_app. now rewrite IH.
Qed.
End Geometry.
End Scene.
