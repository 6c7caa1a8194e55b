(** A brush with huge coordinates, whose corners cannot be sorted (C133). *)
From Coq Require Import SpecFloat Permutation Lia.
From Verif Require Import Prelude F32 Text MapModel GeoModel Witness GatherSpec GeoSpec GatherProofs GeoProofs StableSpec GeoWitness.
Local Open Scope nat_scope.

Definition flat_uv : uv f32 := UVValve (fv 1 0 0) (fz 0) (fv 0 (-1) 0) (fz 0).
Definition far : Z := (10 ^ 36)%Z.
(** Below z = 1 and y = 0.4e38, above y = -1.65e38, right of x = -1.6e38 and below the line x + 2 y = 0. *)
Definition giant : list (brush_plane f32) := [
  wall_at (fv 0 0 1) (fv 0 1 1) (fv 1 0 1) flat_uv;
  wall_at (fv (-160 * far) 0 0) (fv (-160 * far) 1 0) (fv (-160 * far) 0 1) flat_uv;
  wall_at (fv 0 0 0) (fv 2 (-1) 0) (fv 0 0 1) flat_uv;
  wall_at (fv 0 (-165 * far) 0) (fv 0 (-165 * far) 1) (fv 1 (-165 * far) 0) flat_uv;
  wall_at (fv 0 (40 * far) 0) (fv 1 (40 * far) 0) (fv 0 (40 * far) 1) flat_uv;
  wall_at (fv 0 0 0) (fv 1 0 0) (fv 0 1 0) flat_uv ].
Definition lid : brush_plane f32 := hd (wall_at (fv 0 0 0) (fv 0 0 0) (fv 0 0 0) flat_uv) giant.

Definition giant_found (simd : bool) : list (vertex f32) := Eval vm_compute in
  if simd then match plane_vertices (f32_num (polar true)) None (world []) giant lid with Ok vs => vs | _ => [] end
  else match plane_vertices (f32_num (polar false)) None (world []) giant lid with Ok vs => vs | _ => [] end.
Lemma giant_vertices : forall p, plane_vertices (f32_num p) None (world []) giant lid = Ok (giant_found (p_simd p)).
Proof. intros p. destruct p as [simd ? ? ? ? ? ? ? ? ? ?]. destruct simd; vm_compute; reflexivity. Qed.

Definition giant_corners (simd : bool) : list (vertex f32) := Eval vm_compute in
  let O := f32_num (polar simd) in
  if simd then let u := map (finish O false) (lasts O (giant_found true)) in map (move (fun x => v3_sub O x (mean O (map vt_pos u)))) u
  else let u := map (finish O false) (lasts O (giant_found false)) in map (move (fun x => v3_sub O x (mean O (map vt_pos u)))) u.
Lemma giant_centred : forall p f, build_face (f32_num p) [] (world []) giant lid = Ok f -> gathered p giant lid f (giant_corners (p_simd p)).
Proof.
  intros p f E. destruct (face_inv _ _ _ _ _ _ E) as (vs & raw & Ev & -> & C & _). change (hget [] (bp_texture lid)) with (@None (N * N)) in Ev.
  eexists. split; [eapply raw_corners; [apply f32_eq_laws|exact Ev]|]. split; [rewrite C; apply mean_is|].
  rewrite giant_vertices in Ev. injection Ev as <-. change (is_phong (world [])) with false in *. rewrite C. clear.
  replace (giant_corners (p_simd p)) with (map (move (fun x => v3_sub (f32_num p) x (mean (f32_num p) (map vt_pos (map (finish (f32_num p) false) (lasts (f32_num p) (giant_found (p_simd p))))))))
    (map (finish (f32_num p) false) (lasts (f32_num p) (giant_found (p_simd p))))) by (destruct p as [simd ? ? ? ? ? ? ? ? ? ?]; destruct simd; vm_compute; reflexivity).
  apply move_moved.
Qed.

Theorem giant_unsorted : forall p, usual_angle (p_atan2 p) -> exists f centred x y z, build_face (f32_num p) [] (world []) giant lid = Ok f
  /\ gathered p giant lid f centred /\ In x centred /\ In y centred /\ In z centred
  /\ tied (ahead p lid) x y /\ tied (ahead p lid) y z /\ ahead p lid x z.
Proof.
  intros p U. destruct (build_face (f32_num p) [] (world []) giant lid) as [f| | |] eqn:E;
    try (unfold build_face in E; change (hget [] (bp_texture lid)) with (@None (N * N)) in E; rewrite giant_vertices in E; discriminate).
  pose proof (giant_centred p f E) as G. clear E. destruct U as [Un Uo].
  destruct (giant_corners (p_simd p)) as [|x [|z [|y rest]]] eqn:C; try (destruct (p_simd p); discriminate).
  exists f, (x :: z :: y :: rest), x, y, z. split; [reflexivity|]. split; [exact G|]. clear G. cbn [In]. split; [auto|]. split; [auto|]. split; [auto|].
  assert (H : angle_of (f32_num p) lid y = S754_nan /\ f32_cmp (angle_of (f32_num p) lid x) (angle_of (f32_num p) lid z) = Some Gt).
  { unfold angle_of. cbn [n_atan2 f32_num]. split.
    - apply Un. destruct p as [simd at2 ? ? ? ? ? ? ? ? ?]. destruct simd; injection C as <- <- <- <-; right; vm_compute; reflexivity.
    - apply Uo; destruct p as [simd ? ? ? ? ? ? ? ? ? ?]; destruct simd; injection C as <- <- <- <-; vm_compute; reflexivity. }
  destruct H as [H1 H2]. unfold tied, ahead, greater. rewrite H1. cbn [n_cmp f32_num].
  assert (N : forall a, f32_cmp a S754_nan <> Some Gt) by (intros [[]|[]| |[]]; discriminate).
  split; [split; [apply N|discriminate]|]. split; [split; [discriminate|apply N]|exact H2].
Qed.

(** Angles as they should be, by halves and quarters of the circle. *)
Definition quarters (y x : f32) : f32 :=
  match f32_cmp x f32_zero, f32_cmp y f32_zero with
  | None, _ | _, None => S754_nan
  | Some Lt, Some Gt => fz 3 | Some Gt, Some Gt => fz 1
  | Some Lt, _ => fz (-3) | _, _ => fz 0
  end.
Lemma quarters_usual : usual_angle quarters.
Proof.
  split.
  - intros y x. unfold quarters. destruct y as [[]|[]| |[]], x as [[]|[]| |[]]; (split; [vm_compute; intros; (discriminate || auto)|intros [H|H]; try discriminate; reflexivity]).
  - intros y y' x x' Y Y' X X'. unfold quarters. rewrite Y, Y', X, X'. reflexivity.
Qed.

Definition quartered (simd : bool) : platform := {|
  p_simd := simd; p_modern_parse := true; p_neg_zero := true; p_keep_bare_cr := true; p_overflow_checks := true;
  p_cos := p_cos demo; p_atan2 := quarters; p_to_radians := p_to_radians demo; p_quat_rotate := p_quat_rotate demo;
  p_mat2_rotate := p_mat2_rotate demo; p_lower := p_lower demo |}.
Lemma quarters_total : total_angle quarters.
Proof.
  intros y x [_ Y] [_ X] H. apply (proj1 (proj1 quarters_usual y x)) in H. destruct H as [-> | ->]; discriminate.
Qed.

Theorem huge_unsorted : forall p, usual_angle (p_atan2 p) -> exists planes plane tx e f centred x y z, In plane planes
  /\ build_face (f32_num p) tx e planes plane = Ok f /\ gathered p planes plane f centred /\ In x centred /\ In y centred /\ In z centred
  /\ tied (ahead p plane) x y /\ tied (ahead p plane) y z /\ ahead p plane x z.
Proof.
  intros p U. destruct (giant_unsorted p U) as (f & centred & x & y & z & H). exists giant, lid, [], (world []), f, centred, x, y, z. split; [now left|exact H].
Qed.
