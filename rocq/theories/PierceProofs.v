(** Lines through a brush: proofs of C152. *)
From Coq Require Import Reals Lra Psatz Lia.
From Verif Require Import Prelude F32 Text MapModel GeoModel GeoSpec RealSpec WindSpec SolidSpec EdgeSpec RaySpec PierceSpec
  BaseProofs GeoProofs RealProofs WindProofs SolidProofs TouchProofs EdgeProofs NeighbourProofs EulerProofs RayProofs.
Local Open Scope R_scope.

Lemma shifted : forall o w t u, moved (onwards o w t) w u = onwards o w (t + u).
Proof. intros. unfold moved, onwards. apply v3_ext; cbn [vx vy vz]; ring. Qed.
Lemma turned : forall o w t u, moved (onwards o w t) (scaled (-1) w) u = onwards o w (t - u).
Proof. intros. unfold moved, onwards, scaled. apply v3_ext; cbn [vx vy vz]; ring. Qed.

(** A line through the inside of a solid. *)
Lemma surface_line : forall planes, bounded (solid planes) -> forall o w t, w <> V3 0 0 0 -> deep planes (onwards o w t) ->
  exists a c, a < t < c /\ (forall u, surface_of planes (onwards o w u) <-> u = a \/ u = c) /\ forall u, solid planes (onwards o w u) <-> a <= u <= c.
Proof.
  intros planes Bd o w t N D. assert (N' : scaled (-1) w <> V3 0 0 0).
  { intros Z. apply N. pose proof (f_equal vx Z) as E1. pose proof (f_equal vy Z) as E2. pose proof (f_equal vz Z) as E3. unfold scaled in *. cbn [vx vy vz] in *. apply v3_ext; cbn [vx vy vz]; lra. }
  destruct (leaves planes _ Bd D w N) as (c & C & Sc & Uc & Lc). destruct (leaves planes _ Bd D _ N') as (a & A & Sa & Ua & La).
  exists (t - a), (t + c). split; [lra|]. rewrite shifted in Sc. rewrite turned in Sa.
  assert (B : forall u, u = t + (u - t)) by (intros; ring). assert (B' : forall u, u = t - (t - u)) by (intros; ring).
  assert (S : forall u, solid planes (onwards o w u) <-> t - a <= u <= t + c).
  { intros u. destruct (Rle_lt_dec t u) as [G|G].
    - rewrite (B u) at 1. rewrite <- shifted, Lc by lra. split; intros; lra.
    - rewrite (B' u) at 1. rewrite <- turned, La by lra. split; intros; lra. }
  split; [|exact S]. intros u. split.
  - intros X. destruct (Rtotal_order t u) as [G|[G|G]].
    + right. rewrite (B u) in X. rewrite <- shifted in X. apply Uc in X; lra.
    + exfalso. subst u. destruct X as (_ & q & I & On). apply slack_on in On. pose proof (deep_slack _ _ D q I). lra.
    + left. rewrite (B' u) in X. rewrite <- turned in X. apply Ua in X; lra.
  - intros [->| ->]; assumption.
Qed.
Lemma surface_way : forall planes, bounded (solid planes) -> forall x y, deep planes x -> ~ solid planes y ->
  exists s, 0 < s < 1 /\ forall u, 0 <= u <= 1 -> (surface_of planes (towards x y u) <-> u = s).
Proof.
  intros planes Bd x y D Ny. assert (Nw : minus y x <> V3 0 0 0).
  { intros Z. apply Ny. apply minus_null in Z. subst y. exact (deep_solid _ _ D). }
  assert (E : forall u, towards x y u = onwards x (minus y x) u) by (intros; rewrite towards_moved; reflexivity).
  assert (Z : onwards x (minus y x) 0 = x) by (unfold onwards; apply v3_ext; cbn [vx vy vz]; ring). assert (Y : onwards x (minus y x) 1 = y) by (unfold onwards; vectors; apply v3_ext; cbn [vx vy vz]; ring).
  destruct (surface_line planes Bd x (minus y x) 0 Nw ltac:(rewrite Z; exact D)) as (a & c & L & Me & So). pose proof (So 1) as S1. rewrite Y in S1.
  exists c. assert (c < 1) by (destruct (Rlt_le_dec c 1) as [G|G]; [exact G|exfalso; apply Ny, S1; lra]). split; [lra|]. intros u U. rewrite E, Me. split; [intros [->| ->]; lra|now right].
Qed.

(** Counting where a ray meets a set which a line meets twice. *)
Lemma parity : forall (M S : vec3 R -> Prop) o w a c, a < c -> (forall u, M (onwards o w u) <-> u = a \/ u = c) -> (forall u, S (onwards o w u) <-> a <= u <= c) -> ~ M o ->
  let times n := exists l, NoDup l /\ length l = n /\ forall t, In t l <-> 0 < t /\ M (onwards o w t) in
  (S o <-> times 1%nat) /\ (~ S o <-> times 0%nat \/ times 2%nat).
Proof.
  intros M S o w a c L Me So Mo times.
  assert (Z : onwards o w 0 = o) by (unfold onwards; apply v3_ext; cbn [vx vy vz]; ring).
  assert (M0 : ~ (0 = a \/ 0 = c)) by (intros X; apply Mo; rewrite <- Z; now apply Me). pose proof (So 0) as S0. rewrite Z in S0.
  assert (Un : forall n m, times n -> times m -> n = m).
  { intros n m (l & Nl & <- & Il) (l' & Nl' & <- & Il'). apply PeanoNat.Nat.le_antisymm; apply NoDup_incl_length; try assumption; intros x Ix; [apply Il', Il, Ix|apply Il, Il', Ix]. }
  destruct (Rle_lt_dec a 0) as [A|A]; [destruct (Rle_lt_dec c 0) as [C|C]|].
  - assert (P : times 0%nat) by (exists []; split; [constructor|]; split; [reflexivity|]; intros u; split; [intros []|]; intros (U & X); apply Me in X; destruct X; lra).
    assert (NS : ~ S o) by (intros X; apply S0 in X; apply M0; right; lra).
    split; split; auto; [intros X; contradiction|]. intros X. pose proof (Un _ _ P X). discriminate.
  - assert (P : times 1%nat).
    { exists [c]. split; [repeat constructor; intros []|]. split; [reflexivity|]. intros u. rewrite Me. cbn. split; [intros [<-|[]]; split; [exact C|now right]|].
      intros (U & [->| ->]); [exfalso; lra|now left]. }
    assert (SS : S o) by (apply S0; lra).
    split; split; auto; [intros X; contradiction|]. intros [X|X]; pose proof (Un _ _ P X); discriminate.
  - assert (P : times 2%nat).
    { exists [a; c]. split; [constructor; [intros [X|[]]; lra|repeat constructor; intros []]|]. split; [reflexivity|]. intros u. rewrite Me. cbn.
      split; [intros [<-|[<-|[]]]; split; (lra || auto)|]. intros (U & [->| ->]); auto. }
    assert (NS : ~ S o) by (intros X; apply S0 in X; lra).
    split; split; auto; [intros X; contradiction|]. intros X. pose proof (Un _ _ P X). discriminate.
Qed.

Section Brush.
Context (parse : str -> option R) (cosine radians : R -> R) (atan2 : R -> R -> R)
  (quat : vec3 R -> R -> vec3 R -> vec3 R) (mat2 : R -> vec2 R -> vec2 R).
Local Notation O := (real_num parse cosine radians atan2 quat mat2).
Context (tx : texture_info) (e : entity R) (planes : list (brush_plane R)) (b : brush_geo R).
Context (Eb : build_brush O tx e planes = Ok b) (An : polar_angle atan2)
  (H : forall plane f, In plane planes -> In f (bg_faces b) -> build_face O tx e planes plane = Ok f -> proper plane /\ crisp planes f /\ sharp planes plane)
  (Bd : bounded (solid planes)).

Lemma meshed : forall d, deep planes d -> forall x, on_mesh b x <-> surface_of planes x.
Proof. intros d D. exact (mesh_surface _ _ _ _ _ _ _ _ _ _ d Eb An H Bd D). Qed.

Theorem inside_or_on : forall d, deep planes d -> forall x, (solid planes x <-> deep planes x \/ on_mesh b x) /\ ~ (deep planes x /\ on_mesh b x).
Proof.
  intros d D x. rewrite (meshed d D x). split; [split|].
  - intros S. assert (X : (forall q, In q planes -> 0 < slack q x) \/ exists q, In q planes /\ slack q x = 0).
    { rewrite solid_slack in S. clear - S. induction planes as [|q l IH]; [left; intros q []|].
      destruct (S q (or_introl eq_refl)) as [P|Z]; [|right; exists q; split; [now left|now symmetry]].
      destruct IH as [A|(q' & I & Z)]; [intros q' I; apply S; now right| |right; exists q'; split; [now right|exact Z]].
      left. intros q' [<-|I]; auto. }
    destruct X as [P|(q & I & Z)].
    + left. intros q I. pose proof (P q I) as X. unfold slack in X. lra.
    + right. split; [exact S|]. exists q. split; [exact I|]. now apply slack_on.
  - intros [P|(S & _)]; [|exact S]. apply solid_slack. intros q I. left. exact (deep_slack _ _ P q I).
  - intros (P & _ & q & I & On). apply slack_on in On. pose proof (deep_slack _ _ P q I). lra.
Qed.

Theorem line_through : forall o w t, w <> V3 0 0 0 -> deep planes (onwards o w t) ->
  exists a c, a < t < c /\ (forall u, on_mesh b (onwards o w u) <-> u = a \/ u = c) /\ forall u, solid planes (onwards o w u) <-> a <= u <= c.
Proof.
  intros o w t N D. destruct (surface_line planes Bd o w t N D) as (a & c & L & M & S). exists a, c. split; [exact L|]. split; [|exact S]. intros u. rewrite (meshed _ D). apply M.
Qed.
Theorem even_odd : forall o w t, w <> V3 0 0 0 -> deep planes (onwards o w t) -> ~ on_mesh b o ->
  (solid planes o <-> passes b o w 1) /\ (~ solid planes o <-> passes b o w 0 \/ passes b o w 2).
Proof.
  intros o w t N D M. destruct (line_through o w t N D) as (a & c & L & Me & So). exact (parity (on_mesh b) (solid planes) o w a c ltac:(lra) Me So M).
Qed.
Theorem wall_between : forall x y, deep planes x -> ~ solid planes y -> exists s, 0 < s < 1 /\ forall u, 0 <= u <= 1 -> (on_mesh b (towards x y u) <-> u = s).
Proof.
  intros x y D Ny. destruct (surface_way planes Bd x y D Ny) as (s & Ss & M). exists s. split; [exact Ss|]. intros u U. rewrite (meshed _ D). now apply M.
Qed.
End Brush.
