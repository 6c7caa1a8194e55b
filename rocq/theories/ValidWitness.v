(** Maps to try C118 on. *)
From Coq Require Import Permutation Lia.
From Verif Require Import Prelude F32 Text MapModel GeoModel LayerModel GameDataModel SceneModel RunModel Witness SceneWitness
  GatherSpec SurfaceSpec MapSpec Utf8Spec RunSpec TreeSpec PropertySpec PointsSpec ActorSpec ValidSpec
  BaseProofs Utf8Proofs TokenProofs PlaneProofs ParserProofs MapProofs RunProofs PrintProofs GeoWitness RunWitness ErrorWitness IdleWitness ValidProofs.

Lemma open_computed : forall p text ts n d, tokenize p text = Ok ts -> significant ts ++ repeat TClose n = doc_tokens d -> open_document p text d.
Proof.
  intros p text ts n d E S. exists (str_lines (p_keep_bare_cr p) text), ts, n. pose proof (proj2 (lines_spec_iff (p_keep_bare_cr p) text _) eq_refl) as L.
  split; [exact L|]. split; [apply (tokenize_lines_ok p text _ ts L); exact E|exact S].
Qed.

Definition plain_config (m : str) : config := Config (Contents m) textures (Blacklist [] []) no_fd yard_gd.

(** An entity in its own group, below one with the same id. *)
Definition loop_text : str := flat_map (fun l => l ++ [10%N])
  [lit "{"; [34%N] ++ lit "classname" ++ [34%N; 32%N; 34%N] ++ lit "worldspawn" ++ [34%N]; lit "}";
   lit "{"; [34%N] ++ lit "classname" ++ [34%N; 32%N; 34%N] ++ lit "a" ++ [34%N]; [34%N] ++ lit "_tb_id" ++ [34%N; 32%N; 34%N] ++ lit "1" ++ [34%N]; lit "}";
   lit "{"; [34%N] ++ lit "classname" ++ [34%N; 32%N; 34%N] ++ lit "b" ++ [34%N]; [34%N] ++ lit "_tb_id" ++ [34%N; 32%N; 34%N] ++ lit "1" ++ [34%N];
   [34%N] ++ lit "_tb_group" ++ [34%N; 32%N; 34%N] ++ lit "1" ++ [34%N]; lit "}"].
Definition world_entity : doc_entity := [DProp (lit "classname") (lit "worldspawn")].
Definition upper_entity : doc_entity := [DProp (lit "classname") (lit "a"); DProp (lit "_tb_id") (lit "1")].
Definition loop_entity : doc_entity := [DProp (lit "classname") (lit "b"); DProp (lit "_tb_id") (lit "1"); DProp (lit "_tb_group") (lit "1")].
Definition loop_doc : doc := [world_entity; upper_entity; loop_entity].

Lemma loop_world : doc_world loop_doc [upper_entity; loop_entity] world_entity.
Proof. exists [], [upper_entity; loop_entity]. repeat split. intros e [<-|[<-|[]]]; discriminate. Qed.
Theorem loops : file_text (cf_map (plain_config loop_text)) loop_text /\ open_document (polar true) loop_text loop_doc /\ sound_planes (polar true) loop_doc
  /\ usable_document no_fd loop_doc /\ circular loop_doc.
Proof.
  split; [exists loop_text; split; [reflexivity|apply decode_iff; vm_compute; reflexivity]|].
  split; [eapply (open_computed _ _ _ 0); [vm_compute; reflexivity|reflexivity]|].
  split; [intros e l [<-|[<-|[<-|[]]]] []|]. split.
  - intros w others e W P. destruct (world_unique _ _ _ _ _ W loop_world) as (-> & ->).
    assert (I : In e loop_doc) by (destruct P as [|e I U|e e' P I M]; [now left|now right..]).
    split; [destruct I as [<-|[<-|[<-|[]]]]; discriminate|]. intros fe k s (c & _ & (pre & post & F & _)). destruct pre; discriminate F.
  - exists world_entity, [upper_entity; loop_entity], loop_entity. split; [exact loop_world|].
    assert (M : forall e, e = upper_entity \/ e = loop_entity -> member e loop_entity) by (intros e [-> | ->]; exists (lit "1"); split; reflexivity).
    split; [|apply BelowHere; [right; left; reflexivity|apply M; now right]].
    apply PlacedMember with (e := upper_entity); [apply PlacedTop; [now left|reflexivity]|right; left; reflexivity|apply M; now left].
Qed.

(** Open braces less closing ones. *)
Fixpoint depth (ts : list token) : Z := match ts with [] => 0 | TOpen :: ts => 1 + depth ts | TClose :: ts => depth ts - 1 | _ :: ts => depth ts end%Z.
Lemma depth_app : forall a b, depth (a ++ b) = (depth a + depth b)%Z.
Proof. induction a as [|t a IH]; intros b; [reflexivity|]. destruct t; cbn [app depth]; rewrite IH; lia. Qed.
Lemma doc_depth : forall d, depth (doc_tokens d) = 0%Z.
Proof.
  induction d as [|e d IH]; [reflexivity|]. unfold doc_tokens in *. cbn [flat_map]. rewrite depth_app, IH. unfold entity_tokens. cbn [depth]. rewrite depth_app.
  assert (depth (flat_map item_tokens e) = 0%Z) as ->; [|reflexivity].
  induction e as [|[k v|b] e IHe]; [reflexivity|exact IHe|]. cbn [flat_map item_tokens]. rewrite depth_app, IHe. cbn [depth]. rewrite depth_app.
  assert (depth (map TPlane b) = 0%Z) as ->; [|reflexivity]. induction b; [reflexivity|assumption].
Qed.

(** A file that ends too early is built all the same. *)
Definition short_text : str := flat_map (fun l => l ++ [10%N]) [lit "{"; [34%N] ++ lit "classname" ++ [34%N; 32%N; 34%N] ++ lit "worldspawn" ++ [34%N]; lit "{"].
Definition short_doc : doc := [[DProp (lit "classname") (lit "worldspawn"); DBrush []]].
Theorem short : file_text (cf_map (plain_config short_text)) short_text /\ open_document (polar true) short_text short_doc /\ buildable (polar true) no_fd short_doc
  /\ ~ (exists d, text_document (polar true) short_text d).
Proof.
  split; [exists short_text; split; [reflexivity|apply decode_iff; vm_compute; reflexivity]|].
  split; [eapply (open_computed _ _ _ 2); [vm_compute; reflexivity|reflexivity]|].
  split.
  - split; [intros e l [<-|[]] []|]. eexists _, []. split; [exists [], []; repeat split; intros e []|]. split.
    + intros e P. assert (e = [DProp (lit "classname") (lit "worldspawn"); DBrush []]) as -> by (destruct P as [|e []|e e' P []]; reflexivity).
      split; [discriminate|]. intros fe k s (c & _ & (pre & post & F & _)). destruct pre; discriminate F.
    + intros e P B. destruct B as [e e' []|e e' e'' []].
  - intros (d & ls & ts & L & T & S). pose proof (token_tokenized (polar true) short_text ls ts L T) as E. vm_compute in E. injection E as <-. cbn in S.
    pose proof (f_equal depth S) as X. rewrite doc_depth in X. discriminate X.
Qed.

(** An empty file has no world. *)
Theorem void : file_text (cf_map (plain_config [])) [] /\ ~ map_rejected (polar true) [] /\ forall d, open_document (polar true) [] d -> ~ buildable (polar true) no_fd d /\ ~ circular d.
Proof.
  split; [exists []; split; [reflexivity|apply decode_iff; reflexivity]|]. split.
  - intros R. apply load_err in R. destruct R as (e & R). discriminate R.
  - intros d (ls & ts & n & L & T & S). apply lines_spec_iff in L. cbn in L. subst ls. inversion T; subst. cbn in S.
    assert (d = []) as ->. { destruct d as [|e d]; [reflexivity|]. destruct n; discriminate S. }
    split; [intros (_ & w & others & ((pre & post & E & _) & _))|intros (w & others & e & ((pre & post & E & _) & _))]; destruct pre; discriminate E.
Qed.
