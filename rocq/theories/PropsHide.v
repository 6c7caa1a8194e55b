(** Wider blacklists (C113). *)
From Verif Require Import Prelude F32 Text MapModel GeoModel LayerModel GameDataModel SceneModel RunModel
  MapSpec Utf8Spec RunSpec SurfaceSpec DiffSpec TreeSpec HideSpec HideProofs Witness SceneWitness GeoWitness RunWitness HideWitness.

(** C113: listing more textures hides surfaces or pieces of them and changes nothing else. *)
Theorem C113_hides : forall p order fuel c c' nodes, same_but_blacklist c c' -> wider (cf_blacklist c) (cf_blacklist c') -> run p order fuel c = Ok nodes ->
  exists world layers rest world' rest', nodes = world :: layers ++ rest /\ run p order fuel c' = Ok (world' :: layers ++ rest')
    /\ redrawn (dimmed (cf_blacklist c) (cf_blacklist c')) world world' /\ Forall2 (redrawn (dimmed (cf_blacklist c) (cf_blacklist c'))) rest rest'.
Proof. exact run_hides. Qed.
Print Assumptions C113_hides.

(** C35 and C113: for any two blacklists both runs succeed or neither does, with the same actors and collision shapes. *)
Theorem C35_blacklists : forall p order fuel c c' nodes, same_but_blacklist c c' -> run p order fuel c = Ok nodes ->
  exists world layers rest world' rest', nodes = world :: layers ++ rest /\ run p order fuel c' = Ok (world' :: layers ++ rest')
    /\ redrawn (fun _ _ => True) world world' /\ Forall2 (redrawn (fun _ _ => True)) rest rest'.
Proof. exact run_blacklists. Qed.
Print Assumptions C35_blacklists.

Example C113_example : let b0 := Blacklist [] [] in let b1 := Blacklist [lit "brick"] [] in let b2 := Blacklist [lit "brick"] [lit "wood"] in
  wider b0 b1 /\ wider b1 b2 /\ (exists nodes, run (polar true) given 4 (crates_config b0) = Ok nodes)
  /\ counts b0 = [(Some (lit "brick"), 42); (Some (lit "wood"), 30)]
  /\ counts b1 = [(Some (lit "brick"), 6); (Some (lit "wood"), 30)] /\ counts b2 = [(Some (lit "brick"), 6)].
Proof. exact crates_hidden. Qed.
