(** What run_diff prints (C88). *)
From Verif Require Import Prelude F32 Text MapModel DiffModel RunModel DebugModel DebugSpec DebugProofs Witness PropsRun.
Local Open Scope N_scope.

(** * C88 The printed diff *)
(** The text is the diff line by line, with every string of a token quoted and escaped on one line. *)
Theorem C88_layout : forall st, proper st -> exists w, (forall s, string_text s (w s)) /\
  (forall d, debug_diff st d ++ [10] = unlines (diff_lines w d)) /\ (forall s, ~ In 10 (w s)).
Proof. exact DebugProofs.layout. Qed.
Print Assumptions C88_layout.

(** Different diffs print differently. *)
Theorem C88_unambiguous : forall st d d', debug_diff st d = debug_diff st d' -> d = d'.
Proof. exact DebugProofs.diff_inj. Qed.
Print Assumptions C88_unambiguous.

(** run_diff prints that text for exactly the diff it computes. *)
Theorem C88_output : forall st p a b out, run_diff_output st p a b = Ok out <->
  exists d, run_diff p a b = Ok d /\ out = debug_diff st d ++ [10].
Proof. exact DebugProofs.output_iff. Qed.
Print Assumptions C88_output.

Definition sample_style : debug_style := DebugStyle (fun c => (32 <=? c) && negb (c =? 127)) true false.
Example C88_example : proper sample_style /\
  run_diff_output sample_style demo file_a file_b = Ok (unlines
    [lit "Diff {"; lit "    added: ["; lit "        Comment("; lit "            ""// new"","; lit "        ),"; lit "        CloseBrace,";
     lit "        Comment("; lit "            ""// end"","; lit "        ),"; lit "    ],";
     lit "    removed: ["; lit "        Comment("; lit "            ""// old"","; lit "        ),"; lit "        CloseBrace,"; lit "    ],"; lit "}"]) /\
  debug_diff sample_style (Diff [TProperty (lit "a") [92; 0x1F; 10]] []) = concat (map (fun l => l ++ [10])
    [lit "Diff {"; lit "    added: ["; lit "        Property("; lit "            Property {"; lit "                key: ""a"","; 
     lit "                value: ""\\\u{1f}\n"","; lit "            },"; lit "        ),"; lit "    ],"; lit "    removed: [],"]) ++ lit "}".
Proof.
  split; [|vm_compute; split; reflexivity]. intros c. unfold sample_style, ds_plain. split; intros H.
  - apply andb_true_intro. split; [now apply N.leb_le|]. destruct (c =? 127) eqn:E; [|reflexivity]. apply N.eqb_eq in E. subst. destruct H as [_ H]. discriminate.
  - destruct H as [H| ->]; [|reflexivity]. apply andb_false_intro1. now apply N.leb_gt.
Qed.
