(** C75: the token paths returned by the parser. *)
From Verif Require Import Prelude F32 Text MapModel MapSpec PathSpec BaseProofs PathProofs Witness.

(** Each kind of opening brace, property and plane has one entry, the address of its last occurrence; there are no others. *)
Theorem C75_paths : forall T (O : num T) lower ts paths es, parse_tokens O lower ts = Ok (paths, es) ->
  NoDup (map fst paths) /\
  forall t q, In (t, q) paths <-> exists pre post, ts = pre ++ t :: post /\ ~ In t post /\ address pre t = Some q.
Proof. exact (fun T O lower => paths_iff O lower). Qed.
Print Assumptions C75_paths.

(** The address of every token (not only the last of its kind) leads to what the token stands for. *)
Theorem C75_found : forall T (O : num T) lower ts paths es pre t post q, parse_tokens O lower ts = Ok (paths, es) ->
  ts = pre ++ t :: post -> address pre t = Some q -> found (parse_plane O lower) es t q.
Proof. exact (fun T O lower => paths_found O lower). Qed.
Print Assumptions C75_found.

(** A property has the value of the last line with its key in its entity. *)
Theorem C75_value : forall T (O : num T) lower ts paths es pre k v post, parse_tokens O lower ts = Ok (paths, es) ->
  ts = pre ++ TProperty k v :: post ->
  (forall a v' b, post = a ++ TProperty k v' :: b -> n_entities (counts_after (pre ++ TProperty k v :: a)) <> n_entities (counts_after pre)) ->
  exists e, nth_error es (n_entities (counts_after pre) - 1) = Some e /\ get_property e k = Some v.
Proof. exact (fun T O lower => last_value O lower). Qed.
Print Assumptions C75_value.

(** The demo map: the brace entry is that of the second entity, planes 0 and 1 of brush 0 of entity 0. *)
Example C75_example :
  match load demo demo_text with
  | Ok (paths, _) => map snd paths =
      [PEntity 1; PProperty 0 (lit "classname"); PProperty 0 (lit "message"); PPlane 0 0 0; PPlane 0 0 1;
       PProperty 0 (lit "message"); PProperty 1 (lit "classname")]
  | _ => False
  end.
Proof. vm_compute. reflexivity. Qed.
