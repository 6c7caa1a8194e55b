(** The repository's own unit tests (src/types/color.rs, src/game_data/forge/), replayed on the model. *)
From Coq Require Import SpecFloat.
From Verif Require Import Prelude F32 Text MapModel GameDataModel.

Definition f (s : str) : f32 := match parse_f32 true s with Some x => x | None => S754_nan end.
Definition v (x y z : str) : vec3 f32 := V3 (f x) (f y) (f z).
Definition col (r g b : str) : color f32 := Color (f r) (f g) (f b).

(** src/types/color.rs:39 *)
Example color : forall p : platform, show_color (col (lit "0.2") (lit "0.4") (lit "0.6")) = (lit "51 102 153").
Proof. intros p. vm_compute. reflexivity. Qed.

(** metadata.rs:63 *)
Example base : forall p : platform, show_metadata p (MBase [lit "foo"; lit "bar"; lit "baz"]) = (lit "base(foo, bar, baz)").
Proof. intros p. vm_compute. reflexivity. Qed.

(** metadata.rs:77 *)
Example meta_color : forall p : platform, show_metadata p (MColor (col (lit "0.25") (lit "0.5") (lit "0.75"))) = (lit "color(63 127 191)").
Proof. intros p. vm_compute. reflexivity. Qed.

(** metadata.rs:90 *)
Example size : forall p : platform, show_metadata p (MSize (v (lit "-1") (lit "-2") (lit "-3")) (v (lit "4") (lit "5") (lit "6"))) = (lit "size(-1, -2, -3, 4, 5, 6)").
Proof. intros p. vm_compute. reflexivity. Qed.

(** property.rs:136 *)
Example integer : forall p : platform, show_property p (ForgeProperty (lit "int_property") (lit "Integer") (lit "Integer Property") (FInteger 10)) = Ok (lit "int_property(integer) : ""Integer"" : 10 : ""Integer Property""").
Proof. intros p. vm_compute. reflexivity. Qed.

(** property.rs:155 *)
Example float : forall p : platform, show_property p (ForgeProperty (lit "float_property") (lit "Float") (lit "Float Property") (FFloat (f (lit "6.282")))) = Ok (lit "float_property(float) : ""Float"" : 6.282 : ""Float Property""").
Proof. intros p. vm_compute. reflexivity. Qed.

(** property.rs:174 *)
Example vector3 : forall p : platform, show_property p (ForgeProperty (lit "vector3_property") (lit "Vector3") (lit "Vector3 Property") (FVector3 (v (lit "10.5") (lit "20.3") (lit "30.7")))) = Ok (lit "vector3_property(string) : ""Vector3"" : ""10.5 20.3 30.7"" : ""Vector3 Property""").
Proof. intros p. vm_compute. reflexivity. Qed.

(** property.rs:194 *)
Example string : forall p : platform, show_property p (ForgeProperty (lit "string_property") (lit "String") (lit "String Property") (FString (lit "foo bar baz decafisbad"))) = Ok (lit "string_property(string) : ""String"" : ""foo bar baz decafisbad"" : ""String Property""").
Proof. intros p. vm_compute. reflexivity. Qed.

(** property.rs:214 *)
Example color_property : forall p : platform, show_property p (ForgeProperty (lit "color_property") (lit "Color") (lit "Color Property") (FColor (col (lit "0.2") (lit "0.4") (lit "0.6")))) = Ok (lit "color_property(color255) : ""Color"" : ""51 102 153"" : ""Color Property""").
Proof. intros p. vm_compute. reflexivity. Qed.

(** property.rs:233 *)
Example choices : forall p : platform, show_property p (ForgeProperty (lit "choices_property") (lit "Choices") (lit "Choices Property") (FChoices [Choice (lit "Foo") (ChString (lit "foo")); Choice (lit "Bar") (ChString (lit "bar")); Choice (lit "Baz") (ChString (lit "baz"))] 0)) = Ok (lit "choices_property(choices) : ""Choices"" : ""foo"" =" ++ nl ++ tab ++ lit "[" ++ nl ++ tab ++ tab ++ lit """foo"" : ""Foo""" ++ nl ++ tab ++ tab ++ lit """bar"" : ""Bar""" ++ nl ++ tab ++ tab ++ lit """baz"" : ""Baz""" ++ nl ++ tab ++ lit "]").
Proof. intros p. vm_compute. reflexivity. Qed.

(** property.rs:260 *)
Example flags : forall p : platform, show_property p (ForgeProperty (lit "flags_property") (lit "Flags") (lit "Flags Property") (FFlags [lit "foo"; lit "bar"; lit "baz"] 5)) = Ok (lit "flags_property(flags) =" ++ nl ++ tab ++ lit "[" ++ nl ++ tab ++ tab ++ lit "1 : ""foo"" : 1" ++ nl ++ tab ++ tab ++ lit "2 : ""bar"" : 0" ++ nl ++ tab ++ tab ++ lit "4 : ""baz"" : 1" ++ nl ++ tab ++ lit "]").
Proof. intros p. vm_compute. reflexivity. Qed.

(** property.rs:280 *)
Example target_source : forall p : platform, show_property p (ForgeProperty (lit "target_source_property") (lit "Target Source") (lit "Target Source Property") (FTargetSource)) = Ok (lit "target_source_property(target_source) : ""Target Source"" : : ""Target Source Property""").
Proof. intros p. vm_compute. reflexivity. Qed.

(** property.rs:300 *)
Example target_destination : forall p : platform, show_property p (ForgeProperty (lit "target_destination_property") (lit "Target Destination") (lit "Target Destination Property") (FTargetDestination)) = Ok (lit "target_destination_property(target_destination) : ""Target Destination"" : : ""Target Destination Property""").
Proof. intros p. vm_compute. reflexivity. Qed.

(** choice.rs:71 *)
Example choice_integer : forall p : platform, show_choice p (Choice (lit "foo") (ChInteger 6)) = (lit "6 : ""foo""").
Proof. intros p. vm_compute. reflexivity. Qed.

(** choice.rs:84 *)
Example choice_float : forall p : platform, show_choice p (Choice (lit "foo") (ChFloat (f (lit "12.5")))) = (lit "12.5 : ""foo""").
Proof. intros p. vm_compute. reflexivity. Qed.

(** choice.rs:97 *)
Example choice_string : forall p : platform, show_choice p (Choice (lit "foo") (ChString (lit "bar"))) = (lit """bar"" : ""foo""").
Proof. intros p. vm_compute. reflexivity. Qed.

Definition test_meta : list (metadata f32) :=
  [MBase [lit "Origin"]; MColor (col (lit "0.5") (lit "0.5") (lit "0.5"));
   MSize (v (lit "-4") (lit "-4") (lit "-4")) (v (lit "4") (lit "4") (lit "4"))].
Definition test_properties : list (forge_property f32) :=
  [ForgeProperty (lit "integer_property") (lit "Integer Property") (lit "This is an integer property") (FInteger 1234);
   ForgeProperty (lit "float_property") (lit "Float Property") (lit "This is a float property") (FFloat (f (lit "6.282")))].

(** entity.rs:121, test_data/entity.fgd *)
Example entity : forall p : platform, show_entity p (ForgeEntity SolidClass test_meta (lit "example_class") (lit "Example Class") test_properties) = Ok (lit "@SolidClass base(Origin) color(127 127 127) size(-4, -4, -4, 4, 4, 4) = example_class : ""Example Class""" ++ nl ++ lit "[" ++ nl ++ tab ++ lit "integer_property(integer) : ""Integer Property"" : 1234 : ""This is an integer property""" ++ nl ++ tab ++ lit "float_property(float) : ""Float Property"" : 6.282 : ""This is a float property""" ++ nl ++ lit "]").
Proof. intros p. vm_compute. reflexivity. Qed.

(** game_data.rs:56, test_data/game_data.fgd *)
Example game_data : forall p : platform, show_forge_data p (ForgeData (lit "Test Game Data") [lit "base.fgd"; lit "other.fgd"]
  [ForgeEntity PointClass test_meta (lit "point_class") (lit "Point Class")
  [ForgeProperty (lit "choices_property") (lit "Choices Property") (lit "This is a choices property") (FChoices [Choice (lit "foo") (ChFloat (f (lit "1.234"))); Choice (lit "bar") (ChFloat (f (lit "2.567"))); Choice (lit "baz") (ChFloat (f (lit "3.891")))] 1);
   ForgeProperty (lit "flags_property") (lit "Flags Property") (lit "This is a flags property") (FFlags [lit "foo"; lit "bar"; lit "baz"] 3)];
   ForgeEntity SolidClass test_meta (lit "solid_class") (lit "Solid Class") test_properties]) = Ok (lit "// Test Game Data" ++ nl ++ nl ++ lit "@include ""base.fgd""" ++ nl ++ lit "@include ""other.fgd""" ++ nl ++ nl ++ lit "@PointClass base(Origin) color(127 127 127) size(-4, -4, -4, 4, 4, 4) = point_class : ""Point Class""" ++ nl ++ lit "[" ++ nl ++ tab ++ lit "choices_property(choices) : ""Choices Property"" : ""2.567"" =" ++ nl ++ tab ++ lit "[" ++ nl ++ tab ++ tab ++ lit "1.234 : ""foo""" ++ nl ++ tab ++ tab ++ lit "2.567 : ""bar""" ++ nl ++ tab ++ tab ++ lit "3.891 : ""baz""" ++ nl ++ tab ++ lit "]" ++ nl ++ tab ++ lit "flags_property(flags) =" ++ nl ++ tab ++ lit "[" ++ nl ++ tab ++ tab ++ lit "1 : ""foo"" : 1" ++ nl ++ tab ++ tab ++ lit "2 : ""bar"" : 1" ++ nl ++ tab ++ tab ++ lit "4 : ""baz"" : 0" ++ nl ++ tab ++ lit "]" ++ nl ++ lit "]" ++ nl ++ nl ++ lit "@SolidClass base(Origin) color(127 127 127) size(-4, -4, -4, 4, 4, 4) = solid_class : ""Solid Class""" ++ nl ++ lit "[" ++ nl ++ tab ++ lit "integer_property(integer) : ""Integer Property"" : 1234 : ""This is an integer property""" ++ nl ++ tab ++ lit "float_property(float) : ""Float Property"" : 6.282 : ""This is a float property""" ++ nl ++ lit "]" ++ nl ++ nl).
Proof. intros p. vm_compute. reflexivity. Qed.

