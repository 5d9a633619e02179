(* The JSON text of the probe tool: /repo/iamf/cli/probe_json.cc.

   A C++ string is a list of bytes (Z, 0..255).  absl::StrCat of an integer is
   its decimal text.  The text which absl::StrCat gives for a float is a
   parameter [ftext] (F is the type of the floats): the theorems ask only that
   it is a JSON number, as the six digits of a finite float are.  The branch of
   the Mix Presentations is modelled in full, and the branches of the other
   reports (made of the same parts) are not. *)
From Coq Require Import ZArith List String Ascii Bool.
Import ListNotations.
Open Scope Z_scope.

(* A literal of the C++ source. *)
Definition lit (s : string) : list Z :=
  map (fun c => Z.of_N (N_of_ascii c)) (list_ascii_of_string s).

(* One digit of StrAppendFormat("%04x"), probe_json.cc:59. *)
Definition hex_digit (z : Z) : Z := if z <? 10 then 48 + z else 87 + z.

(* probe_json.cc:34-64: one turn of the loop of EscapeJson. *)
Definition escape_byte (c : Z) : list Z :=
  if c =? 92 then [92; 92]
  else if c =? 34 then [92; 34]
  else if c =? 8 then [92; 98]
  else if c =? 12 then [92; 102]
  else if c =? 10 then [92; 110]
  else if c =? 13 then [92; 114]
  else if c =? 9 then [92; 116]
  else if c <? 32 then
    [92; 117; hex_digit (c / 4096 mod 16); hex_digit (c / 256 mod 16);
     hex_digit (c / 16 mod 16); hex_digit (c mod 16)]
  else [c].

(* probe_json.cc:31-66: EscapeJson. *)
Definition escape (s : list Z) : list Z := flat_map escape_byte s.

(* probe_json.cc:68-70: J. *)
Definition jstr (s : list Z) : list Z := [34] ++ escape s ++ [34].

(* probe_json.cc:72: Bool. *)
Definition jbool (b : bool) : list Z := if b then lit "true" else lit "false".

(* absl::StrJoin. *)
Definition join (sep : list Z) (xs : list (list Z)) : list Z :=
  match xs with
  | [] => []
  | x :: xs => x ++ flat_map (fun y => sep ++ y) xs
  end.

(* absl::StrCat of an integer: its decimal digits. *)
Fixpoint udec (n : nat) (z : Z) : list Z :=
  match n with
  | O => []
  | S n => if z <? 10 then [48 + z] else udec n (z / 10) ++ [48 + z mod 10]
  end.

Definition dec (z : Z) : list Z :=
  if z <? 0 then 45 :: udec (Z.to_nat (Z.log2 (- z)) + 1) (- z)
  else udec (Z.to_nat (Z.log2 z) + 1) z.

Definition comma : list Z := lit ", ".

(* probe_json.cc:82-87: StrVec. *)
Definition strvec (v : list (list Z)) : list Z :=
  lit "[" ++ join comma (map jstr v) ++ lit "]".

(* probe_json.cc:74-80: Vec, of integers. *)
Definition vec (v : list Z) : list Z :=
  lit "[" ++ join comma (map dec v) ++ lit "]".

Section Report.
Variable F : Type.
Variable ftext : F -> list Z.

(* probe.h:242-248: ParamDefinitionReport. *)
Record param_def := { pd_id : Z; pd_rate : Z; pd_mode : Z; pd_duration : Z; pd_csd : Z }.

(* probe.h:255-259: MixGainParamDefinitionReport. *)
Record mix_gain := { mg_def : param_def; mg_q : Z; mg_gain : F }.

(* probe.h:262-277: RenderingConfigReport and SubMixAudioElementReport. *)
Record sub_element := {
  se_id : Z; se_annotations : list (list Z);
  se_mode : list Z; se_mode_raw : Z; se_filter : list Z; se_filter_raw : Z;
  se_gain : mix_gain }.

(* probe.h:283-288: AnchoredLoudnessElementReport. *)
Record anchored := { an_element : list Z; an_raw : Z; an_q : Z; an_loudness : F }.

(* probe.h:308-317: LoudnessInfoReport. *)
Record loudness := {
  lo_type : Z; lo_true_peak_present : bool; lo_anchored_present : bool;
  lo_extension : bool; lo_integrated : F; lo_digital : F;
  lo_true_peak : option F; lo_anchored : list anchored }.

(* probe.h:296-323: LayoutReport and MixPresentationLayoutReport. *)
Record layout := {
  la_type : list Z; la_type_raw : Z; la_system : option (list Z);
  la_system_raw : option Z; la_loudness : loudness }.

(* probe.h:326-330: SubMixReport. *)
Record sub_mix := {
  sm_elements : list sub_element; sm_gain : mix_gain; sm_layouts : list layout }.

(* probe.h:333-360: MixPresentationReport. *)
Record mix_report := {
  mp_id : Z; mp_count_label : Z; mp_annotations : list (list Z * list Z);
  mp_num_sub_mixes : Z; mp_sub_mixes : list sub_mix;
  mp_tags : list (list Z * list Z); mp_layouts : list (list Z);
  mp_integrated : option F; mp_digital : option F; mp_true_peak : option F }.

(* if (o.has_value()) StrAppend(&out, key, *o) *)
Definition append_if {A} (key : string) (f : A -> list Z) (o : option A) : list Z :=
  match o with Some a => lit key ++ f a | None => [] end.

(* probe_json.cc:262-269: JsonParamDef. *)
Definition json_param_def (d : param_def) : list Z :=
  lit "{""parameter_id"": " ++ dec (pd_id d)
  ++ lit ", ""parameter_rate"": " ++ dec (pd_rate d)
  ++ lit ", ""param_definition_mode"": " ++ dec (pd_mode d)
  ++ lit ", ""duration"": " ++ dec (pd_duration d)
  ++ lit ", ""constant_subblock_duration"": " ++ dec (pd_csd d) ++ lit "}".

(* probe_json.cc:271-276: JsonMixGain. *)
Definition json_mix_gain (g : mix_gain) : list Z :=
  lit "{""param_definition"": " ++ json_param_def (mg_def g)
  ++ lit ", ""default_mix_gain"": " ++ ftext (mg_gain g)
  ++ lit ", ""default_mix_gain_q7_8"": " ++ dec (mg_q g) ++ lit "}".

(* probe_json.cc:291-298: one anchored loudness. *)
Definition json_anchored (e : anchored) : list Z :=
  lit "{""anchor_element"": " ++ jstr (an_element e)
  ++ lit ", ""anchor_element_raw"": " ++ dec (an_raw e)
  ++ lit ", ""anchored_loudness"": " ++ ftext (an_loudness e)
  ++ lit ", ""anchored_loudness_q7_8"": " ++ dec (an_q e) ++ lit "}".

(* probe_json.cc:278-304: JsonLoudness. *)
Definition json_loudness (l : loudness) : list Z :=
  lit "{""info_type"": " ++ dec (lo_type l)
  ++ lit ", ""true_peak_present"": " ++ jbool (lo_true_peak_present l)
  ++ lit ", ""anchored_loudness_present"": " ++ jbool (lo_anchored_present l)
  ++ lit ", ""has_layout_extension"": " ++ jbool (lo_extension l)
  ++ lit ", ""integrated_loudness"": " ++ ftext (lo_integrated l)
  ++ lit ", ""digital_peak"": " ++ ftext (lo_digital l)
  ++ append_if ", ""true_peak"": " ftext (lo_true_peak l)
  ++ (match lo_anchored l with
      | [] => []
      | es => lit ", ""anchored_loudness_elements"": ["
              ++ join comma (map json_anchored es) ++ lit "]"
      end)
  ++ lit "}".

(* probe_json.cc:306-321: JsonLayout. *)
Definition json_layout (l : layout) : list Z :=
  lit "{""loudness_layout"": {""layout_type"": " ++ jstr (la_type l)
  ++ lit ", ""layout_type_raw"": " ++ dec (la_type_raw l)
  ++ append_if ", ""sound_system"": " jstr (la_system l)
  ++ append_if ", ""sound_system_raw"": " dec (la_system_raw l)
  ++ lit "}, ""loudness"": " ++ json_loudness (la_loudness l) ++ lit "}".

(* probe_json.cc:326-339: one audio element of JsonSubMix. *)
Definition json_sub_element (a : sub_element) : list Z :=
  lit "{""audio_element_id"": " ++ dec (se_id a)
  ++ lit ", ""localized_element_annotations"": " ++ strvec (se_annotations a)
  ++ lit ", ""rendering_config"": {""headphones_rendering_mode"": " ++ jstr (se_mode a)
  ++ lit ", ""headphones_rendering_mode_raw"": " ++ dec (se_mode_raw a)
  ++ lit ", ""binaural_filter_profile"": " ++ jstr (se_filter a)
  ++ lit ", ""binaural_filter_profile_raw"": " ++ dec (se_filter_raw a) ++ lit "}"
  ++ lit ", ""element_mix_gain"": " ++ json_mix_gain (se_gain a) ++ lit "}".

(* probe_json.cc:323-347: JsonSubMix. *)
Definition json_sub_mix (s : sub_mix) : list Z :=
  lit "{""audio_elements"": [" ++ join comma (map json_sub_element (sm_elements s))
  ++ lit "]" ++ lit ", ""output_mix_gain"": " ++ json_mix_gain (sm_gain s)
  ++ lit ", ""layouts"": [" ++ join comma (map json_layout (sm_layouts s)) ++ lit "]}".

(* probe_json.cc:352-355: one annotation. *)
Definition json_annotation (a : list Z * list Z) : list Z :=
  lit "{""language"": " ++ jstr (fst a) ++ lit ", ""label"": " ++ jstr (snd a) ++ lit "}".

(* probe_json.cc:361-364: one tag. *)
Definition json_tag (t : list Z * list Z) : list Z :=
  lit "{""tag_name"": " ++ jstr (fst t) ++ lit ", ""tag_value"": " ++ jstr (snd t) ++ lit "}".

(* probe_json.cc:349-383: JsonMixPresentation. *)
Definition json_mix (m : mix_report) : list Z :=
  lit "{""id"": " ++ dec (mp_id m) ++ lit ", ""count_label"": " ++ dec (mp_count_label m)
  ++ lit ", ""num_sub_mixes"": " ++ dec (mp_num_sub_mixes m)
  ++ lit ", ""annotations"": [" ++ join comma (map json_annotation (mp_annotations m)) ++ lit "]"
  ++ lit ", ""sub_mixes"": [" ++ join comma (map json_sub_mix (mp_sub_mixes m)) ++ lit "]"
  ++ lit ", ""tags"": [" ++ join comma (map json_tag (mp_tags m)) ++ lit "]"
  ++ lit ", ""layouts"": " ++ strvec (mp_layouts m)
  ++ append_if ", ""integrated_loudness_lkfs"": " ftext (mp_integrated m)
  ++ append_if ", ""digital_peak_dbfs"": " ftext (mp_digital m)
  ++ append_if ", ""true_peak_dbfs"": " ftext (mp_true_peak m)
  ++ lit "}".

End Report.
