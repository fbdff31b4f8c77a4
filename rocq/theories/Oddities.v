(** Small trees that the library compiles, for the refuted parts of properties. *)
From Verif Require Import Bytes Token Result CodePoint Utf8 Tree PreParse Parse Root Build Validator.
From Verif Require Import SpecTake SpecMode SpecDeliver SpecRoot SpecReading SpecClaims Demo.

(** The calls and the outcome of a parse of strings by tree [r], with the nodes by their type. *)
Definition calls_of (r : node) (mem : memory) (args : list bytes) : list (N * list value) :=
  flat_map (fun e => match e with EvRoute n vs => [(n_id n, vs)] | EvHelp _ _ _ => [] end)
           (o_events (root_parse_strings r mem args)).
Definition ends_in (r : node) (mem : memory) (args : list bytes) : res unit := o_res (root_parse_strings r mem args).

(** The memory of the one_of objects after a parse. *)
Definition after (r : node) (mem : memory) (args : list bytes) : memory := o_mem (root_parse_strings r mem args).

Definition byte_str (ns : list N) : bytes := map ascii_of_N ns.

(** "tool run" with one mode and the given arguments. *)
Definition tool (cs : list node) : node :=
  root [] [mode 100 [PNoneName (b "run"); PRouter] cs].

(** A one_of of two numbers. *)
Definition q_x := arg num 1 [PLongName (b "xx")].
Definition q_y := arg num 2 [PLongName (b "yy")].
Definition q_pick := one_of 1 num 3 [PDefaultValue (VInt 0)] [q_x; q_y].
Definition pick_tool := tool [q_pick].

(** Two flags with short names. *)
Definition q_a := flag 4 [PLongName (b "all"); PShortName (b "a")].
Definition q_b := flag 5 [PLongName (b "brief"); PShortName (b "b")].
Definition flag_tool := tool [q_a; q_b].

(** A value separator of two bytes, the character U+00E9 (0xC3 0xA9). *)
Definition q_acute : bytes := byte_str [195; 169]%N.
Definition q_sep := arg str 6 [PLongName (b "name"); PValueSeparator q_acute].
Definition sep_tool := tool [q_sep].

(** An end marker with a bounded maximum count. *)
Definition q_some := positional_arg strs 7 [PDisplayName (b "SOME"); PMinMaxCount 0 2; PTokenEndMarker (b "--")].
Definition q_rest := positional_arg strs 8 [PDisplayName (b "REST")].
Definition marker_tool := tool [q_some; q_rest].

(** A disabled argument with a value separator, and one that an alias refers to. *)
Definition q_off := arg str 9 [PLongName (b "off"); PValueSeparator (b "="); PRuntimeEnable false].
Definition q_names := positional_arg strs 10 [PDisplayName (b "NAMES")].
Definition off_tool := tool [q_off; q_names].
Definition q_dead := arg num 11 [PLongName (b "dead"); PRuntimeEnable false].
Definition q_alias := arg num 12 [PLongName (b "also"); PAlias [NLong (b "dead")]].
Definition dead_tool := tool [q_dead; q_alias].

(** A disabled argument and help. *)
Definition help_tool := root [] [help 20 [PLongName (b "help")];
                                 mode 100 [PNoneName (b "run"); PRouter] [q_dead]].

(** A bounded alias group. *)
Definition q_grp := alias_group num 13 [PDefaultValue (VInt 1); PMinMaxValue (Some (VInt 0)) (Some (VInt 9)) int_lt] [q_x; q_y].
Definition group_tool := tool [q_grp].

(** A member of a one_of that is required. *)
Definition q_xr := arg num 14 [PLongName (b "xx"); PRequired].
Definition q_pick_r := one_of 1 num 15 [PDefaultValue (VInt 0)] [q_xr; q_y].
Definition required_tool := tool [q_pick_r].

(** An argument that depends on an alias. *)
Definition q_both := arg num 16 [PLongName (b "both"); PAlias [NLong (b "xx")]].
Definition q_dep := flag 17 [PLongName (b "dep"); PDependent [NLong (b "both")]].
Definition dep_tool := tool [q_x; q_both; q_dep].

(** The same argument twice. *)
Definition twice_tool := tool [q_x; q_x].
(** Two modes with the same name. *)
Definition modes_tool :=
  root [] [mode 100 [PNoneName (b "run"); PRouter] [q_a]; mode 101 [PNoneName (b "run"); PRouter] [q_b]].

(** An argument with both the short-form expander and a value separator. *)
Definition q_vals := arg num 18 [PShortName (b "a"); PValueSeparator (b "="); PShortFormExpander].
Definition mixed_tool := tool [q_vals; q_b].

(** A positional argument with a value separator. *)
Definition q_pos := positional_arg str 19 [PDisplayName (b "POS"); PMinMaxCount 1 1; PValueSeparator (b "=")].
Definition pos_tool := tool [q_pos].

(** Sub-modes: an argument of a sub-mode of the same type as one of the mode itself, and an alias to an
    argument of a sub-mode. *)
Definition sub_tool := tool [mode 101 [PNoneName (b "sub"); PRouter] [q_x]; q_x].
Definition q_far := arg num 21 [PLongName (b "far"); PAlias [NLong (b "yy")]].
Definition far_tool := tool [mode 101 [PNoneName (b "sub"); PRouter] [q_y]; q_far].

(** A forwarding argument whose name is that of another argument. *)
Definition q_forward := forwarding_arg 22 [PNoneName (b "--xx")].
Definition forward_tool := tool [q_x; q_forward].

Lemma oddities_accepted : forallb accepted
  [pick_tool; flag_tool; sep_tool; marker_tool; off_tool; dead_tool; help_tool; group_tool; required_tool; dep_tool;
   twice_tool; modes_tool; mixed_tool; pos_tool; sub_tool; far_tool; forward_tool] = true.
Proof. vm_compute. reflexivity. Qed.
