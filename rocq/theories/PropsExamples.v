(** C87-C89: the programs in examples/. *)
From Verif Require Import Bytes Token Result CodePoint Utf8 Tree PreParse Root Build StringPolicy.
From Verif Require Import RunProofs TokenProofs SpecTokens SpecTake SpecMode SpecDeliver SpecRoot SpecReading SpecClaims.
From Verif Require Import Examples SpecExamples ExampleProofs CatProofs AdvancedProofs RuntimeProofs SpecUtf8.

(** ** C87 *)

(** The trees are among those that the theorems on command lines are about. *)
Theorem c87_compile : well_formed simple /\ well_formed launcher /\ well_formed just_cats
  /\ (forall int_t advanced, well_formed (runtime_node_enable int_t advanced))
  /\ (forall int_t length_t no_length, well_formed (basic_cat int_t length_t no_length)).
Proof.
  exact (conj simple_well_formed (conj launcher_well_formed (conj cats_well_formed (conj rne_well_formed cat_well_formed)))).
Qed.
Print Assumptions c87_compile.

(** The bare strings of the programs stand for the policies in the model. *)
Example c87_strings :
  convert_labelled [Bare (b "force"); Bare (b "f"); Bare (b "Force overwrite existing files")]
  = Some [PLongName (b "force"); PDescription (b "Force overwrite existing files"); PShortName (b "f")]
  /\ convert_positional [Pol PRequired; Bare (b "DST"); Bare (b "Destination directory"); Pol (PMinMaxCount 1 1)]
     = Some [PDisplayName (b "DST"); PDescription (b "Destination directory"); PRequired; PMinMaxCount 1 1]
  /\ convert_mode [Bare (b "copy"); Bare (b "Copy source files to destination"); Pol PRouter]
     = Some [PNoneName (b "copy"); PDescription (b "Copy source files to destination"); PRouter]
  /\ convert_labelled [Bare cat_zh; Pol PRouter] = Some [PShortName cat_zh; PRouter]
  /\ convert_labelled [Bare cat_uk; Pol PRouter] = Some [PLongName cat_uk; PRouter].
Proof. vm_compute. repeat split. Qed.

(** simple: a router is called exactly for the following command lines, and with these values. *)
Theorem c87_simple : forall words n vs, in_memory words ->
  calls_router simple [] (map (Tok PNone) words) n vs <->
  (exists rest force dst srcs, words = b "copy" :: rest /\ srcs <> []
     /\ files_of (b "force") true 0 (map (Tok PNone) rest) force (dst :: srcs)
     /\ n = sim_copy /\ vs = [VBool force; VStr dst; VList (map VStr srcs)])
  \/ (exists rest force dst src, words = b "move" :: rest
     /\ files_of (b "force") false 0 (map (Tok PNone) rest) force [dst; src]
     /\ n = sim_move /\ vs = [VBool force; VStr dst; VStr src]).
Proof. exact simple_calls. Qed.
Print Assumptions c87_simple.

(** File names that do not begin with a hyphen are taken as they are, with the flag in front or without it. *)
Theorem c87_simple_names : forall dst src srcs, starts_with (b "-") dst = false -> starts_with (b "-") src = false ->
  (in_memory (b "move" :: b "--force" :: dst :: [src]) ->
     calls_router simple [] (map (Tok PNone) [b "move"; dst; src]) sim_move [VBool false; VStr dst; VStr src]
     /\ calls_router simple [] (map (Tok PNone) [b "move"; b "-f"; dst; src]) sim_move [VBool true; VStr dst; VStr src]
     /\ calls_router simple [] (map (Tok PNone) [b "move"; b "--force"; dst; src]) sim_move [VBool true; VStr dst; VStr src])
  /\ (in_memory (b "copy" :: b "--force" :: dst :: src :: srcs) ->
     calls_router simple [] (map (Tok PNone) (b "copy" :: dst :: src :: srcs)) sim_copy
       [VBool false; VStr dst; VList (map VStr (src :: srcs))]
     /\ calls_router simple [] (map (Tok PNone) (b "copy" :: b "-f" :: dst :: src :: srcs)) sim_copy
       [VBool true; VStr dst; VList (map VStr (src :: srcs))]
     /\ calls_router simple [] (map (Tok PNone) (b "copy" :: b "--force" :: dst :: src :: srcs)) sim_copy
       [VBool true; VStr dst; VList (map VStr (src :: srcs))]).
Proof. exact simple_names. Qed.
Print Assumptions c87_simple_names.

(** The flag in a group with letters that are no flags: the letters become file names (see DESIGN.md). *)
Example c87_simple_example :
  in_memory [b "copy"; b "-fab"; b "src"]
  /\ calls_router simple [] (map (Tok PNone) [b "copy"; b "-fab"; b "src"]) sim_copy
       [VBool true; VStr (b "a"); VList [VStr (b "b"); VStr (b "src")]]
  /\ (forall n vs, ~ calls_router simple [] (map (Tok PNone) [b "move"; b "a"; b "c"; b "d"]) n vs).
Proof. exact simple_example. Qed.

(** launcher: the same. *)
Theorem c87_launcher : forall words n vs, in_memory words ->
  calls_router launcher [] (map (Tok PNone) words) n vs <->
  (words = [b "--version"] /\ n = lau_version /\ vs = [VBool true])
  \/ (forall w, nth_error words 0 = Some w -> ~ In w [b "--help"; b "-h"; b "--version"])
     /\ exists dry progs args, launch (map (Tok PNone) words) dry progs args
          /\ n = lau_mode /\ vs = [VBool dry; VList (map VStr progs); VList (map VStr args)].
Proof. exact launcher_calls. Qed.
Print Assumptions c87_launcher.

(** README.md, "Token End Marker Policy": the programs before "--" and their arguments behind it; provided that neither
    the first program nor the first argument begins with a hyphen. *)
Theorem c87_readme_partial : forall p progs args,
  starts_with (b "-") p = false -> ~ In (b "--") progs -> (forall a, nth_error args 0 = Some a -> starts_with (b "-") a = false) ->
  in_memory (b "-d" :: (p :: progs) ++ b "--" :: args) ->
  calls_router launcher [] (map (Tok PNone) ((p :: progs) ++ b "--" :: args)) lau_mode
    [VBool false; VList (map VStr (p :: progs)); VList (map VStr args)]
  /\ calls_router launcher [] (map (Tok PNone) (b "-d" :: (p :: progs) ++ b "--" :: args)) lau_mode
    [VBool true; VList (map VStr (p :: progs)); VList (map VStr args)].
Proof. exact launcher_readme. Qed.
Print Assumptions c87_readme_partial.

(** What is behind "--" is not safe from the launcher: an argument "-d" for the program is taken as its own flag. *)
Theorem c87_arguments_refuted : exists progs args, ~ In (b "--") progs
  /\ calls_router launcher [] (map (Tok PNone) (progs ++ b "--" :: args)) lau_mode
       [VBool true; VList (map VStr progs); VList []]
  /\ ~ calls_router launcher [] (map (Tok PNone) (progs ++ b "--" :: args)) lau_mode
       [VBool false; VList (map VStr progs); VList (map VStr args)].
Proof. exact launcher_arguments. Qed.
Print Assumptions c87_arguments_refuted.

(** just_cats: the five flags, each alone. *)
Theorem c87_cats : forall words n vs, in_memory words ->
  calls_router just_cats [] (map (Tok PNone) words) n vs <->
  vs = [VBool true] /\ exists w, words = [w] /\ In (w, n)
    [(b "--cat", cats_cat); (b "-" ++ encode_all [0x732B%N], cats_zh); (b "-" ++ encode_all [0x1F431%N], cats_emoji);
     (b "--" ++ encode_all [0xE41; 0xE21; 0xE27]%N, cats_th); (b "--" ++ encode_all [0x43A; 0x456; 0x442]%N, cats_uk)].
Proof. exact cats_calls. Qed.
Print Assumptions c87_cats.

(** runtime_node_enable: without the licence the advanced mode is not called and the licensed argument is empty; with it
    the argument has been typed and has one value, which the router receives. *)
Theorem c87_runtime : forall int_t advanced words n vs, in_memory words ->
  calls_router (runtime_node_enable int_t advanced) [] (map (Tok PNone) words) n vs ->
  n = rne_version /\ words = [b "--version"] /\ vs = [VBool true]
  \/ n = rne_advanced int_t advanced /\ advanced = true /\ nth_error words 0 = Some (b "advanced")
  \/ n = rne_mode advanced /\ exists items foo bar s, reading n [] (map (Tok PNone) words) items
       /\ vs = [VBool foo; VBool bar; VStr s] /\ (advanced = false -> s = [])
       /\ (advanced = true -> exists it t, In it items /\ i_node it = rne_licensed advanced /\ i_values it = [t] /\ t_name t = s).
Proof. exact rne_calls. Qed.
Print Assumptions c87_runtime.

(** The mode "advanced" of runtime_node_enable, if it is licensed: its router is called exactly if the other words are its
    two options, each at most once, and the number is readable; it receives whether the first was typed, and the number or 42. *)
Theorem c87_advanced : forall int_t words n vs, vt_container int_t = false -> in_memory (b "advanced" :: words) ->
  calls_router (runtime_node_enable int_t true) [] (map (Tok PNone) (b "advanced" :: words)) n vs <->
  n = rne_advanced int_t true /\ exists opts x y, words = flat_map adv_words opts /\ NoDup (map adv_slot opts)
    /\ vs = [VBool x; y] /\ (x = true <-> In Feature1 opts)
    /\ ((exists s, In (Feature2 s) opts /\ vt_parse int_t s = Ok y) \/ (forall s, ~ In (Feature2 s) opts) /\ y = VInt 42).
Proof. exact adv_calls. Qed.
Print Assumptions c87_advanced.

Example c87_advanced_example :
  let digit_t := VT false (fun s => match s with [c] => Ok (VInt (Z.of_N (N_of_ascii c) - 48)) | _ => Throw (EML failed_to_parse [Tok PNone s]) end) (VInt 0) in
  in_memory [b "advanced"; b "--feature2"; b "7"; b "--feature1"]
  /\ calls_router (runtime_node_enable digit_t true) [] (map (Tok PNone) [b "advanced"; b "--feature2"; b "7"; b "--feature1"])
       (rne_advanced digit_t true) [VBool true; VInt 7]
  /\ ~ exists n vs, calls_router (runtime_node_enable digit_t true) [] (map (Tok PNone) [b "advanced"; b "x"]) n vs.
Proof.
  intros digit_t.
  assert (Hm : in_memory [b "advanced"; b "--feature2"; b "7"; b "--feature1"]) by (vm_compute; discriminate).
  split; [exact Hm|]. split.
  - refine (proj2 (c87_advanced digit_t [b "--feature2"; b "7"; b "--feature1"] _ _ eq_refl Hm) _). split; [reflexivity|].
    exists [Feature2 (b "7"); Feature1], true, (VInt 7). split; [reflexivity|]. split; [|split; [reflexivity|split; [split; [intros _; right; now left|reflexivity]|]]].
    + constructor; [intros [X|[]]; discriminate X|]. constructor; [intros []|constructor].
    + left. exists (b "7"). split; [now left|reflexivity].
  - intros (n & vs & H). assert (Hm' : in_memory [b "advanced"; b "x"]) by (vm_compute; discriminate).
    destruct (proj1 (c87_advanced digit_t [b "x"] n vs eq_refl Hm') H) as (_ & opts & x & y & E & _).
    destruct opts as [|[|s] opts]; discriminate E.
Qed.

(** Its other mode, for its options in any order, each at most once and in the long or short form; the licensed one is
    typed only if there is a licence.  The router is called with whether each flag was typed and the licensed text.  With
    a licence that text has to be typed; without, it is empty. *)
Theorem c87_unlicensed_partial : forall int_t advanced opts n vs,
  NoDup (map rne_slot opts) -> (advanced = false -> forall s, ~ In (Licensed s) opts) -> in_memory (flat_map rne_words opts) ->
  calls_router (runtime_node_enable int_t advanced) [] (map (Tok PNone) (flat_map rne_words opts)) n vs <->
  n = rne_mode advanced /\ exists foo bar s, vs = [VBool foo; VBool bar; VStr s]
    /\ (foo = true <-> exists short, In (Foo short) opts) /\ (bar = true <-> exists short, In (Bar short) opts)
    /\ (In (Licensed s) opts \/ advanced = false /\ s = []).
Proof. exact rne_option_calls. Qed.
Print Assumptions c87_unlicensed_partial.

Example c87_unlicensed_example :
  calls_router (runtime_node_enable text_type true) [] (map (Tok PNone) [b "-b"; b "--advance-foo"; b "-f"]) (rne_mode true) [VBool false; VBool true; VStr (b "-f")]
  /\ calls_router (runtime_node_enable text_type false) [] (map (Tok PNone) [b "--foo"]) (rne_mode false) [VBool true; VBool false; VStr []]
  /\ ~ exists n vs, calls_router (runtime_node_enable text_type true) [] (map (Tok PNone) [b "--foo"]) n vs.
Proof.
  split; [|split].
  - refine (proj2 (c87_unlicensed_partial text_type true [Bar true; Licensed (b "-f")] _ _ _ _ _) _).
    + constructor; [intros [X|[]]; discriminate X|]. constructor; [intros []|constructor].
    + discriminate.
    + vm_compute. discriminate.
    + split; [reflexivity|]. exists false, true, (b "-f"). split; [reflexivity|]. split; [|split; [|left; right; now left]].
      * split; [discriminate|]. intros [sh [X|[X|[]]]]; discriminate X.
      * split; [intros _; exists true; now left|reflexivity].
  - refine (proj2 (c87_unlicensed_partial text_type false [Foo false] _ _ _ _ _) _).
    + constructor; [intros []|constructor].
    + intros _ s [X|[]]. discriminate X.
    + vm_compute. discriminate.
    + split; [reflexivity|]. exists true, false, []. split; [reflexivity|]. split; [|split; [|right; now split]].
      * split; [intros _; exists false; now left|reflexivity].
      * split; [discriminate|]. intros [sh [X|[]]]. discriminate X.
  - intros (n & vs & H). apply (c87_unlicensed_partial text_type true [Foo false]) in H.
    + destruct H as (_ & foo & bar & s & _ & _ & _ & [[X|[]]|[X _]]); discriminate X.
    + constructor; [intros []|constructor].
    + discriminate.
    + vm_compute. discriminate.
Qed.

(** Every option of basic_cat, in any order, followed by the files: the router of the mode is called exactly if the values
    are readable, and with those values and the defaults of the options that are not typed.  Missing: several letters in
    one word, as in "-En", and options that exclude each other. *)
Theorem c87_cat_partial : forall int_t length_t no_length opts file files router vs,
  vt_container int_t = false -> vt_container length_t = false ->
  proper opts -> starts_with (b "-") file = false -> in_memory (map cat_word opts ++ file :: files) ->
  calls_router (basic_cat int_t length_t no_length) [] (map (Tok PNone) (map cat_word opts ++ file :: files)) router vs <->
  router = bc_mode int_t length_t no_length
  /\ exists e n l len h th vb, said opts says_ends (VBool false) e /\ said opts says_nonprinting (VBool false) n
     /\ said opts (says_lines int_t) (VInt (-1)) l /\ said opts (says_length length_t) no_length len
     /\ said opts says_handling (VStr (b "...")) h /\ said opts says_theme (VInt 0) th /\ said opts says_level (VInt 2) vb
     /\ vs = [e; n; l; len; h; th; vb; VList (map VStr (file :: files))].
Proof. exact cat_options_calls. Qed.
Print Assumptions c87_cat_partial.

Example c87_cat_example :
  let digit_t := VT false (fun s => match s with [c] => Ok (VInt (Z.of_N (N_of_ascii c) - 48)) | _ => Throw (EML failed_to_parse [Tok PNone s]) end) (VInt 0) in
  let opts := [Show_all true; Max_line_length (b "8"); Vs 2; Line_suffix (b ">"); Theme (b "classic")] in
  proper opts /\ in_memory (map cat_word opts ++ [b "a.txt"; b "-E"])
  /\ calls_router (basic_cat digit_t digit_t (VInt 0)) [] (map (Tok PNone) [b "-A"; b "--max-line-length=8"; b "-vvv"; b "--line-suffix=>"; b "--theme=classic"; b "a.txt"; b "-E"])
       (bc_mode digit_t digit_t (VInt 0))
       [VBool true; VBool true; VInt (-1); VInt 8; VStr (b ">"); VInt 1; VInt 3; VList [VStr (b "a.txt"); VStr (b "-E")]].
Proof.
  intros digit_t opts.
  assert (Hp : proper opts).
  { split; [|split].
    - cbn. repeat (constructor; [intros H; cbn in H; repeat (destruct H as [H|H]; [discriminate H|]); destruct H|]). constructor.
    - repeat (constructor; [cbn; first [exact I|discriminate|lia]|]). constructor.
    - intros before o after E Ho. exists (b "8"). do 4 (destruct before as [|? before]; [injection E as <- _; cbn in Ho; first [destruct Ho|cbn; tauto]|injection E as <- E]);
        try (cbn; tauto). }
  assert (Hm : in_memory (map cat_word opts ++ [b "a.txt"; b "-E"])) by (vm_compute; discriminate).
  split; [exact Hp|]. split; [exact Hm|].
  refine (proj2 (c87_cat_partial digit_t digit_t (VInt 0) opts (b "a.txt") [b "-E"] _ _ eq_refl eq_refl Hp eq_refl Hm) _).
  split; [reflexivity|]. do 7 eexists. split; [|split; [|split; [|split; [|split; [|split; [|split; [|reflexivity]]]]]]].
  - left. exists (Show_all true). eexists. split; [cbn; tauto|]. split; reflexivity.
  - left. exists (Show_all true). eexists. split; [cbn; tauto|]. split; reflexivity.
  - right. split; [|reflexivity]. intros o Ho. cbn in Ho. repeat (destruct Ho as [<-|Ho]; [reflexivity|]). destruct Ho.
  - left. exists (Max_line_length (b "8")). eexists. split; [cbn; tauto|]. split; reflexivity.
  - left. exists (Line_suffix (b ">")). eexists. split; [cbn; tauto|]. split; reflexivity.
  - left. exists (Theme (b "classic")). eexists. split; [cbn; tauto|]. split; [reflexivity|]. cbn. tauto.
  - left. exists (Vs 2). eexists. split; [cbn; tauto|]. split; reflexivity.
Qed.

(** Without a file basic_cat calls no router, whichever options are typed. *)
Theorem c87_cat_nofiles : forall int_t length_t no_length opts router vs, proper opts -> in_memory (map cat_word opts) ->
  ~ calls_router (basic_cat int_t length_t no_length) [] (map (Tok PNone) (map cat_word opts)) router vs.
Proof. exact cat_bare_calls. Qed.
Print Assumptions c87_cat_nofiles.

Example c87_cat_nofiles_example :
  proper [Show_all true; Vs 1; Theme (b "none")] /\ in_memory (map cat_word [Show_all true; Vs 1; Theme (b "none")])
  /\ map cat_word [Show_all true; Vs 1; Theme (b "none")] = [b "-A"; b "-vv"; b "--theme=none"].
Proof.
  split; [|split; [vm_compute; discriminate|reflexivity]]. split; [|split].
  - cbn. repeat (constructor; [intros H; cbn in H; repeat (destruct H as [H|H]; [discriminate H|]); destruct H|]). constructor.
  - repeat (constructor; [cbn; first [exact I|discriminate|lia]|]). constructor.
  - intros before o after E Ho. exfalso. do 3 (destruct before as [|? before]; [injection E as <- _; cbn in Ho; destruct Ho|injection E as <- E]).
    destruct before; discriminate E.
Qed.

(** A number of letters "v" becomes an enumerator of 32 bits: the one number of that range that differs by a multiple of 2^32. *)
Theorem c87_level_cast : forall z, (- 2 ^ 31 <= enum_cast z < 2 ^ 31)%Z /\ exists k, enum_cast z = (z + k * 2 ^ 32)%Z.
Proof.
  intros z. unfold enum_cast. assert (H := Z.mod_pos_bound (z + 2 ^ 31) (2 ^ 32) ltac:(lia)). split; [lia|].
  exists (- ((z + 2 ^ 31) / 2 ^ 32))%Z. assert (E := Z.div_mod (z + 2 ^ 31) (2 ^ 32) ltac:(lia)). lia.
Qed.
Print Assumptions c87_level_cast.

Example c87_level_cast_example : enum_cast 3 = 3%Z /\ enum_cast (2 ^ 32 + 1) = 1%Z /\ enum_cast (2 ^ 31) = (- 2 ^ 31)%Z.
Proof. repeat split. Qed.

Example c87_example :
  in_memory [b "-E"; b "a.txt"; b "-E"] /\ starts_with (b "-") (b "a.txt") = false
  /\ in_memory [b "-" ++ cat_emoji] /\ in_memory [b "-d"; b "p"; b "--"; b "x"; b "-d"]
  /\ (exists n vs, calls_router just_cats [] (map (Tok PNone) [b "-" ++ cat_emoji]) n vs).
Proof.
  assert (H : in_memory [b "-" ++ cat_emoji]) by (vm_compute; discriminate).
  split; [vm_compute; discriminate|]. split; [reflexivity|]. split; [exact H|]. split; [vm_compute; discriminate|].
  exists cats_emoji, [VBool true]. refine (proj2 (c87_cats _ _ _ H) _). split; [reflexivity|]. eexists. split; [reflexivity|]. now right; right; left.
Qed.

(** ** C88 *)

(** Moving a file works without the flag, or if there is no file at the destination. *)
Theorem c88_move_partial : forall force dst src f c, f src = Some c -> src <> dst -> force = false \/ f dst = None ->
  snd (move_mode force dst src f) = true /\ moved f src dst (fst (move_mode force dst src f)).
Proof. exact move_moves. Qed.
Print Assumptions c88_move_partial.

(** With the flag and a file at the destination the source is deleted and the move fails (simple/main.cpp:31-33 removes
    [src] where [dest] was meant). *)
Theorem c88_force_loses : forall dst src f d, f dst = Some d -> src <> dst ->
  snd (move_mode true dst src f) = false /\ fst (move_mode true dst src f) src = None
  /\ forall q, q <> src -> fst (move_mode true dst src f) q = f q.
Proof. exact move_loses. Qed.
Print Assumptions c88_force_loses.

Theorem c88_force_refuted : exists dst src f, f src <> None /\ src <> dst
  /\ ~ moved f src dst (fst (move_mode true dst src f)) /\ snd (move_mode true dst src f) = false
  /\ forall q, fst (move_mode true dst src f) q <> f src.
Proof.
  set (f := file_set (file_set (fun _ => None) (b "dst") (Some (b "old"))) (b "src") (Some (b "new"))).
  exists (b "dst"), (b "src"), f. split; [discriminate|]. split; [discriminate|].
  destruct (c88_force_loses (b "dst") (b "src") f (b "old") eq_refl ltac:(discriminate)) as (A & B & C).
  split; [|split; [exact A|]].
  - intros (D & _). rewrite C in D by discriminate. discriminate D.
  - intros q. destruct (beq q (b "src")) eqn:E.
    + apply beq_eq in E. subst q. rewrite B. discriminate.
    + assert (Hq : q <> b "src") by (intros ->; discriminate E). rewrite (C q Hq). unfold f, file_set. rewrite E.
      destruct (beq q (b "dst")); discriminate.
Qed.
Print Assumptions c88_force_refuted.

(** Without the flag a file at the destination is overwritten all the same. *)
Theorem c88_unforced_refuted : exists dst src f, f dst <> None /\ src <> dst
  /\ snd (move_mode false dst src f) = true /\ fst (move_mode false dst src f) dst <> f dst.
Proof.
  exists (b "dst"), (b "src"), (file_set (file_set (fun _ => None) (b "dst") (Some (b "old"))) (b "src") (Some (b "new"))).
  vm_compute. repeat split; discriminate.
Qed.
Print Assumptions c88_unforced_refuted.

(** Copying changes no file but the destination; *)
Theorem c88_copy_keeps : forall force dst srcs f q, q <> dst -> fst (copy_mode force dst srcs f) q = f q.
Proof. exact (fun force dst srcs f q => copy_keeps force dst srcs f q). Qed.
Print Assumptions c88_copy_keeps.

(** if it succeeds then all sources exist, the last of them is at the destination, and without the flag there was only
    one source and no file at the destination. *)
Theorem c88_copy : forall force dst srcs f, snd (copy_mode force dst srcs f) = true -> srcs <> [] ->
  ~ In dst srcs /\ (forall s, In s srcs -> f s <> None) /\ fst (copy_mode force dst srcs f) dst = f (last srcs dst)
  /\ (force = false -> List.length srcs = 1%nat /\ f dst = None).
Proof. exact copy_last. Qed.
Print Assumptions c88_copy.

Example c88_example :
  let f := file_set (file_set (fun _ => None) (b "x") (Some (b "1"))) (b "y") (Some (b "2")) in
  snd (copy_mode true (b "z") [b "x"; b "y"] f) = true /\ fst (copy_mode true (b "z") [b "x"; b "y"] f) (b "z") = Some (b "2")
  /\ snd (copy_mode false (b "z") [b "x"; b "y"] f) = false
  /\ snd (move_mode false (b "z") (b "x") f) = true /\ fst (move_mode false (b "z") (b "x") f) (b "z") = Some (b "1").
Proof. vm_compute. repeat split. Qed.

(** ** C89 *)

(** What is written for a file: its first lines, each cut or left out if it is too long. *)
Theorem c89_cat : forall ends nonprinting len suffix lines limit,
  cat_lines ends nonprinting 0 limit len suffix lines
  = flat_map (written_line ends nonprinting) (flat_map (fitted len suffix) (first_lines limit lines)).
Proof. exact (fun ends np len suffix lines limit => cat_output ends np len suffix lines limit). Qed.
Print Assumptions c89_cat.

(** All lines without "--max-lines". *)
Theorem c89_no_limit : forall ends nonprinting lines, (Z.of_nat (List.length lines) < 2 ^ 31)%Z ->
  cat_lines ends nonprinting 0 (line_limit (-1)) None (Some (b "...")) lines = flat_map (written_line ends nonprinting) lines.
Proof.
  intros ends np lines H. rewrite c89_cat, (unlimited lines H). f_equal. induction lines as [|l lines IH]; [reflexivity|].
  cbn [flat_map fitted app]. f_equal. apply IH. cbn [List.length] in H. lia.
Qed.
Print Assumptions c89_no_limit.

(** Everything is shown in characters of ASCII, unless there is a byte 127 or one above 190. *)
Theorem c89_shown_partial : forall s, (forall c, In c s -> (N_of_ascii c <= 190)%N /\ N_of_ascii c <> 127%N) ->
  Forall shown_byte (m_notation s).
Proof. exact notation_shown. Qed.
Print Assumptions c89_shown_partial.

Theorem c89_shown_refuted : exists c, ~ Forall shown_byte (m_notation [c]).
Proof.
  exists (ascii_of_N 200). intros H. apply Forall_forall with (x := ascii_of_N 136) in H; [|vm_compute; tauto].
  destruct H as [[_ H]|[H|H]]; vm_compute in H; [now apply H|discriminate H|discriminate H].
Qed.
Print Assumptions c89_shown_refuted.

(** A dry run of the launcher writes a line for each program, with its arguments. *)
Theorem c89_dry_run : forall progs args,
  print_invocs progs args = flat_map (fun p => spaced (p :: args) ++ [ascii_of_N 10]) progs.
Proof. exact invocs_spaced. Qed.
Print Assumptions c89_dry_run.

(** The exit code of the launcher is the largest of its programs', 0 if there is none above. *)
Theorem c89_exit_code : forall codes, (0 <= exit_code 0 codes)%Z /\ (forall c, In c codes -> (c <= exit_code 0 codes)%Z)
  /\ (exit_code 0 codes = 0%Z \/ In (exit_code 0 codes) codes).
Proof. exact (fun codes => exit_code_max codes 0). Qed.
Print Assumptions c89_exit_code.

Example c89_example :
  cat_lines true true 0 (line_limit 2) (Some 3%N) (Some (b "...")) [b "abcd"; [ascii_of_N 1]; b "x"]
  = b "abc...$" ++ [ascii_of_N 10] ++ b "^A$" ++ [ascii_of_N 10]
  /\ exit_code 0 [-1; 3; 2]%Z = 3%Z
  /\ print_invocs [b "p"; b "q"] [b "x"; b "y"] = b "p x y" ++ [ascii_of_N 10] ++ b "q x y" ++ [ascii_of_N 10].
Proof. vm_compute. repeat split. Qed.
