(** C66: which trees compile. *)
From Verif Require Import Bytes Token Result CodePoint Utf8 Tree PreParse Build Validator.
From Verif Require Import SpecRules RulesProofs Demo.

(** A tree passes the compile-time checks exactly if every node keeps the rules. *)
Theorem c66_rules : forall r, accepted r = true <-> compiles r.
Proof. exact accepted_compiles. Qed.
Print Assumptions c66_rules.

(** In particular, no alias leads back to itself through other aliases, and no dependency through other
    dependencies. *)
Theorem c66_cycles : forall r n parents mode, accepted r = true -> placed r n parents ->
  (nearest_routed (n :: parents) mode -> ~ leads PAlias mode n n)
  /\ (nearest_routed parents mode -> ~ leads PDependent mode n n).
Proof.
  intros r n parents mode H Hp. apply c66_rules in H. destruct (compiles_grounded r n parents H Hp) as [Ha Hd].
  split; intros Hm; apply grounded_no_loop; auto.
Qed.
Print Assumptions c66_cycles.

(** Trees for the examples: [first] stands for [second], which stands for [third]. *)
Definition chain (last : list policy) : node :=
  root [] [mode 1 [PRouter]
    [arg num 2 [PLongName (b "first"); PAlias [NLong (b "second"); NLong (b "fourth")]];
     arg num 3 [PLongName (b "second"); PAlias [NLong (b "third")]];
     arg num 4 (PLongName (b "third") :: last); arg num 5 [PLongName (b "fourth"); PDefaultValue (VInt 0)]]].

Example c66_example :
  accepted demo = true /\ compiles demo
  /\ compiles (chain [PRequired])
  (* back to the start, or to itself *)
  /\ ~ compiles (chain [PAlias [NLong (b "first")]])
  /\ ~ compiles (chain [PAlias [NLong (b "third")]])
  /\ ~ compiles (chain [PAlias [NLong (b "second")]])
  (* forwards only *)
  /\ compiles (chain [PAlias [NLong (b "fourth")]])
  (* one name twice, an unknown one *)
  /\ ~ compiles (chain [PAlias [NLong (b "fourth"); NLong (b "fourth")]])
  /\ ~ compiles (chain [PDependent [NLong (b "fifth")]]).
Proof.
  rewrite <- !c66_rules. repeat split; try (vm_compute; reflexivity); intros H; vm_compute in H; discriminate H.
Qed.
