(** Property theorems about the older choice of languages and about the class [result] (C83, C84). *)
From Verif Require Import Bytes Token Result Tree PreParse Parse Root Help HelpMore MultiLang Wrapper ResultClass.
From Verif Require Import SpecWrapper SpecResultClass WrapperProofs ResultClassProofs Build Demo.

(** ** C83 *)

(** The root is built once, of the texts in the column of the requested language, or else in the first. *)
Theorem c83_column : forall (R : Type) (build : list bytes -> R) codes table request j,
  wrapper_compiles codes table = true -> used codes request j ->
  exists texts, column j table texts /\ wrapped_root build codes table request = (build texts, [j]).
Proof. exact wrapped_used. Qed.
Print Assumptions c83_column.

(** Every request has such a column. *)
Theorem c83_every_request : forall codes request, exists j, used codes request j.
Proof. exact used_exists. Qed.
Print Assumptions c83_every_request.

(** It compiles iff there are several languages, all different, and no text has fewer variants than
    there are languages. *)
Theorem c83_compiles : forall codes table,
  wrapper_compiles codes table = true <->
  1 < List.length codes /\ NoDup codes /\ Forall (fun row => List.length codes <= List.length row) table.
Proof. exact wrapper_compiles_iff. Qed.
Print Assumptions c83_compiles.

(** [multi_lang::root] with translations that have the same texts does the same. *)
Theorem c83_superseded : forall (build : list bytes -> node) default others table (factory : bytes -> node),
  wrapper_compiles (default :: others) table = true ->
  (forall j lang texts, nth_error (default :: others) j = Some lang -> column j table texts ->
     factory lang = build texts) ->
  forall request,
    (forall mem args, wrapper_parse build (default :: others) table request mem args
                      = multi_parse factory default others request mem args) /\
    (forall limits_of columns, wrapper_help limits_of columns build (default :: others) table request
                      = multi_help limits_of columns factory default others request).
Proof.
  intros build default others table factory C F request.
  pose proof (same_as_root build default others table request factory C F) as E.
  split; intros; unfold wrapper_parse, multi_parse, wrapper_help, multi_help; rewrite E; reflexivity.
Qed.
Print Assumptions c83_superseded.

(** The documentation asks for as many variants as languages in each [SM_]; more are not noticed. *)
Example c83_more_variants_example : exists codes table,
  wrapper_compiles codes table = true /\ ~ Forall (fun row => List.length row = List.length codes) table.
Proof.
  exists (map b ["en"; "fr"]%string), [map b ["hello"; "bonjour"; "hola"]%string].
  split; [reflexivity|]. intro F. inversion F as [|? ? L _]. discriminate L.
Qed.

Definition greetings : list (list bytes) :=
  [map b ["hello"; "bonjour"; "hola"]%string; map b ["bye"; "au revoir"; "adios"]%string].

Example c83_example :
  let codes := map b ["en_GB"; "fr"; "es"]%string in
  wrapper_compiles codes greetings = true /\
  used codes (b "es") 2 /\ used codes (b "da") 0 /\
  column 2 greetings (map b ["hola"; "adios"]%string) /\
  wrapped_root (fun ts => ts) codes greetings (b "es") = (map b ["hola"; "adios"]%string, [2]) /\
  wrapped_root (fun ts => ts) codes greetings (b "da") = (map b ["hello"; "bye"]%string, [0]) /\
  wrapper_compiles (map b ["en"; "fr"; "es"; "ja"]%string) greetings = false.
Proof.
  cbv zeta. split; [reflexivity|]. split; [now constructor|]. split.
  { apply used_default. intros [E|[E|[E|[]]]]; discriminate. }
  split; [repeat constructor|]. repeat split.
Qed.

Definition greeting_root (texts : list bytes) : node :=
  root [] [mode 5 [PRouter] [arg num 6 [PLongName (List.concat texts); PRequired]]].
Definition greeting_of (lang : bytes) : bytes := if beq lang (b "fr") then b "bonjour" else b "hello".

Definition greeting_table : list (list bytes) := [map b ["hello"; "bonjour"]%string].

Example c83_superseded_example :
  wrapper_compiles [b "en"; b "fr"] greeting_table = true /\
  (forall j lang texts, nth_error [b "en"; b "fr"] j = Some lang -> column j greeting_table texts ->
     greeting_root [greeting_of lang] = greeting_root texts) /\
  called (wrapper_parse greeting_root [b "en"; b "fr"] greeting_table (b "fr") [] (toks ["--bonjour"; "42"]%string))
    = Some (5%N, [VInt 42]) /\
  called (multi_parse (fun l => greeting_root [greeting_of l]) (b "en") [b "fr"] (b "fr") []
            (toks ["--bonjour"; "42"]%string)) = Some (5%N, [VInt 42]).
Proof.
  split; [reflexivity|]. split.
  { intros [|[|j]] lang texts L C; cbn [nth_error] in L.
    - injection L as <-. inversion C as [|? t ? ts N F]; subst. inversion F; subst.
      cbn in N. injection N as <-. reflexivity.
    - injection L as <-. inversion C as [|? t ? ts N F]; subst. inversion F; subst.
      cbn in N. injection N as <-. reflexivity.
    - destruct j; discriminate L. }
  split; vm_compute; reflexivity.
Qed.

(** ** C84 *)

(** After a value or exception was put into it, and taken out [k] times, every member tells of what is left. *)
Theorem c84_content : forall (V E : Type) (left_value : V -> V) (left_error : E -> E) c before x uses,
  Forall moves uses ->
  tells left_value left_error (fold_left (step left_value left_error) (before ++ Put x :: uses) c)
        (left_over left_value left_error (List.length uses) x).
Proof. exact (fun V E => @put_over V E). Qed.
Print Assumptions c84_content.

(** Unless an assignment throws, an object always has a value or an exception.  Missing for the full
    statement: assignments that throw, see [c84_error_refuted]. *)
Theorem c84_always_partial : forall (V E : Type) (left_value : V -> V) (left_error : E -> E) os,
  Forall (fun o => forall x, o <> Broken x) os -> forall x,
  exists y, tells left_value left_error (fold_left (step left_value left_error) os (of_sum x)) y.
Proof. exact (fun V E => @never_nothing V E). Qed.
Print Assumptions c84_always_partial.

(** Equal are only equal values; unequal is the opposite of equal. *)
Theorem c84_equal : forall (V E : Type) (left_value : V -> V) (left_error : E -> E) value_eq c d x y,
  tells left_value left_error c x -> tells left_value left_error d y ->
  op_eq value_eq c d = Some (equal_contents value_eq x y) /\
  op_ne value_eq c d = Some (negb (equal_contents value_eq x y)).
Proof. exact (fun V E => @equal_told V E). Qed.
Print Assumptions c84_equal.

Theorem c84_equal_value : forall (V E : Type) (left_value : V -> V) (left_error : E -> E) value_eq c x w,
  tells left_value left_error c x ->
  op_eq_value value_eq c w = Some (equal_contents value_eq x (inl w)) /\
  value_op_eq value_eq w c = Some (equal_contents value_eq x (inl w)) /\
  op_ne_value value_eq c w = Some (negb (equal_contents value_eq x (inl w))) /\
  value_op_ne value_eq w c = Some (negb (equal_contents value_eq x (inl w))).
Proof. exact (fun V E => @value_told V E). Qed.
Print Assumptions c84_equal_value.

(** [operator!=] with a value is documented as false if there is an exception; it is true. *)
Example c84_unequal_example : exists (c : cell nat nat) (w e : nat),
  tells S S c (inr e) /\ op_ne_value Nat.eqb c w = Some true.
Proof. exists (Error 1), 2, 1. split; [repeat split|reflexivity]. Qed.

(** After an assignment that throws, [has_error] can be true with no exception to throw. *)
Theorem c84_error_refuted : exists (os : list (op nat nat)) (x : nat + nat),
  let c := fold_left (step S S) os (of_sum x) in
  has_error c = true /\ throw_exception c = Some BadAccess /\ forall y, ~ tells S S c y.
Proof.
  exists [Broken (inr 3)], (inl 2). cbn. repeat split. intros [v|e] (A & B & C & D & F & G & _); discriminate.
Qed.
Print Assumptions c84_error_refuted.

Example c84_example :
  Forall moves [Extract; Give : op nat nat] /\
  tells S S (fold_left (step S S) [Put (inr 1); Put (inl 5); Extract; Give] (Error 0)) (inl 7) /\
  tells S S (of_sum (inr 4)) (inr 4) /\
  op_eq Nat.eqb (Value 3 : cell nat nat) (Value 3) = Some true /\
  op_eq Nat.eqb (Error 3) (Error 3) = Some false.
Proof. repeat split; repeat constructor; (now left) || now right. Qed.
