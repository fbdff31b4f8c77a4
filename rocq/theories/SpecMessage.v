(** Specification of error messages (C32, C33). *)
From Verif Require Import Bytes Token Result.

(** Text without brackets. *)
Definition plain (s : bytes) : Prop := ~ In "{"%char s /\ ~ In "}"%char s.

(** A format text: text, then any number of placeholders [{joining}] each followed by text. *)
Record template := Template { tp_text : bytes; tp_holes : list (bytes * bytes) }.

(** The format text as written. *)
Definition written (t : template) : bytes :=
  tp_text t ++ flat_map (fun h => b "{" ++ fst h ++ b "}" ++ snd h) (tp_holes t).

(** No brackets outside and inside of the placeholders. *)
Definition tidy (t : template) : Prop :=
  plain (tp_text t) /\ Forall (fun h => plain (fst h) /\ plain (snd h)) (tp_holes t).

(** Only the last placeholder may have a joining text. *)
Definition joins_last (t : template) : Prop :=
  forall before h after, tp_holes t = before ++ h :: after -> fst h <> [] -> after = [].

Section Texts.
(** How a token is written. *)
Variable text_of : token -> bytes.

(** Tokens one after the other, with a text between them. *)
Fixpoint joined_of (sep : bytes) (ts : list token) : bytes :=
  match ts with
  | [] => []
  | [t] => text_of t
  | t :: ts' => text_of t ++ sep ++ joined_of sep ts'
  end.

(** The placeholders filled in: an empty one gets the next token, one with a joining text gets all
    that are left, and when there are no more tokens nothing is put in. *)
Fixpoint filled_of (holes : list (bytes * bytes)) (ts : list token) : bytes :=
  match holes with
  | [] => []
  | (joining, text) :: holes' =>
    match joining with
    | [] => match ts with
            | [] => text ++ filled_of holes' []
            | t :: ts' => text_of t ++ text ++ filled_of holes' ts'
            end
    | _ :: _ => joined_of joining ts ++ text ++ filled_of holes' []
    end
  end.

(** The message: with no placeholders the tokens are added at the end. *)
Definition message_of (t : template) (ts : list token) : bytes :=
  match tp_holes t with
  | [] => tp_text t ++ match ts with [] => [] | _ :: _ => b ": " ++ joined_of (b ", ") ts end
  | holes => tp_text t ++ filled_of holes ts
  end.

End Texts.
Notation joined := (joined_of token_str).
Notation filled := (filled_of token_str).
Notation message := (message_of token_str).

(** The first entry for a code in a table. *)
Definition first_entry (table : list (ecode * bytes)) (c : ecode) (msg : bytes) : Prop :=
  exists before c' after, table = before ++ (c', msg) :: after /\ ecode_num c' = ecode_num c /\
    forall e, In e before -> ecode_num (fst e) <> ecode_num c.
