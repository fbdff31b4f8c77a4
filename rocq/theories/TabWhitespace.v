(** Generated from utility/utf8/whitespace.hpp:18-30 (whitespace_table), all 11 rows: (first, last, meta). *)
From Coq Require Import List NArith.
Import ListNotations.
Local Open Scope N_scope.

(** whitespace_table rows 0-10 (utility/utf8/whitespace.hpp:18-30). *)
Definition whitespace_table_0 : list (N * N * N) :=
  [
   (9, 13, 0); (32, 32, 0); (133, 133, 0); (160, 160, 0); (5760, 5760, 0); (8192, 8202, 0);
   (8232, 8232, 0); (8233, 8233, 0); (8239, 8239, 0); (8287, 8287, 0); (12288, 12288, 0)
  ].

(** The whole table whitespace_table (utility/utf8/whitespace.hpp:18-30). *)
Definition whitespace_table_rows : list (N * N * N) :=
  whitespace_table_0.
