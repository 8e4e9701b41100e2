(** How values in headers are read. *)
From Verif Require Export Spec_BaggageHeader Spec_Runtime.
