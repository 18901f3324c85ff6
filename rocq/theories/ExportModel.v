(* The tool that writes an exclusion graph into a file.
   Models: tools/export_exclusion_graph/src/export_exclusion_graph.cc:36-51
   and include/soro/infrastructure/exclusion/exclusion_graph.h:7-9.
   The file is the sequence of characters that was streamed; opening, buffering
   and closing it are not modelled.  main (53-80) only parses the command line
   and loads the infrastructure with get_exclusion_graph (ExclModel.v). *)
From Coq Require Import Ascii String DecimalString.
From Coq Require Import List NArith.
From Verif Require Import Base.
From Verif Require Import ExclusionSetModel.
Import ListNotations.
Local Open Scope list_scope.

(* operator<<(std::ostream&, uint32_t) in the default format *)
Definition put_number (n : N) : list ascii :=
  list_ascii_of_string (NilZero.string_of_uint (N.to_uint n)).

(* export_exclusion_graph.cc:40-46: the loop over one exclusion set; the first
   entry that equals the number of the node ends it *)
Fixpoint write_node (from : N) (node : list N) : list ascii :=
  match node with
  | [] => []
  | to :: rest =>
      if N.eqb from to then []
      else put_number to ++ " "%char :: write_node from rest
  end.

(* export_exclusion_graph.cc:39-49: utl::enumerate counts the nodes from 0 *)
Fixpoint write_nodes (from : N) (nodes : list es) : res (list ascii) :=
  match nodes with
  | [] => Ok []
  | s :: rest =>
      do node <- es_iterate s;
      do tail <- write_nodes (from + 1) rest;
      Ok (write_node from node ++ "010"%char :: tail)
  end.

(* export_exclusion_graph.cc:36-51 *)
Definition write_out (nodes : list es) : res (list ascii) := write_nodes 0 nodes.
