(** Property C96: the filter graph and the table of filter times of vspipe. *)
From Coq Require Import String Ascii ZArith List Bool Lia Permutation.
From Verif Require Import Common OptSpec OptLemmas Graph GraphSpec GraphWalk GraphLemmas GraphFacts.
Import ListNotations.
Open Scope Z_scope.

(** In all three modes: the edges are those into the nodes the output depends on, each once and
    in order, and every such node is in the box of its call, with nothing else there. *)
Theorem C96_graph : forall g rank times m, layered (fun a => g_deps (g a)) rank -> forall fuel a, (rank a < fuel)%nat ->
  (forall b, reach (fun a => g_deps (g a)) a b -> g_frames (g b) <> []) ->
  exists p, collect g times m fuel a = Some (Ok p) /\
    ascending (fst p) /\ (forall l, In l (fst p) <-> exists s b, reach (fun a => g_deps (g a)) a b /\ In s (g_deps (g b)) /\ l = edgeText s b) /\
    ascending (map fst (snd p)) /\ (forall k l, In l (boxOf k (snd p)) <-> exists b, reach (fun a => g_deps (g a)) a b /\ drawn g times m b k l).
Proof. exact collect_graph. Qed.
Print Assumptions C96_graph.
Example C96_graph_ex : layered (fun a => g_deps (exGraph a)) exRank /\
  match collect exGraph (fun _ => []) GFull 4 3 with Some (Ok p) => fst p = map T ["n0 -> n1"; "n0 -> n3"; "n1 -> n2"; "n2 -> n3"]%string /\ map fst (snd p) = map T ["s10"; "s20"; "s30"; "s40"]%string | _ => False end.
Proof. split; [exact exLayered|]. vm_compute. split; reflexivity. Qed.

(** Different edges give different lines, and different calls different boxes. *)
Theorem C96_edge_lines : forall s a s' a', edgeText s a = edgeText s' a' -> s = s' /\ a = a'.
Proof. exact edgeText_inj. Qed.
Print Assumptions C96_edge_lines.
Example C96_edge_lines_ex : edgeText 12 3 = T "n12 -> n3".
Proof. reflexivity. Qed.

Theorem C96_box_names : forall f f', mangleFrame f = mangleFrame f' -> r_addr f = r_addr f'.
Proof. exact mangleFrame_inj. Qed.
Print Assumptions C96_box_names.
Example C96_box_names_ex : mangleFrame outerCall = T "s100".
Proof. reflexivity. Qed.

(** The table has one row for every node the output depends on, longest time first. *)
Theorem C96_times : forall g rank, layered (fun a => g_deps (g a)) rank -> forall fuel a, (rank a < fuel)%nat ->
  exists rows order, timeTable g fuel a = Some rows /\ NoDup order /\ (forall b, In b order <-> reach (fun a => g_deps (g a)) a b) /\
    Permutation rows (map (fun b => (g_name (g b), g_mode (g b), g_time (g b))) order) /\ longestFirst rows.
Proof. exact table_rows. Qed.
Print Assumptions C96_times.
Example C96_times_ex : option_map (map snd) (timeTable exGraph 4 3) = Some [9; 9; 5; 1].
Proof. vm_compute. reflexivity. Qed.

(** Escaping turns every kind of line break into one, and doubles backslashes. *)
Theorem C96_escape : forall s, escapeDot s = escaped s.
Proof. exact escapeDot_spec. Qed.
Print Assumptions C96_escape.
Example C96_escape_ex : escapeDot (T "a\b" ++ [CR; LF; CR; LF; LF; CR]) = T "a\\b\n\n\n\n".
Proof. reflexivity. Qed.

Theorem C96_one_line : forall s, ~ In LF (escapeDot s) /\ ~ In CR (escapeDot s).
Proof. exact escapeDot_one_line. Qed.
Print Assumptions C96_one_line.
Example C96_one_line_ex : escapeDot [CR; CR; LF; LF] = T "\n\n\n".
Proof. reflexivity. Qed.

(** With plain names and no quote in any text, every label is one quoted string. *)
Theorem C96_quoted_partial : forall f args, plain (r_ns f) -> plain (r_fn f) -> (forall a, In a args -> plain (fst a) /\ valPlain (snd a)) ->
  exists t, labelText f args = T "label=" ++ [quote] ++ t ++ [quote] /\ inside t = true.
Proof. exact label_quoted. Qed.
Print Assumptions C96_quoted_partial.
Example C96_quoted_ex : labelText outerCall [(T "text", AData [(true, T "c:\new" ++ [LF])])] = T "label=" ++ [quote] ++ T "plug.Twice\ntext=c:\\new\n" ++ [quote].
Proof. reflexivity. Qed.

(** A quote in a text argument ends the label in its middle. *)
Theorem C96_quote_refuted : exists f args t, plain (r_ns f) /\ plain (r_fn f) /\
  labelText f args = T "label=" ++ [quote] ++ t ++ [quote] /\ inside t = false.
Proof. exact quote_breaks. Qed.
Print Assumptions C96_quote_refuted.
Example C96_quote_ex : escapeDot [quote] = [quote] /\ inside [bs; quote] = true.
Proof. split; reflexivity. Qed.

(** In the full graphs a label shows the arguments of the call it names. *)
Theorem C96_full_labels : forall m x f f0, m <> GSimple -> named m x = Some f -> innermost x = Some f0 -> f = f0.
Proof. exact full_labels. Qed.
Print Assumptions C96_full_labels.
Example C96_full_labels_ex : option_map r_addr (named GFull (exGraph 2)) = Some 20.
Proof. reflexivity. Qed.

(** In the simple one it does for nodes made directly by the call. *)
Theorem C96_simple_labels_partial : forall x f f0, (length (g_frames x) <= 1)%nat -> named GSimple x = Some f -> innermost x = Some f0 -> f = f0.
Proof. exact simple_flat. Qed.
Print Assumptions C96_simple_labels_partial.
Example C96_simple_labels_ex : option_map r_addr (named GSimple (exGraph 3)) = Some 30.
Proof. reflexivity. Qed.

(** Otherwise the box of a call has the arguments of calls it made, one label for each, and not its own. *)
Theorem C96_simple_labels_refuted : exists g p k l, collect g (fun _ => []) GSimple 5 2 = Some (Ok p) /\ In l (boxOf k (snd p)) /\
  (forall b, g_frames (g b) <> []) /\
  k = mangleFrame outerCall /\ l = labelText outerCall [(T "planes", AInts [0; 2])] /\
  In (labelText outerCall [(T "planes", AInts [1])]) (boxOf k (snd p)) /\
  ~ In (labelText outerCall (r_args outerCall)) (boxOf k (snd p)).
Proof. exact simple_mislabels. Qed.
Print Assumptions C96_simple_labels_refuted.
Example C96_simple_labels_refuted_ex : option_map r_addr (named GSimple (exGraph 2)) = Some 100 /\ option_map r_addr (innermost (exGraph 2)) = Some 20.
Proof. split; reflexivity. Qed.

(** Printing a graph with a node that no function call made is undefined. *)
Theorem C96_orphan_refuted : forall g rank times m, layered (fun a => g_deps (g a)) rank -> forall fuel a b, (rank a < fuel)%nat ->
  reach (fun a => g_deps (g a)) a b -> g_frames (g b) = [] -> collect g times m fuel a = Some UB.
Proof. exact collect_orphan. Qed.
Print Assumptions C96_orphan_refuted.
Example C96_orphan_ex : collect (fun _ => mkNode (T "Own") 0 0 [] []) (fun _ => []) GFull 1 0 = Some UB.
Proof. reflexivity. Qed.
