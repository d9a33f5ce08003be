(** C42, C43, C71, C72: tables. *)
From Verif Require Import Str Unicode Regex RegexAuto ModelBase ModelHtml ModelInline ModelParser Samples SpecAtts SpecPlain SpecNewlines SpecDoc SpecLists SpecTables ProofDocument ProofListNested ProofTableDoc.

(** ** C42: the text before a table is kept.
    What holds: a block without a blank line that has, after every bar, some character that is
    not white space, is kept by the step for tables (two newlines are put behind it).
    The paragraphs before and after a table are kept as well, see C43. *)
Theorem C42_kept_partial : forall T graf t s, no_table t -> table T graf t s = Ret (t ++ u "

") s.
Proof. exact table_kept. Qed.
Print Assumptions C42_kept_partial.
(** False in general: nothing is left of the text before a table in the same block. *)
Theorem C42_refuted : exists html, html_of T0 (u "hello" ++ nl ++ u "|a|b|") = Some html /\ contains (u "hello") html = false.
Proof. eexists. split; vm_compute; reflexivity. Qed.
Print Assumptions C42_refuted.
Example C42_example : no_table (u "a | b" ++ nl ++ u "|x|y").
Proof.
  split; intros a b E.
  - assert (K : forallb (fun n => match skipn n (u "a | b" ++ nl ++ u "|x|y") with 10 :: 10 :: _ => false | _ => true end) (seq 0 11) = true) by (vm_compute; reflexivity).
    rewrite forallb_forall in K. assert (L : (List.length a < 11)%nat) by (assert (E1 : 10%nat = List.length (a ++ 10 :: 10 :: b)) by (rewrite <- E; reflexivity); rewrite app_length in E1; cbn [List.length] in E1; lia).
    specialize (K (List.length a) (proj2 (in_seq 11 0 _) (conj (Nat.le_0_l _) L))). rewrite E in K. rewrite skipn_app, skipn_all, Nat.sub_diag in K. discriminate.
  - exists 121. split; [|reflexivity]. assert (E2 : rev (u "a | b" ++ nl ++ u "|x|y") = 121 :: rev (u "a | b" ++ nl ++ u "|x|")) by reflexivity. rewrite E in E2. rewrite rev_app_distr in E2. cbn [rev] in E2.
    apply in_rev. destruct (rev b) as [|c r]; cbn [app] in E2; injection E2 as E2 _; [discriminate|]. rewrite E2. left. reflexivity.
Qed.

(** ** C43: the shape of a table.
    What holds: the whole result of documents of tables, lists and paragraphs, in any number and
    order.  A table has any number of rows and groups of rows, with or without a caption; a row
    has any number of cells; a cell may be a heading, span columns and rows, have a vertical and
    a horizontal alignment; its text is empty or of plain words.
    [table_html] has one tr for every row and one th or td for every cell.
    Missing: classes, styles and languages of cells, attributes of rows, groups, captions and
    tables, groups of columns, inline markup in cells. *)
Theorem C43_shape_partial : forall W T fuel l, ready T -> t_lite T = false -> (0 < fuel)%nat -> Forall (proper_piece (t_restricted T)) l ->
  match pieces_html l from_one with
  | Some hs => exists s, parse W T fuel [] (sections (map piece_source l)) = Ret (sections hs) s
  | None => parse W T fuel [] (sections (map piece_source l)) = Panic Overflow
  end.
Proof. exact (fun W T fuel l H1 H2 H3 H4 => tables_document W T (proj1 H1) H2 fuel l H1 H3 H4). Qed.
Print Assumptions C43_shape_partial.
(** False in general: images are looked for before tables, across the bars. *)
Theorem C43_image_refuted : exists html, html_of T0 (u "|Hi!|Ho!|") = Some html /\ contains (u "<td>Hi<img alt="""" src=""|Ho"" /></td>") html = true.
Proof. eexists. split; vm_compute; reflexivity. Qed.
Print Assumptions C43_image_refuted.
(** A first row that begins with a centered cell is a caption, bars included: the table has no row. *)
Theorem C43_caption_refuted : exists html, html_of T0 (u "|=. a|b|") = Some html /\ contains (u "<caption>a|b</caption>") html = true /\ contains (u "<tr") html = false.
Proof. eexists. split; [vm_compute; reflexivity|]. split; vm_compute; reflexivity. Qed.
Print Assumptions C43_caption_refuted.

(** A table of two rows after a paragraph and before a list. *)
Example C43_example :
  let l := [APart (Line (u "Some words")); ATable (mk_table None [[plain_cell true (u "Year"); plain_cell true (u "Name of it")]; [plain_cell false (u "1999"); plain_cell false []]] []);
            APart (ListOf Bullets [Item (u "one") Bullets []])] in
  Forall (proper_piece true) l /\
  map piece_source l = [u "Some words"; u "|_. Year|_. Name of it|" ++ nl ++ u "|1999||"; u "* one"] /\
  option_map (fun hs => nth 1 hs []) (pieces_html l from_one) = Some (u "	<table>
		<tr>
			<th>Year</th>
			<th>Name of it</th>
		</tr>
		<tr>
			<td>1999</td>
			<td></td>
		</tr>
	</table>").
Proof.
  split; [|split; vm_compute; reflexivity].
  apply Forall_cons; [apply runs_accepts; vm_compute; reflexivity|]. apply Forall_cons.
  - cbn [proper_piece]. split; [discriminate|]. split; [|split; [intros g []|]].
    + intros r [<-|[<-|[]]]; (split; [discriminate|]); intros c [<-|[<-|[]]]; (split; [|left; reflexivity]); first [left; reflexivity | right; apply runs_accepts; vm_compute; reflexivity].
    + intros c r rs E. injection E as <- _ _. discriminate.
  - apply Forall_cons; [apply proper_of; [discriminate|vm_compute; reflexivity..]|]. apply Forall_nil.
Qed.
(** A table with a caption, groups of rows, spans and alignments. *)
Definition C43_table : tableau := mk_table (Some (u "Prices")) [] [
  (Head, [[mk_cell true (Some 2) None None None (u "Thing"); mk_cell true None None None (Some Center) (u "Euro")]]);
  (Body, [[mk_cell false None (Some 2) None None (u "Tea"); plain_cell false (u "green"); mk_cell false None None (Some Top) (Some ToRight) (u "3")]; [plain_cell false (u "black"); plain_cell false []]])].
Example C43_groups : proper_table false C43_table /\
  table_source C43_table = u "|=. Prices
|^.
|_\2. Thing|_=. Euro|
|-.
|/2. Tea|green|^>. 3|
|black||" /\
  table_html C43_table = u "	<table>
	<caption>Prices</caption>

	<thead>
		<tr>
			<th colspan=""2"">Thing</th>
			<th style=""text-align:center;"">Euro</th>
		</tr>
	</thead>
	<tbody>
		<tr>
			<td rowspan=""2"">Tea</td>
			<td>green</td>
			<td style=""vertical-align:top; text-align:right;"">3</td>
		</tr>
		<tr>
			<td>black</td>
			<td></td>
		</tr>
	</tbody>
	</table>".
Proof.
  split; [|split; vm_compute; reflexivity]. split; [discriminate|]. split; [|split].
  - intros r [<-|[<-|[<-|[]]]]; (split; [discriminate|]); intros c Hc; cbn [In] in Hc; (split; [|discriminate]); intuition (subst; first [left; reflexivity | right; apply runs_accepts; vm_compute; reflexivity]).
  - intros g [<-|[<-|[]]]; discriminate.
  - apply runs_accepts. vm_compute. reflexivity.
Qed.

(** ** C71: the rows of a table come in the order of the source.
    What holds: a table in which all rows are in groups, or none is.
    Missing: as in C43. *)
Theorem C71_order_partial : forall W T fuel t, ready T -> t_lite T = false -> (0 < fuel)%nat -> proper_table (t_restricted T) t -> t_loose t = [] \/ t_groups t = [] ->
  exists html s, parse W T fuel [] (table_source t) = Ret html s /\ in_order (map row_html (all_rows t)) html.
Proof. exact rows_ordered. Qed.
Print Assumptions C71_order_partial.
(** False in general: the rows before the first group are put behind all groups. *)
Theorem C71_refuted : html_of T0 (u "|a|" ++ nl ++ u "|-." ++ nl ++ u "|b|") = Some (u "	<table>
	<tbody>
		<tr>
			<td>b</td>
		</tr>
	</tbody>
		<tr>
			<td>a</td>
		</tr>
	</table>").
Proof. vm_compute. reflexivity. Qed.
Print Assumptions C71_refuted.
Example C71_example : t_loose C43_table = [] /\ List.length (all_rows C43_table) = 3%nat.
Proof. split; reflexivity. Qed.

(** ** C72: every mark of a cell takes effect: heading, spans, alignments.
    What holds: all cells of all tables of C43 in which a vertical alignment, if there is one, is
    the first mark. *)
Theorem C72_marks_partial : forall W T fuel t, ready T -> t_lite T = false -> (0 < fuel)%nat -> proper_table (t_restricted T) t ->
  exists html s, parse W T fuel [] (table_source t) = Ret html s /\
    forall r c, In r (all_rows t) -> In c r -> valign_first c -> exists a b, html = a ++ full_cell c ++ b.
Proof. exact marks_kept. Qed.
Print Assumptions C72_marks_partial.
(** False in general: the vertical alignment of a heading is lost. *)
Theorem C72_valign_refuted : html_of T0 (u "|_^. a|") = html_of T0 (u "|_. a|") /\ full_cell (mk_cell true None None (Some Top) None (u "a")) <> full_cell (plain_cell true (u "a")).
Proof. split; [vm_compute; reflexivity|]. vm_compute. discriminate. Qed.
Print Assumptions C72_valign_refuted.
(** In restricted mode a cell cannot be aligned to the left or right: its mark becomes text. *)
Theorem C72_restricted_refuted : exists html, html_of (set_restricted true T0) (u "|<. a|") = Some html /\ contains (u "<td>&lt;. a</td>") html = true.
Proof. eexists. split; vm_compute; reflexivity. Qed.
Print Assumptions C72_restricted_refuted.
Example C72_example : full_cell (mk_cell false None None (Some Top) (Some ToRight) (u "3")) = u "<td style=""vertical-align:top; text-align:right;"">3</td>" /\ valign_first (mk_cell false None None (Some Top) (Some ToRight) (u "3")).
Proof. split; [vm_compute; reflexivity|]. right. repeat split. Qed.
