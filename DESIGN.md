# Formal model of pdf2docx in Rocq (Coq 8.16.1)

## 1. Method

* `/repo` is read as text only. Each Python function of interest is transcribed, branch by branch, as a total
  Gallina function ("shallow model"); every definition cites `file:lines` and states its simplifications.
* Files per area: `XModel.v` (transcription only), `XSpec.v` (small independent vocabulary for the statements),
  `XProof.v` (lemmas) and `XProps.v` (only `Theorem … Proof. exact lemma. Qed.`, `Print Assumptions`, and `Example`s
  showing the hypotheses are met by a concrete case).
* If the code violates the natural reading of a property, the exact condition under which it holds is proved and
  the violation is proved as `…_refuted : exists …` with a concrete witness.
* A theorem that only covers part of its property carries the suffix `_partial`.

## 2. Numbers and external objects

* Coordinates: exact rationals `Q`. IEEE rounding of Python floats is NOT modelled (stated once here).
  Comparisons are decided by `Qle_bool`; Python's `min`/`max` return the first minimal/maximal argument as in CPython.
* Page indexes, colour values: `Z`. Lengths and fuel: `nat`.
* `fitz.Rect` (PyMuPDF 1.18): `bool(r)` is false iff all four coordinates are 0; `&`, `|`, `contains`, `intersects`,
  `getArea` modelled from MuPDF's definition (trusted).
* Python `set` iteration order: universally quantified where it matters.
* Exceptions: explicit values (`option` / result types).
* The per-page parser as seen from `Converter` is an arbitrary oracle (success/failure), so statements hold
  for all behaviours of the external libraries.

## 3. Per property: what is modelled, how it is proved

Converter (`ConverterModel`, `MpModel`; converter.py, main.py)
* C01-C03 page selection: `_page_indexes`, Python slices and the CLI shift; membership/order characterisations by list
  induction; `end=0` refuted by witness.
* C04-C06, C12, C13 state machine: state = per-page status and contents; operations = parse/restore/make_docx/…; invariants by
  induction over operation lists; refinement to "set of finished pages".
* C07, C08 file system as a finite map; make_docx as a list of file-system steps; all prefixes (crash points).
* C09-C11 multi-processing: segments (lia), worker writes as interleaved steps on a file map, all schedules.
* C42 re-parsing (`ReparseModel`): the parts of a Page that survive a parse, as a state machine. C36 settings (`PageModel`).

Algorithms (`GraphModel`, `InterModel`; common/algorithm.py)
* C14, C15 BFS with fuel: fuel sufficiency, reachability, partition. Python set order is a universally quantified permutation.
* C16 sweep: transcription of the recursion; soundness by induction; completeness for distinct left edges; witness for ties.

Geometry and colours (`Rect`, `GeomModel`, `ColorModel`)
* C17-C20, C43, C44 over Q with lra; lists by induction; `list.sort` = stable insertion sort with proof of sortedness.
* C21, C22, C45 hex digits as digit lists; Z/Q arithmetic.

Text (`TextModel`, `ParaModel`, `FontModel`, `RunModel`)
* C23-C25, C49 spans as character lists with boxes; splitting/joining by induction over lists.
* C26, C27, C50-C53 alignment, spacing, tabs, fonts over Q. C59 font names as strings.
* C72 properties of a run as the XML elements python-docx writes (order and replacement included).

Tables (`TableModel`, `BorderModel`, `AssignModel`, `GridSpec`, `WordModel`)
* C28-C30, C54-C56 table structure: presence patterns as lists of Booleans; counting by induction; tiling by a two-dimensional argument.
* C31, C58 implicit borders as a state machine; invariant over histories.
* C32, C33, C48 assignment of lines, characters, shapes; area arguments over Q.
* C68 end to end for a drawn grid with merged cells: from the strokes of any grid to the parsed cells, borders and text.
* C69 the Word table: merge semantics of python-docx (`w:gridSpan`/`w:vMerge`) as operations on a grid of `w:tc`.

Shapes and pictures (`ShapeModel`, `PathModel`, `ImageModel`, `HideModel`, `MaskModel`, `RawModel`)
* C37-C40, C57 strokes, fills, paths. C41 base64 as a codec. C61 pictures of the raw page. C62 content streams as token lists.
* C67 the pixel mask as a Boolean matrix with Python's slice semantics.

Page and document (`PageModel`, `CleanModel`, `FlowModel`, `SpacingModel`, `LayoutModel`, `DocxModel`, `TreeModel`, `StoreModel`, `ExtractModel`, `WholeModel`)
* C35 margins. C60 clean-up: conservation of glyphs. C63 vertical places. C64, C65 splitting and stream candidates.
* C66 the recursive layout parser (fuel = nesting depth, any depth), with text format inside (shapes shared
  between a page and its cells are positions in one list): conservation, formats from shapes, reading order, cells.
* C73 pages as a whole (`WholeModel`): the models of clean-up, margins, layout, spacing and writing composed as Page.parse and
  make_docx do; exact result for pages of paragraphs, provenance for all pages.
* C74 positions (`PlaceSpec`; text only, since a picture ends exact line spacing): what Word does with spaces, line spacings and indents (rows of exact height one below the other from the top
  margin; each PDF line one row) is the specification; the numbers are those of C73's documents. Proved from C35 (margins),
  C63 (spaces, rounding) and C26/C50 (indents) through the composition of C73.
* C75 formats of paragraphs (`FmtSpec`): C73's pages plus drawings and links that lie clearly over text or off it; invariant over the sequence of
  drawings (parts of a text: boxes, characters, formats so far), then through splitting, marking and writing. Findings where clarity fails.
* C76 a page with a ruled table (`TabSpec`): C68's grids with C73's paragraphs in the cells, above and below. Proved through all stages:
  clean-up joins texts of one row across cells (C60), detection (C68), assignment (C32, C33), recursion into each cell, splitting back,
  spacing, and the Word table of C69/C70 (`C70_displayed`). Not covered: texts across several cells, formats, fills, several tables.
* C34, C46, C47, C70 document body as a list transducer; nested tables by induction on the block tree.
* C77, C78 pictures and links of the Word package (`DrawModel`: relations, image parts, drawings, with the allocation of names by python-docx): an invariant
  (`DrawSpec.sound`) over all sequences of writes; free names exist by counting; sizes and places by the bounds of truncation and rounding.
* C79 pages that raise (`FailModel`, on top of `DocxModel`): what is written before the exception stays; C34's invariant without "ends with a paragraph".
* C13 store/restore of parsed pages including rounding. C71 text of extracted tables.
* C80 (Rot*): the process-wide rotation matrix as state, parsing and restoring as steps over all pages of a process; `C80_history` by induction over the steps after the last load of the page. `turned` (RotSpec) rewrites the boxes, origins and directions of a raw page as they are seen on the turned page; `C80_as_seen` shows by induction over the nesting that reading the page with its matrix equals reading the rewritten page upright (up to character origins, which only nameless fonts use). Points, page size and directions separately. Two refutations: vector graphics, nameless fonts. Trusted: the entries of `Page.rotationMatrix`, `getText` unrotated, `getPixmap` rotated.
* C81 (Cut*): the writer of C70 with the exceptions of RunModel let through: every function returns what it has written and whether it came to its end (`until`, `items_try`, `row_try`, `block_try`), the pages go through the handler of C79 (FailModel). `C81_pages` by induction over the nesting of blocks, with the grid invariant of C69 for half-written tables; `shows_until` (CutSpec) says what "cut off there" means. One refutation: one bad character costs the rest of the page. Simplifications: the properties of the run that raised, and a cell that raises by itself (no regular grid), see CutModel.
* C82 (Fit*): no new model; `fits` and `room_for` (FitSpec) on top of C74's `row_ends`. `bottom_share` bounds the bottom margin by its share of the free space, the rest is arithmetic on C74 (`C82_one_page`) and C63 (`C82_blocks`). One refutation: the paragraph of the section break makes a blank page when the text ends near the edge. Trusted: Word sets rows of exact line spacing one below the other and starts a new page when one does not fit.
* C83 (Fill*): no new model; C76 extended (`cells_written`, TabProof11) by how the blocks of each cell are spaced, and C74's `set_down`/`set_across` applied with the working area of the cell. `heights_above` adds up the exact row heights. One refutation: the last row of a table at the end of a page loses a point, and with it text just above its bottom line. Trusted: Word sets paragraphs of exact line spacing from the lower edge of the upper border on, and hides what is beyond the exact height of the rows.
* C84 (Look*): no new model; the end-to-end theorems C73/C75/C76 (which follow glyphs) joined with the writer of runs (C72) and of documents whose writing may fail (C81). `looks_as` (LookSpec) compares one character of the page, with its formats, to one character of a run; `span_kept` lifts C72 to characters, `document_kept` lifts it to documents. For C75 `page_marked` was strengthened from glyphs to pieces of lines (`line_at`). No refutation of its own (see C72_link_format_refuted, C75_*_refuted, C76_widthless_refuted).
* **C85 (pictures).** `PicProps.v`: `C85_pictures` composes the clean-up with floating pictures (`WholeProof2.clean_pictures`: by the sweep of C14 a picture
  of the flow, which has no line at its height, is not reported, and one lying on a line is; uses `InterProof.report_heights`, `report_complete`), the stacked
  layout (`WholeProof8.page_stacked`, shared with C73) and the writing of C70.  The specification is `WholeSpec.picture_page` (vocabulary `lies_on`, `starts_alone`).
  Missing: overlapping pictures whose left edge coincides with that of another line (C60 finding).  `C85_table_nonvacuous` instantiates C76 with a picture in a cell.
* **C86 (the table and the text around it in place).** `SetSpec.v` sets the items of a Word body one below the other (`set_at`: paragraphs, the empty paragraph before a table,
  tables with rows from middle to middle of their lines).  `SetProof.v`: the exact body of a page with one table (`body_form`), no space before a table after text (`after_text`), and
  instances of C63 (`written`, `budget`) for texts, a table, texts; `SetProof2.page_set` composes them with the row heights of C76; `SetProof3.page_margins`: the margins of C35
  on such a page.  `C86_page` composes these with `TabProof11.page_shown` (C76).  The indent of a table (TableBlock.py:162, Block.py:111-112, docx.py:307-319) is part of the document (`DTable`), in
  twentieths of a point as written: with the left margin and the widths of the cells it gives the vertical lines (`SetProof4.lines_across`, induction on the column).  Not covered: which widths Word gives the continuing parts of cells merged downwards.
* **C87 (masks of pictures).** `PixModel.v` models `_recover_pixmap` on pixmaps given as lists of pixels, with what PyMuPDF does (copy with alpha, setAlpha, conversion to RGB) as
  stated in its header. `C87_masked` (any picture, mask of its size), `C87_unmasked`, `C87_raises` (exactly when it raises, for any mask) by lemmas on lists; three findings refute the stronger claims
  (soft masks, smaller and larger masks).
* **C88 (convert, end to end).** `MixModel.v` composes the page selection and page states of `ConverterModel.v` with `parse_page` (C73) and `document_docx` (C70) into `convert_docx`, from the raw pages to the docx.
  `C88_convert` by C05 (which pages are finished), `page_pictured` / `page_shown` for each page and a lemma that the items of a section are made of the blocks of its page only, so that what is proved of the document of one page
  (C76, C85) holds for its section in any document; `C88_nothing` for no page parsed. Pages are stacked (C85, C73), with one ruled table (C76) or in two columns with or without paragraphs above and below them (C90, C91); other pages may be there but not selected.
* **C89 (extract_tables, end to end).** `ReadModel.v` composes page selection, `parse_page` and `extract_tables` (C71); tables carry whether they were found by their borders (`tab_lattice`, `tp_lattice`). `C89_extract` by the lemmas of C88
  and `page_shown` (C76), which gives the rows and cells of the parsed table; strings by `C71_text` and `C71_lines`. `C89_columns_refuted` is a finding.
* **C90 (a page in two columns, end to end).** Vocabulary in `ColSpec.v` (`column_page`, `in_halves`, `balanced`, `columns_shown`). The two-column table of C55 is computed exactly (`ColProof.columns_table`: two cells
  without borders, the halves of the page), the rows of text are cut between the cells by the lemmas of C76 (`ColProof2.columns_level`), and the page is spaced and written by those of C63, C70 and C73 (`ColProof3.columns_written`).
  `C90_short_refuted` is a finding, and shows that `balanced` is needed.
* **C91 (two columns between full-width paragraphs, end to end).** Vocabulary in `HeadSpec.v` (`headed_page`, `across_lines`) and `ColSpec.v`. Elements across the middle that are above or below the columns do not change
  the layout table (`HeadProof.layout_columns`), whose frame is the hull of the columns with 5pt more (`ColProof.columns_table`); cleaned blocks lie above, inside or below it (`HeadProof2.parts_apart`), those inside are assigned to the cells
  as in C90, the others are split back into the paragraphs around the table (`HeadProof.headed_level`, `TabProof2.split_mixed`). `C91_nonvacuous` is a page with a heading, two columns and a note; `C91_near_refuted` is a finding, and shows that
  the distance is needed.

## 4. Trusted base

* Coq 8.16.1 kernel (and `vm_compute`), the standard library.
* Axioms: `Print Assumptions` follows every property theorem and prints "Closed under the global context" for each; no axiom is used.
  (vcheck also lists seven opaque constants `Coq.ssr.ssrunder.Under_rel.*` of Coq's own ssreflect files: loaded, not used.)
* The transcription of the Python code into the models, and the stated semantics of what the code calls:
  `fitz.Rect` operations; CPython `min`/`max`/`sort`/`round`/slices/sets; python-docx: `Document()` (empty body, one section),
  `add_paragraph`, `add_section`, `_Cell.add_table` (adds an empty paragraph), `Table.cell`, `_Cell.merge`, order and
  replacement of run properties, text of runs, range checks of row heights and RGB values, names of relations, image parts and drawings,
  sizes of pictures (`Image.scaled_dimensions`); lxml: refusal of characters outside XML's `Char`.
* PyMuPDF: `Pixmap.setAlpha` refuses fewer values than pixels and else sets them in order, opaque pixels keep their colour; conversion to RGB is pixel by pixel (C87).
* Exact rationals instead of floats.

## 5. Modelled and not modelled

`tools/coverage.py` compares the line citations in the models with the functions of `/repo/pdf2docx`. "Not modelled" below are
plots (debugging), trivial accessors and delegations, the `compare` methods used by the test-suite only, and external calls (rendering a pixmap).

* `common/Block.py`: 13 of 20 functions. Not modelled: `Block.set_text_block`, `Block.set_inline_image_block`, `Block.set_float_image_block`, `Block.set_lattice_table_block`, `Block.set_stream_table_block`, `Block.compare`, `Block.make_docx`.
* `common/Collection.py`: 14 of 22 functions. Not modelled: `BaseCollection.__init__`, `BaseCollection.__getitem__`, `BaseCollection.__iter__`, `BaseCollection.__len__`, `Collection.__init__`, `Collection.parent`, `Collection.store`, `Collection.restore`.
* `common/Element.py`: 13 of 19 functions. Not modelled: `Element.__repr__`, `Element.parent`, `Element.parent`, `Element.copy`, `Element.compare`, `Element.plot`.
* `common/docx.py`: 15 of 17 functions. Not modelled: `delete_paragraph`, `reset_paragraph_format`.
* `common/share.py`: 18 of 21 functions. Not modelled: `is_number`, `flatten`, `rgb_component_from_name`.
* `converter.py`: 14 of 18 functions. Not modelled: `Converter.__len__`, `Converter.fitz_doc`, `Converter.close`, `Converter.debug_page`.
* `image/Image.py`: 5 of 6 functions. Not modelled: `Image.plot`.
* `image/ImageBlock.py`: 5 of 6 functions. Not modelled: `ImageBlock.plot`.
* `image/ImageSpan.py`: 2 of 2 functions.
* `image/ImagesExtractor.py`: 6 of 7 functions. Not modelled: `ImagesExtractor._clip_page`.
* `main.py`: 2 of 4 functions. Not modelled: `PDF2DOCX.debug`, `main`.
* `page/Blocks.py`: 17 of 23 functions. Not modelled: `Blocks.lattice_table_blocks`, `Blocks.stream_table_blocks`, `Blocks.table_blocks`, `Blocks.inline_image_blocks`, `Blocks.text_blocks`, `Blocks.plot`.
* `page/Layout.py`: 8 of 9 functions. Not modelled: `Layout.bbox`.
* `page/Page.py`: 14 of 15 functions. Not modelled: `Page.finalized`.
* `page/RawPage.py`: 5 of 6 functions. Not modelled: `RawPage.__init__`.
* `shape/Path.py`: 17 of 20 functions. Not modelled: `Segment.__init__`, `R.__init__`, `Path.plot`.
* `shape/Paths.py`: 4 of 8 functions. Not modelled: `Paths.bbox`, `Paths.append`, `Paths.extend`, `Paths.plot`.
* `shape/Shape.py`: 16 of 22 functions. Not modelled: `Shape._check_semantic_type`, `Shape.plot`, `Stroke.x0`, `Stroke.x1`, `Stroke.y0`, `Stroke.y1`.
* `shape/Shapes.py`: 7 of 14 functions. Not modelled: `Shapes.strokes`, `Shapes.fillings`, `Shapes.table_strokes`, `Shapes.table_fillings`, `Shapes.text_highlights`, `Shapes.text_underlines_strikes`, `Shapes.plot`.
* `table/Border.py`: 16 of 21 functions. Not modelled: `Borders.__init__`, `Borders.__iter__`, `Borders.__len__`, `Borders.add`, `Borders.extend`.
* `table/Cell.py`: 9 of 11 functions. Not modelled: `Cell.compare`, `Cell.plot`.
* `table/Cells.py`: 2 of 2 functions.
* `table/Row.py`: 3 of 7 functions. Not modelled: `Row.__getitem__`, `Row.__iter__`, `Row.__len__`, `Row.append`.
* `table/Rows.py`: 1 of 1 functions.
* `table/TableBlock.py`: 7 of 14 functions. Not modelled: `TableBlock.__getitem__`, `TableBlock.__iter__`, `TableBlock.__len__`, `TableBlock.num_rows`, `TableBlock.num_cols`, `TableBlock.append`, `TableBlock.plot`.
* `table/TableStructure.py`: 17 of 21 functions. Not modelled: `TableStructure.num_rows`, `TableStructure.num_cols`, `TableStructure.y_rows`, `TableStructure.x_cols`.
* `table/TablesConstructor.py`: 8 of 9 functions. Not modelled: `TablesConstructor.__init__`.
* `text/Char.py`: 3 of 3 functions.
* `text/Line.py`: 10 of 13 functions. Not modelled: `Line.pid`, `Line.pid`, `Line.strip`.
* `text/Lines.py`: 14 of 16 functions. Not modelled: `Lines.unique_parent`, `Lines.image_spans`.
* `text/Spans.py`: 2 of 4 functions. Not modelled: `Spans.text_spans`, `Spans.image_spans`.
* `text/TextBlock.py`: 13 of 14 functions. Not modelled: `TextBlock.plot`.
* `text/TextSpan.py`: 13 of 15 functions. Not modelled: `TextSpan.add`, `TextSpan.plot`.
