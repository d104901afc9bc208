{"id": "C01", "title": "Explicit page list selects exactly the valid pages", "statement": "When convert/extract_tables is given a non-empty `pages` list, the pages selected for parsing are exactly those entries i of the list with 0<=i<page_count, in the order given and with the multiplicity given; out-of-range and negative entries are silently ignored, start/end have no influence.", "quantifier": "every page count, every list of integers, every start/end", "why_tests_cant": "the input space (lists of integers of any length, any page count) is infinite; a test fixes a few lists", "anchors": ["pdf2docx/converter.py:Converter._page_indexes"]}
{"id": "C02", "title": "start/end select a half-open range of pages", "statement": "When `pages` is empty or omitted, the selected pages are those of Python's slice start:end over the page range (so for 0<=start and 0<end exactly start..min(end,n)-1 in increasing order, without duplicates), and an omitted end means up to the last page. Known defect that the model must exhibit: end=0 is treated as `omitted`, so convert(start=0,end=0) selects every page instead of none.", "quantifier": "every page count, every integer start, every integer or omitted end", "why_tests_cant": "infinitely many (start,end,n) triples incl. negative ones; tests sample a few", "anchors": ["pdf2docx/converter.py:Converter._page_indexes"]}
{"id": "C03", "title": "1-based command line is the 0-based one shifted by one", "statement": "Running the CLI with zero_based_index=False and page numbers s/e/pages selects the same pages as the 0-based interface with each number reduced by one (start clipped at 0). Consequently 1-based pages=[..] selects exactly the listed pages numbered from 1. Known defect: a 1-based end=1 (and only that one among end>=1) becomes end=0 and selects everything from start to the end of the document.", "quantifier": "every page count, start>=1, end>=1 or omitted, every pages list", "why_tests_cant": "needs to hold for all index triples; the failing value is a single boundary value tests rarely hit", "anchors": ["pdf2docx/main.py:PDF2DOCX.convert", "pdf2docx/main.py:PDF2DOCX.table", "pdf2docx/converter.py:Converter._page_indexes"]}
{"id": "C04", "title": "A failing page never affects the other pages", "statement": "During parse(), an exception raised while parsing one page is swallowed; every other selected page is parsed exactly as it would be if the failing page had not been selected, and the pages not selected are unchanged. parse() itself never raises for in-range indexes.", "quantifier": "every document, every selection, every per-page outcome (success or failure at any stage)", "why_tests_cant": "requires all combinations of failing pages, which tests cannot enumerate", "anchors": ["pdf2docx/converter.py:Converter.parse", "pdf2docx/page/Page.py:Page.parse"]}
{"id": "C05", "title": "A fresh convert() writes exactly the selected, successfully parsed pages", "statement": "On a new Converter, convert(...) with a selection that contains at least one valid page writes a docx whose pages are exactly the selected pages that parse successfully, each once, in document order, independent of the order or repetition in the selection; it raises (and leaves the output file untouched) iff none of them parsed. Known defect: an empty valid selection (e.g. pages=[100] or start>=end) parses and writes the whole document.", "quantifier": "every document, every selection, every combination of per-page parse outcomes", "why_tests_cant": "all selections x all failure patterns", "anchors": ["pdf2docx/converter.py:Converter.convert", "pdf2docx/converter.py:Converter._parse_and_create_pages", "pdf2docx/converter.py:Converter.parse", "pdf2docx/converter.py:Converter.make_docx"]}
{"id": "C06", "title": "Output of a reused Converter is determined by the history of parsed pages", "statement": "After any sequence of parse/convert/extract_tables/make_docx/restore calls on one Converter, the document produced by make_docx contains exactly the pages that are currently finalized, i.e. those parsed successfully or restored at least once and not broken afterwards by a re-parse that failed after its source was loaded; make_docx, store and extract_tables do not change that set. Known defect: convert(pages=[0]) followed by convert(pages=[1]) writes both pages to the second file.", "quantifier": "every finite history of API calls with arbitrary arguments and arbitrary per-call parse outcomes", "why_tests_cant": "unbounded call histories", "anchors": ["pdf2docx/converter.py:Converter", "pdf2docx/page/Page.py:Page.parse", "pdf2docx/page/Page.py:Page.restore", "pdf2docx/page/Page.py:Page.finalized"]}
{"id": "C07", "title": "Default output name, and no other file is touched", "statement": "convert without docx_filename writes to the pdf path with every occurrence of '.pdf' replaced by '.docx'; the only path removed or written is the output path, so when the source path contains '.pdf' the source file survives. Known defect: when the path contains no '.pdf' (e.g. 'A.PDF') the output path equals the source path and the source file is deleted and overwritten; and a directory component containing '.pdf' is rewritten as well.", "quantifier": "every file name (string), every file system content", "why_tests_cant": "all strings; destructive corner case is easily missed by sampled names", "anchors": ["pdf2docx/converter.py:Converter.make_docx"]}
{"id": "C08", "title": "Crash-safety of writing the docx", "statement": "If make_docx is interrupted between (or inside) any of its file-system steps, the output path holds the previous content, nothing, a partially written file or the complete new document - the complete one once the save step has returned - and every other file is unchanged; when no page was parsed nothing is touched. Refuted: 'either the old or the new document survives a crash' - the previous file is deleted before the new one is written, so some crash points leave neither.", "quantifier": "every crash point, every initial file system content", "why_tests_cant": "crash points cannot be enumerated by ordinary unit tests", "anchors": ["pdf2docx/converter.py:Converter.make_docx"]}
{"id": "C09", "title": "Multi-processing splits the page range without gap or overlap", "statement": "With multi_processing, for every number of workers >=1 the page segments of workers 0..cpu-1 concatenated in worker order are exactly the range min(selection)..max(selection): each page is assigned to exactly one worker.", "quantifier": "every selection range, every cpu count >= 1", "why_tests_cant": "all (range size, cpu) pairs incl. size<cpu and exact multiples", "anchors": ["pdf2docx/converter.py:Converter._parse_pages_per_cpu"]}
{"id": "C10", "title": "Multi-processing gives the same pages as sequential conversion", "statement": "For a contiguous selection for which no worker receives an empty segment, multi-processing conversion makes the same set of pages as the sequential one. Known defects: (a) a selection with holes (pages=[0,5]) converts the holes too; (b) a worker with an empty segment parses the whole document (e.g. 3 selected pages on 4 CPUs); (c) an empty selection raises ValueError.", "quantifier": "every document size, selection, cpu count, per-page parse outcome", "why_tests_cant": "all sizes x cpu counts; defects only appear for specific relations between them", "anchors": ["pdf2docx/converter.py:Converter._parse_and_create_pages_with_multi_processing", "pdf2docx/converter.py:Converter._parse_pages_per_cpu"]}
{"id": "C11", "title": "Multi-processing result is independent of worker scheduling and stale files", "statement": "Whatever the interleaving of the worker processes, and whatever pages-*.json files were left in the working directory by an earlier crashed run, the pages restored by the main process are the ones produced by the workers of this run, and no pages-i.json (i<cpu) is left behind. Known defect: two conversions running concurrently in the same working directory share the file names and can read each other's pages.", "quantifier": "every interleaving of worker writes, every initial content of the working directory", "why_tests_cant": "schedules and leftover states are unbounded", "anchors": ["pdf2docx/converter.py:Converter._parse_and_create_pages_with_multi_processing", "pdf2docx/converter.py:Converter._parse_pages_per_cpu", "pdf2docx/converter.py:Converter.serialize", "pdf2docx/converter.py:Converter.deserialize"]}
{"id": "C12", "title": "Indexing and slicing a Converter behave like the list of pages", "statement": "cv[i] returns the same page as list indexing (negative indexes from the end, IndexError otherwise); cv[a:b] equals the list slice whenever the stop is omitted or non-negative and the start is omitted or non-negative. Known defect: with a negative stop or negative start the result differs from list semantics (cv[0:-1] is empty).", "quantifier": "every page count, index, start, stop", "why_tests_cant": "infinite index space", "anchors": ["pdf2docx/converter.py:Converter.__getitem__"]}
{"id": "C13", "title": "Storing and restoring a Converter reproduces its parsed pages", "statement": "store() contains exactly the finalized pages in page order; restoring that data into a fresh Converter of the same document makes exactly these pages finalized with the same content, and pages not stored stay unparsed; storing again yields the same data. An entry without id goes to the last page. Page contents: every stored page can be read back; a page without floating images in the form the parser leaves it is reproduced exactly (text, formatting, spacing, tables, nested tables, shapes, images); what was read back once is reproduced exactly by any further store/restore; the stored form is plain JSON; table text is the same. Known defects: floating images come back as ordinary blocks and do not reach the document; stream tables come back as lattice tables; pages with a rotation are rotated again; a border detected from a thin filled box gets another box.", "quantifier": "every set of finalized pages, every page content", "why_tests_cant": "all subsets of pages, all nestings of contents", "anchors": ["pdf2docx/converter.py:Converter.store", "pdf2docx/converter.py:Converter.restore", "pdf2docx/page/Page.py:Page.store", "pdf2docx/page/Page.py:Page.restore", "pdf2docx/page/Blocks.py:Blocks.restore", "pdf2docx/text/Line.py:Line.store", "pdf2docx/table/Cell.py:Cell.store"]}
{"id": "C14", "title": "Connected-component search is correct and terminates", "statement": "Given any adjacency list (sets of in-range node indexes) graph_bfs terminates; every group is duplicate free and is exactly the set of nodes reachable from its first member, and every node is in some group. For a symmetric graph the groups are exactly the connected components (a partition), in increasing order of smallest member, whatever the iteration order of the sets. Refuted: for a graph that is not symmetric (which a non-symmetric relation passed to group() produces) the groups may overlap, so an element can be reported twice.", "quantifier": "every finite graph, every set iteration order", "why_tests_cant": "graphs of unbounded size; termination", "anchors": ["pdf2docx/common/share.py:graph_bfs", "pdf2docx/common/share.py:_graph_bfs_from_node"]}
{"id": "C15", "title": "Grouping elements by a pairwise test yields the connected classes", "statement": "Collection.group(fun) (used for paragraphs, columns, images, rows) puts every instance into exactly one group; two instances are in the same group iff they are linked by a chain of pairs (i<j) on which fun is true; within a group the instances are distinct members of the collection.", "quantifier": "every collection and every boolean pair function", "why_tests_cant": "all sizes and relations", "anchors": ["pdf2docx/common/Collection.py:BaseCollection.group"]}
{"id": "C16", "title": "Fast rectangle-intersection agrees with the quadratic definition", "statement": "The divide-and-conquer sweep reports a pair of rectangles only if they overlap (closed in x, open in y); when all left edges are distinct it reports every pair with open overlap in both directions; group_by_connectivity(dx,dy) groups only rectangles connected by chains of pairs less than 2dx / 2dy apart. Refuted: with shared left edges (the normal case for table borders) an overlapping pair may be missed.", "quantifier": "every finite family of rectangles with rational coordinates", "why_tests_cant": "unbounded number of rectangles and relative positions", "anchors": ["pdf2docx/common/share.py:solve_rects_intersection", "pdf2docx/common/share.py:_stab", "pdf2docx/common/Collection.py:BaseCollection.group_by_connectivity"]}
{"id": "C17", "title": "A container's bounding box covers its members", "statement": "For any sequence of append/extend/insert/pop on an element collection with boxes as produced by update_bbox (one decimal, not inverted), the bbox of the owner contains the bbox of every member of positive area, and is the smallest such box when starting from empty; zero-box elements are dropped from the collection; nothing ever shrinks the owner's box. insert puts the element before the nth member (a negative nth counts from the end, out-of-range values are clamped) and keeps the order of the others; pop removes exactly the addressed member, or nothing if there is none. Refuted: a flat member (zero height or width) need not be inside the owner's box.", "quantifier": "every history of append/extend/insert/pop", "why_tests_cant": "unbounded histories", "anchors": ["pdf2docx/common/Collection.py:ElementCollection.append", "pdf2docx/common/Collection.py:ElementCollection._update_bbox", "pdf2docx/common/Element.py:Element.union_bbox", "pdf2docx/common/Collection.py:ElementCollection.insert", "pdf2docx/common/Collection.py:ElementCollection.pop"]}
{"id": "C18", "title": "Alignment tests are symmetric", "statement": "For elements with the same writing direction, a.horizontally_align_with(b), a.vertically_align_with(b), a.in_same_row(b) give the same answer as with a and b exchanged, and every element with positive extent is aligned with itself for factor<1. Known defect: with text_direction considered and mixed directions, the answer depends on the order.", "quantifier": "all boxes, factors in [0,1]", "why_tests_cant": "continuous input space", "anchors": ["pdf2docx/common/Element.py:Element.horizontally_align_with", "pdf2docx/common/Element.py:Element.vertically_align_with", "pdf2docx/common/Element.py:Element.in_same_row"]}
{"id": "C19", "title": "Splitting a collection by a region is a partition", "statement": "split_with_intersection(bbox, threshold) returns two collections which together contain every instance exactly once in original order: those whose share of area inside bbox, rounded to two decimals, is at least the threshold, and the others; it raises exactly if an instance has zero area. contained_in_bbox(bbox) returns exactly the instances wholly inside bbox (and those without extent), in their order. Refuted: with the default threshold 0 the second collection is always empty.", "quantifier": "all collections, boxes, thresholds", "why_tests_cant": "continuous input space, any size", "anchors": ["pdf2docx/common/Collection.py:ElementCollection.split_with_intersection", "pdf2docx/common/Collection.py:ElementCollection.contained_in_bbox"]}
{"id": "C20", "title": "Sorting keeps every element and yields reading order", "statement": "sort_in_reading_order / sort_in_line_order permute the collection (nothing lost or duplicated), the result is ordered by (top,left,left-to-right) respectively (left,top), equal elements keep their relative order, and sorting twice is the same as sorting once.", "quantifier": "all collections of elements", "why_tests_cant": "all permutations of any size", "anchors": ["pdf2docx/common/Collection.py:ElementCollection.sort_in_reading_order", "pdf2docx/common/Collection.py:ElementCollection.sort_in_line_order"]}
{"id": "C21", "title": "Colour value / component round trips", "statement": "For every colour value 0<=v<2^24 the three components returned are in 0..255 and recombine to v; for every integer triple in 0..255 converting components r/255 to a value and back gives the triple; for components in [0,1] the resulting value lies in 0..2^24-1 and differs by less than 1/255 per channel. Values outside the range are characterised (7+ hex digits read the wrong digits).", "quantifier": "all 2^24 values, all rational component triples", "why_tests_cant": "continuous/large domain", "anchors": ["pdf2docx/common/share.py:rgb_component", "pdf2docx/common/share.py:rgb_to_value", "pdf2docx/common/share.py:rgb_value"]}
{"id": "C22", "title": "Gray, RGB and CMYK describe the same colours consistently", "statement": "rgb_value of one gray component g equals that of (g,g,g); CMYK (0,0,0,k) equals gray 1-k; CMYK (c,m,y,0) equals RGB (1-c,1-m,1-y); every CMYK value in [0,1]^4 is in 0..2^24-1; key=1 is black; any other number of components gives black.", "quantifier": "all component values", "why_tests_cant": "continuous domain", "anchors": ["pdf2docx/common/share.py:rgb_value", "pdf2docx/common/share.py:cmyk_to_rgb"]}
{"id": "C23", "title": "Splitting a text span with a shape never loses or reorders text", "statement": "When a span is split by the area of a text-style shape, the texts of the resulting spans concatenate to the original text, no resulting span is empty, and all parts keep font, size and colour; for text laid out in one row exactly the characters more than half covered get the (at most one) new style, in the colour of the shape. Over the whole text-format step, for all blocks, lines and shapes, every line keeps its characters with boxes and attributes and its inline images in order, and only styles are added. Refuted: zero-width characters make the style shift to characters far from the shape; a span the shape touches without covering half a character loses part of its box.", "quantifier": "every span (any number of characters, any geometry), every shape", "why_tests_cant": "all overlaps of all spans with all rectangles", "anchors": ["pdf2docx/text/TextSpan.py:TextSpan.split", "pdf2docx/text/TextSpan.py:TextSpan._parse_text_format", "pdf2docx/text/Lines.py:Lines.parse_text_format", "pdf2docx/text/TextBlock.py:TextBlock.parse_text_format", "pdf2docx/page/Blocks.py:Blocks.parse_text_format"]}
{"id": "C24", "title": "Stripping a line only removes redundant blanks", "statement": "strip() on spans removes nothing but white space, from the two ends only, and reports whether it removed anything; two or more blanks at the start are reduced to one white character, and so are two or more at the end when the start needs no stripping. Refuted: 'both ends are stripped' - the right end is skipped whenever the left end was changed.", "quantifier": "all span lists, all texts", "why_tests_cant": "all strings", "anchors": ["pdf2docx/text/Spans.py:Spans.strip", "pdf2docx/text/TextSpan.py:TextSpan.lstrip", "pdf2docx/text/TextSpan.py:TextSpan.rstrip"]}
{"id": "C25", "title": "Joining lines preserves text that does not overlap", "statement": "Sorting the lines of a paragraph keeps them all and puts clearly separated rows in order, each row from left to right; joining keeps all spans of all lines in sorted order, except of lines that overlap the line before them by at least the threshold; each resulting line stands for consecutive lines pairwise in one row, each but the first within the merging threshold of its predecessor; one row of such close lines becomes a single line. Refuted: a line may be dropped because it overlaps a line that was itself dropped; in every row but the first one, the first line is never joined with its right neighbour; lines of vertical text are joined in reverse reading order.", "quantifier": "all line lists, geometries and thresholds", "why_tests_cant": "unbounded lists and continuous geometry", "anchors": ["pdf2docx/text/Lines.py:Lines.join", "pdf2docx/text/Lines.py:Lines.sort"]}
{"id": "C26", "title": "Paragraph alignment is always decided, from the rows and the container", "statement": "Parsing a text block never fails and always decides left/right/center/justify: LEFT with tab stops when a row has a wide gap or the rows share no edge or middle, JUSTIFY when three or more rows share both edges (first and last row exempt on one side), LEFT / RIGHT / CENTER when they share only that, otherwise by the distances to the container. The spaces kept are these distances to one decimal, never negative; tab stops exist exactly in the undecided case, one for each line starting at least a point right of the block. Refuted: the left indent handed to Word may be negative; centred rows are moved to the centre of the container.", "quantifier": "all text blocks, containers, line lists, thresholds and iteration orders of Python sets", "why_tests_cant": "continuous geometry", "anchors": ["pdf2docx/text/TextBlock.py:TextBlock.parse_horizontal_spacing", "pdf2docx/text/TextBlock.py:TextBlock._internal_alignment", "pdf2docx/text/TextBlock.py:TextBlock._external_alignment"]}
{"id": "C27", "title": "Line spacing conserves the vertical extent of the paragraph", "statement": "For n rows, parse_line_spacing makes before_space + n*line_space equal to the original before_space plus the block height (plus the height of the first line for a single row), never makes before_space negative, keeps the bottom of the first row in place if space before remains, and gives no negative line_space when the block is at least as high as its first line; it fails only for blocks without lines; Word is told to use exactly this line spacing unless the paragraph holds a picture. Refuted: a single row whose first line is lower than the block loses height; a first line higher than the block gives negative spacing.", "quantifier": "all blocks, line lists and initial spacings", "why_tests_cant": "continuous inputs, any number of lines", "anchors": ["pdf2docx/text/TextBlock.py:TextBlock.parse_line_spacing", "pdf2docx/text/TextBlock.py:TextBlock.make_docx"]}
{"id": "C28", "title": "Cells of a parsed table form a rectangular grid bounded by the drawn lines", "statement": "From the strokes of a table, the structure has the same number of cells in each row, strictly increasing row and column coordinates, every cell (with its merged extent) bounded by grid coordinates inside the table, and a border line on all four sides of the box spanned by the strokes. When lines are clearly separated every stroke is kept on exactly one line, with exactly the strokes near it. Known defects: averaging can make two lines collide and lose strokes, chains of near lines are merged, a header rule above the columns erases the strokes of the first row, and a single column line raises IndexError.", "quantifier": "all stroke sets, clearances and border widths accepted by the structure parser", "why_tests_cant": "unbounded sets of strokes with real coordinates", "anchors": ["pdf2docx/table/TableStructure.py:TableStructure._group_h_v_strokes", "pdf2docx/table/TableStructure.py:TableStructure._check_outer_strokes", "pdf2docx/table/TableStructure.py:TableStructure._init_cells"]}
{"id": "C29", "title": "Merged-cell counts are exact and stay inside the table", "statement": "For every pattern of inner borders (strokes of a line ordered by start), the merge count of a cell is 0 when its leading border is absent and otherwise the number of cells up to the next present border; counts of a row sum to the number of columns when the row starts with a border, likewise for columns, and merged regions never extend beyond the table. Known defect: strokes of an inner line listed in another order can hide a drawn border.", "quantifier": "all stroke sets, table sizes and border patterns", "why_tests_cant": "2^n patterns for unbounded n", "anchors": ["pdf2docx/table/TableStructure.py:TableStructure._count_merged_cells", "pdf2docx/table/TableStructure.py:TableStructure._check_merged_cells", "pdf2docx/table/TableStructure.py:TableStructure._check_merging_status"]}
{"id": "C30", "title": "Merged cells partition the grid", "statement": "When the borders bound rectangular regions, each grid position belongs to exactly one cell, so each position's content goes to exactly one docx cell. Known defects: for other patterns two merged cells overlap, or a position belongs to no cell.", "quantifier": "all table sizes and border patterns", "why_tests_cant": "2^(n*m) patterns", "anchors": ["pdf2docx/table/TableStructure.py:TableStructure._check_merging_status", "pdf2docx/table/TableBlock.py:TableBlock.make_docx"]}
{"id": "C31", "title": "Implicit table borders end near their valid range, once", "statement": "Whatever sequence of finalisation requests (by value, by stroke, by layout) is served for the candidate borders of a stream table, a border is fixed at most once, within one point of its valid range, and never changes afterwards; explicit unclassified strokes have priority over shadings and layout, a visible border copies position and style of a stroke of its direction, a stroke is marked as border only if it gave a border its position, and the layout step fixes every open border whose range is well separated. Known defects: the layout step may leave a border open (its position is then the middle of its range); a stroke lying entirely beyond one end of a border still fixes it.", "quantifier": "all candidate ranges, strokes, shadings, request histories and set iteration orders", "why_tests_cant": "unbounded histories and continuous values", "anchors": ["pdf2docx/table/Border.py:Border.finalize_by_value", "pdf2docx/table/Border.py:Border.finalize_by_stroke", "pdf2docx/table/Border.py:Borders.finalize", "pdf2docx/table/Border.py:Borders._finalize_by_layout"]}
{"id": "C32", "title": "Text lines are distributed over tables without loss or duplication", "statement": "When the tables of a page do not overlap, assigning blocks to tables places every line of every text block exactly once: in the cells of one table or back on the page; images and blocks outside tables stay on the page in order. Known defect: with overlapping tables a line can be placed twice.", "quantifier": "all blocks and all pairwise disjoint table boxes", "why_tests_cant": "continuous geometry, unbounded sizes", "anchors": ["pdf2docx/page/Blocks.py:Blocks.assign_to_tables", "pdf2docx/page/Blocks.py:Blocks._assign_block_to_tables"]}
{"id": "C33", "title": "Characters are distributed over cells without loss", "statement": "A character crossing the border of two cells is assigned to at least one of them; a character fully inside a cell to exactly that one. Known defects: a character at a four-cell junction may be lost; one cut exactly in half is duplicated.", "quantifier": "all character boxes and cell boxes", "why_tests_cant": "continuous geometry", "anchors": ["pdf2docx/table/Cell.py:Cell.add", "pdf2docx/text/TextSpan.py:TextSpan.intersects"]}
{"id": "C34", "title": "Docx body never has adjacent tables nor ends with a table", "statement": "For any sequence of pages of text blocks, images, lattice tables and stream tables, the generated document body has a paragraph between any two consecutive tables and does not end with a table, and shows every text/image block and table exactly once, in order, in the section of its page; a cell's content also ends with a paragraph. A table preceded by a table or by a gap of at least 0.7pt gets a dummy paragraph whose height is the gap rounded down to 0.1pt. Known defect: k tables at the end of a page are followed by k extra paragraphs instead of one.", "quantifier": "all block sequences", "why_tests_cant": "unbounded sequences", "anchors": ["pdf2docx/page/Blocks.py:Blocks.make_docx"]}
{"id": "C35", "title": "Page margins stay within the page and Word's default limit", "statement": "Computed margins are each between 0 and 72pt (1 inch) for all margin factors >=0, equal the default 72pt for an empty page, and left/right/top never exceed the distance between the page edge and the content when the content is within the page; the bottom margin may exceed it only by rounding (at most 0.05pt). With negative factors margins may exceed the free space.", "quantifier": "all page sizes, content boxes, factors in [0,1]", "why_tests_cant": "continuous input space", "anchors": ["pdf2docx/page/Page.py:Page._cal_margin"]}
{"id": "C36", "title": "User settings override defaults and nothing else", "statement": "For each conversion parameter the value used is the user's when given and the documented default otherwise, independent of earlier calls with other settings; unknown keys are kept and harmless.", "quantifier": "all dictionaries of settings, all earlier calls", "why_tests_cant": "all key combinations and histories", "anchors": ["pdf2docx/page/Page.py:Page.init_settings", "pdf2docx/page/Page.py:Page.parse"]}
{"id": "C37", "title": "Strokes are normalised", "statement": "A stroke drawn along an axis always starts at its left/top end whatever direction it was drawn in, its box is the segment thickened by half its width on all sides (rounded to 0.1pt), and store/restore preserves it; a fill no thicker than the maximum border width converts to a stroke with the same box and colour. Known defects: a line rising by less than 0.001pt counts as horizontal but runs from right to left; a stroke whose box was set afterwards is restored with a different box.", "quantifier": "all start/end points and widths", "why_tests_cant": "continuous input", "anchors": ["pdf2docx/shape/Shape.py:Stroke"]}
{"id": "C38", "title": "A vector path is split into connected groups and its strokes are the drawn edges", "statement": "Splitting a path keeps every item exactly once in drawing order; a group is one rectangle or a connected run of lines and curves, broken only where the path is disconnected. Strokes are the edges of lines (path width) and rectangles (twice the width), plus one closing line per group of two or more items of a closed path; fills are the boxes of the groups' points. Rectangles, single axis-parallel lines and rectangles drawn by lines are kept for tables, slanted lines are not. Known defects: two perpendicular lines drawn as one open path, and lines of width zero, are dropped.", "quantifier": "all item lists, widths and colours", "why_tests_cant": "unbounded lists with real coordinates", "anchors": ["pdf2docx/shape/Path.py:Segments", "pdf2docx/shape/Path.py:Path._group_segments", "pdf2docx/shape/Path.py:Path.to_shapes", "pdf2docx/shape/Paths.py:Paths.restore"]}
{"id": "C39", "title": "Merging shapes covers the originals", "statement": "clean_up partitions the shapes that meet the page and are long enough into groups of one colour, each replaced by one shape with the smallest box around the group; hyperlinks stay alone; apart from that only thin fills become strokes. Known defects: lines thinner than the 0.1pt rounding vanish; a border swallows a fill of its own colour that it half overlaps.", "quantifier": "all shape lists", "why_tests_cant": "unbounded lists, continuous geometry", "anchors": ["pdf2docx/shape/Shapes.py:Shapes.clean_up", "pdf2docx/shape/Shapes.py:Shapes._merge_shapes"]}
{"id": "C40", "title": "Every shape is classified exactly once", "statement": "Every stroke is a candidate for text style and, unless it lies inside a text line, for a table border; every fill is a shading if it lies behind text and a highlight otherwise; a hyperlink is in no class. The classes depend on the positions only, not on the order of the blocks.", "quantifier": "all shapes and text layouts", "why_tests_cant": "continuous geometry", "anchors": ["pdf2docx/shape/Shapes.py:Shapes.detect_initial_categories"]}
{"id": "C41", "title": "Image bytes survive serialisation", "statement": "The image bytes stored as base64 text in the JSON layout and decoded on restore are identical to the original bytes, for inline and for floating images; the stored text consists of base64 characters only; raw bytes from the PDF are used unchanged.", "quantifier": "all byte strings", "why_tests_cant": "all byte strings of any length", "anchors": ["pdf2docx/image/Image.py:Image.store", "pdf2docx/image/Image.py:Image.__init__", "pdf2docx/image/Image.py:Image.from_image"]}
{"id": "C42", "title": "Re-parsing a page gives the same result as parsing it once", "statement": "Parsing a page again with the same settings, any number of times, leaves the same layout and margins as a single parse; after a failed parse a successful one repairs the page. Known defects: floating images accumulate (each re-parse duplicates them), the hyperlinks are those of the first parse that got that far, and if the source contents cannot be extracted a page parsed earlier stays finalized with its old contents.", "quantifier": "all page contents, any number of re-parses", "why_tests_cant": "unbounded histories", "anchors": ["pdf2docx/page/Page.py:Page.parse", "pdf2docx/page/Blocks.py:Blocks.reset", "pdf2docx/page/Blocks.py:Blocks.identify_floating_images", "pdf2docx/shape/Shapes.py:Shapes.hyperlinks"]}
{"id": "C43", "title": "Containment test of elements agrees with geometry", "statement": "Element.contains(e, threshold) is true whenever e has positive area and lies inside the element (threshold <= 1); when it is true, at least threshold of e's area (up to the rounding to two decimals) lies inside and e is at most 1pt longer along the element's main direction; it is false for elements apart from it and for elements without area.", "quantifier": "all pairs of boxes, all thresholds", "why_tests_cant": "all real-valued geometry; rounding boundaries", "anchors": ["pdf2docx/common/Element.py:Element.contains"]}
{"id": "C44", "title": "Main bounding box of two elements", "statement": "get_main_bbox(e, threshold) returns the smallest box covering both elements exactly when their common area is positive and at least threshold times the smaller area (threshold > 1e-6), and None otherwise; it never divides by zero on ordered boxes.", "quantifier": "all pairs of boxes, all thresholds", "why_tests_cant": "all real-valued geometry", "anchors": ["pdf2docx/common/Element.py:Element.get_main_bbox"]}
{"id": "C45", "title": "Colours written to the docx are legal and denote the value", "statement": "For every 24-bit colour value the colour text written for cell shading, underline and text shading consists of exactly six hexadecimal digits denoting that value; text shading uses one of Word's named highlights exactly for the six saturated colours red, green, blue, yellow, pink and turquoise. Values of 2^24 or more give a longer, illegal colour text.", "quantifier": "all colour values", "why_tests_cant": "2^24 values (and unbounded larger ones); tests look at a few", "anchors": ["pdf2docx/common/docx.py:set_char_shading,set_char_underline,set_cell_shading"]}
{"id": "C46", "title": "One docx section per page with that page's geometry", "statement": "Making n>=1 pages into a new document yields exactly n sections, the k-th with width, height and margins of the k-th page, whatever the content of the pages (including empty ones).", "quantifier": "all lists of pages and contents", "why_tests_cant": "all page sequences; depends on the invariant that every page leaves a paragraph in the body", "anchors": ["pdf2docx/page/Page.py:make_docx", "pdf2docx/page/Blocks.py:make_docx"]}
{"id": "C47", "title": "Floating images are anchored once and on their own page", "statement": "Each floating image of a page is anchored exactly once in the document, in page order; it is anchored in the section of its own page if every page after the first contains at least one text block or table. Known defect: images of a page that has only floating images are anchored in the section-break paragraph of the previous page.", "quantifier": "all page sequences and image lists", "why_tests_cant": "all combinations of pages with and without flow content", "anchors": ["pdf2docx/page/Blocks.py:make_docx", "pdf2docx/page/Page.py:make_docx"]}
{"id": "C48", "title": "Shapes are distributed over tables without loss or duplication", "statement": "When tables have been found, each line or filled area of the page either stays on the page or is handed to exactly one table, the first one whose box contains it; borders and shadings that already form a table stay where they are; nothing is lost or duplicated.", "quantifier": "all shape lists and table boxes", "why_tests_cant": "depends on every arrangement of shapes and tables", "anchors": ["pdf2docx/shape/Shapes.py: Shapes.assign_to_tables"]}
{"id": "C49", "title": "What a drawn shape means for the text under it", "statement": "A shape of undetermined kind over a span makes it highlighted (at least half as tall, not white, covering three quarters of the smaller area), underlined (thin, within a quarter of the text height of its bottom edge), struck (thin, between 35% and 75% of the height above the bottom) or nothing, in the colour of the shape; hyperlinks always carry their uri; shapes determined as border, shading or text style are not applied again. Refuted: a shape used as underline in one block can become undetermined again and strike the text of the next block.", "quantifier": "every span and shape geometry, colour and direction; every sequence of blocks", "why_tests_cant": "continuous geometry; the kind depends on the history of blocks the shape was offered to", "anchors": ["pdf2docx/text/TextSpan.py:TextSpan._parse_text_format", "pdf2docx/text/TextBlock.py:TextBlock.parse_text_format", "pdf2docx/page/Blocks.py:Blocks.parse_text_format"]}
{"id": "C50", "title": "Word shows a paragraph at its horizontal position", "statement": "For a left-aligned paragraph, Word starts the first line and the other lines within twice the alignment threshold (plus 1/20 pt) of their PDF position, shifted left by the first-line indent if this is positive; for every other paragraph all lines have the same indents, and the aligned side is within 1/20 pt of its distance to the container. Refuted: a positive first-line indent moves the whole paragraph to the left; a justified paragraph loses its indent; vertical text gets the indent with the wrong sign.", "quantifier": "all blocks, containers and thresholds", "why_tests_cant": "continuous geometry, any number of rows", "anchors": ["pdf2docx/text/TextBlock.py:TextBlock.parse_horizontal_spacing", "pdf2docx/text/TextBlock.py:TextBlock.make_docx"]}
{"id": "C51", "title": "A Word paragraph contains all spans of its lines, in order, with breaks only between rows", "statement": "The items of a paragraph are, line by line, some tabs, the spans of the line in order, and a break if the line is flagged; no tab without tab stops. A line is flagged only if the next line is in another row, and then exactly if its free room exceeds the threshold or the next line is blank; the step is defined for every block of nonzero length. Refuted: a block of zero length with two rows raises a division by zero.", "quantifier": "all paragraphs and thresholds", "why_tests_cant": "any number of lines and spans", "anchors": ["pdf2docx/text/Lines.py:Lines.parse_line_break", "pdf2docx/text/Lines.py:Lines.make_docx", "pdf2docx/text/Line.py:Line.make_docx"]}
{"id": "C52", "title": "Tabs bring the lines of an unaligned paragraph to their places", "statement": "In horizontal text without a common alignment, the tabs written before the first line of every row lead, in Word, to within one point of its PDF position. Refuted: the third line of a row gets no tab although a stop is at its place (the offset is counted twice); vertical text never gets tabs.", "quantifier": "all blocks and line lists", "why_tests_cant": "continuous positions, any number of stops", "anchors": ["pdf2docx/common/docx.py:add_stop", "pdf2docx/text/Lines.py:Lines.make_docx", "pdf2docx/text/TextBlock.py:TextBlock.parse_horizontal_spacing"]}
{"id": "C53", "title": "Font size, bold and italic of a run are kept", "statement": "The run written for a span is bold/italic exactly according to its flags, its size is a multiple of half a point within a quarter point, and character scale times size is the original size unless the difference is below one percent; defined for all sizes above 1/4. Refuted: superscript is never written; a size of at most 1/4 raises a division by zero; the scale may be a non-integer percentage.", "quantifier": "all flags and sizes", "why_tests_cant": "continuous sizes", "anchors": ["pdf2docx/text/TextSpan.py:TextSpan._set_text_format"]}
{"id": "C54", "title": "Border and shading of a cell come from the strokes and fills on it", "statement": "Each side of a cell takes the first stroke sharing at least 5 pt with it, provided such strokes cover three quarters of the side and have one colour, and no border otherwise; the shading is the first fill containing (90%) the inside of the cell. A side shorter than 5 pt never has a border.", "quantifier": "all cells, stroke lists and fill lists", "why_tests_cant": "real-valued lengths, arbitrary lists", "anchors": ["pdf2docx/table/TableStructure.py:CellStructure.parse_borders", "pdf2docx/table/TableStructure.py:CellStructure.parse_shading", "pdf2docx/table/TableStructure.py:CellStructure._get_border_stroke"]}
{"id": "C55", "title": "Two-column pages get a layout table that separates the columns", "statement": "A page gets a layout table exactly when every element across the centre line lies above or below all column elements; it is then one row of two cells meeting at the centre line, and each column element lies inside the cell of its side. Known defects: a page without column elements gets a spurious table at its corner, and the cells reach 5 pt into the neighbouring full-width lines.", "quantifier": "all page boxes and lists of element boxes", "why_tests_cant": "unbounded element lists with real coordinates", "anchors": ["pdf2docx/table/TablesConstructor.py:TablesConstructor.page_layout_table"]}
{"id": "C56", "title": "The table written keeps rows, columns and cell positions of the structure", "statement": "If every row has at least one cell with extent, the table block has the rows, row heights and cells of the parsed structure in order, and every merged cell fits into the docx table. Known defects: a row whose cells are all merged away is dropped, and a cell spanning it then lies outside the table, which raises IndexError, or later rows are shifted.", "quantifier": "all parsed structures", "why_tests_cant": "unbounded tables and merge patterns", "anchors": ["pdf2docx/table/TableStructure.py:TableStructure.to_table_block", "pdf2docx/table/TableBlock.py:TableBlock.make_docx", "pdf2docx/table/Cell.py:Cell.make_docx"]}
{"id": "C57", "title": "Paths are either handed on as shapes or reported as graphics, by group", "statement": "Connected paths form groups; the shapes are exactly those of the axis-parallel paths of groups whose share of other paths does not exceed the setting, and graphics are reported exactly when some group exceeds it. If all paths are axis-parallel everything is handed on. Known defect: a slanted line in a mostly axis-parallel group is neither shape nor graphic.", "quantifier": "all lists of paths, all ratios, all set orders", "why_tests_cant": "unbounded lists", "anchors": ["pdf2docx/shape/Paths.py:Paths.to_shapes", "pdf2docx/shape/Paths.py:Paths.contains_curve", "pdf2docx/shape/Paths.py:Paths._to_iso_paths"]}
{"id": "C58", "title": "Stream tables: structure from text lines", "statement": "For any text lines the recursion that finds implicit borders terminates; every vertical white gap between lines holds a drawn full-height border between the top and the bottom border; the four outer borders enclose the lines (to one point) within the free area around the table, limited by neighbouring blocks; every stroke drawn is axis-parallel and ends on two borders of the other direction. Known defects: reference borders are duplicated; the limit above is the last block above in reading order, not the nearest.", "quantifier": "all text lines, strokes, shadings, page blocks and set iteration orders", "why_tests_cant": "unbounded number of lines, recursive splitting, continuous geometry, set order", "anchors": ["pdf2docx/table/TablesConstructor.py:TablesConstructor.stream_tables", "pdf2docx/table/TablesConstructor.py:TablesConstructor._stream_strokes", "pdf2docx/table/TablesConstructor.py:TablesConstructor._inner_borders", "pdf2docx/text/Lines.py:Lines.group_by_columns", "pdf2docx/table/Border.py:Border.to_stroke"]}
{"id": "C59", "title": "Font names: subset prefix and style suffix removed, localised names found", "statement": "The font name written to the document is the PDF name without subset prefix (ABCDEF+) and without the part after the first hyphen; a name that is in the table of localised fonts, ignoring case, spaces, hyphens and underscores, is replaced by the localised name; the result contains no comma; doing it again changes nothing unless the name has a comma. Known defects: a name with a comma (e.g. 'Sim,Sun') can turn into another font the second time; font families whose name itself contains a hyphen are cut.", "quantifier": "all font names", "why_tests_cant": "all strings", "anchors": ["pdf2docx/text/TextSpan.py:TextSpan.font", "pdf2docx/common/constants.py:DICT_FONTS"]}
{"id": "C60", "title": "Cleaning up a page keeps every visible piece of contents exactly once", "statement": "When a page is loaded, every visible character and image of the blocks that meet the page and run horizontally or vertically ends up, exactly once, either in a text block or among the floating images; nothing of the other blocks is left; a line disappears only if it overlaps another line by more than the threshold. Only images become floating, each with its own box, and only if they lie on another line by more than the gap; the text blocks left are strictly one below the other. Known defects: of two overlapping lines one is lost with its text; whether an image behind text is recognised as floating depends on unrelated contents if left edges coincide, and then the text on it is lost.", "quantifier": "all page contents (blocks, lines, spans, characters, images), all set iteration orders and thresholds", "why_tests_cant": "arbitrary arrangements of arbitrarily many overlapping blocks", "anchors": ["pdf2docx/page/Blocks.py:Blocks.clean_up", "pdf2docx/page/Blocks.py:Blocks.identify_floating_images", "pdf2docx/page/Blocks.py:Blocks.join_horizontally", "pdf2docx/text/Lines.py:Lines.join"]}
{"id": "C61", "title": "Pictures, graphics and links of a page all reach the raw page", "statement": "For every pdf page: the blocks handed to the parser are the blocks of the page in their order and places (text untouched) followed by the extracted pictures that have no block; every extracted picture has an image at its place; if pictures at one place have the same contents and each contents is extracted once, every occurrence of a picture shows exactly the extracted bytes, and a picture that was not extracted is dropped and never restored. Every picture of the page resources that meets the page is extracted once; every contour of vector graphics lies in exactly one picture which is exactly the box around its contours; exactly the links to internet addresses are taken over. (Finding: of two different pictures at the same place one is lost.)", "quantifier": "all block lists, extracted pictures, hash functions of image contents, contour lists, set iteration orders and link lists", "why_tests_cant": "which picture wins depends on order, duplicates, rounding and hash grouping of arbitrary many pictures; sample pdfs have a few", "anchors": ["pdf2docx/page/RawPage.py:RawPage._preprocess_images", "pdf2docx/page/RawPage.py:RawPage._preprocess_hyperlinks", "pdf2docx/image/ImagesExtractor.py:ImagesExtractor.extract_images", "pdf2docx/image/ImagesExtractor.py:ImagesExtractor.extract_vector_graphics"]}
{"id": "C62", "title": "Cutting a picture out of a page hides its text and changes nothing else", "statement": "Before an area of a page is rendered to a picture, its contents streams are rewritten. If the letters BT, Tm, Td occur in a stream only as operators, the new stream is the old one with the operator that makes text invisible inserted after each of them, and all text is shown invisibly unless the page sets the text mode itself; streams of other pages are untouched. (Findings: text containing these letters is altered for every later parse with the same Converter, streams shared by pages are altered for all of them, the streams grow with every picture, and pages that set the text mode keep their text in the picture.)", "quantifier": "all contents streams (token sequences of any length), all documents and pages", "why_tests_cant": "depends on arbitrary contents of streams and the history of renderings", "anchors": ["pdf2docx/image/ImagesExtractor.py:ImagesExtractor._hide_page_text", "pdf2docx/image/ImagesExtractor.py:ImagesExtractor._clip_page"]}
{"id": "C63", "title": "Vertical places of the blocks of a page or cell", "statement": "Set by Word one below the other with the spaces computed by parse_spacing, every paragraph and table ends exactly where it ended in the PDF, provided paragraphs have several rows or fill their box and tables do not overlap what is above, are at least 1pt below another table and end inside the container; for text alone no condition on gaps or overlaps is needed. With the rounded numbers that are written, the shift stays within (rows+1)/20 pt per paragraph and 0.7 pt per table. No space is negative; the computation fails only for text without lines or tables without cells. A table at the end, and only there, loses 1pt in its last row. Refuted: rows of less than 1pt keep a valid height; tables are always set at their place.", "quantifier": "all containers, lists of blocks, row counts, sizes and gaps", "why_tests_cant": "unbounded block lists with continuous positions; errors accumulate down the page", "anchors": ["pdf2docx/page/Blocks.py:Blocks.parse_spacing", "pdf2docx/text/TextBlock.py:TextBlock.parse_line_spacing", "pdf2docx/page/Blocks.py:Blocks.make_docx"]}
{"id": "C64", "title": "Splitting joined text back into the blocks of the pdf loses, repeats and mixes nothing", "statement": "After table parsing the text blocks of a page whose lines run on are taken apart and put together again by the pdf block each line came from. For any page this step succeeds; every text line is afterwards in exactly one block, once; tables and blocks with spaced-out lines stay as they are; each new block holds lines of exactly one pdf block, in text order, with the exact hull of their boxes as its box; lines of one pdf block end up together; lines standing next to each other in one block are never put into two blocks; and the blocks are in reading order.", "quantifier": "all pages, i.e. all lists of text blocks and tables with proper boxes, all thresholds, all iteration orders of Python sets and all identities of the new blocks", "why_tests_cant": "the regrouping is a transitive closure over all lines of the page; a finite set of pages cannot show that no arrangement loses or mixes lines", "anchors": ["pdf2docx/page/Blocks.py: Blocks.split_back", "pdf2docx/text/Lines.py: Lines.split_back, Lines.is_flow_layout", "pdf2docx/text/Line.py: Line.same_source_parent"]}
{"id": "C65", "title": "Candidates for stream tables are exactly the runs of blocks that look like table parts", "statement": "The groups of lines handed to stream table parsing are the maximal runs of neighbouring blocks that are level with a neighbour, have lines that do not run on, or lie in a coloured rectangle; all lines of such a block are taken, nothing else, without coloured rectangles exactly once, and a page of plain paragraphs one above the other yields no candidate at all.", "quantifier": "all lists of blocks with proper boxes and at least one line, all coloured rectangles, all thresholds and set iteration orders", "why_tests_cant": "the loop carries state (row started, rectangle reached) over arbitrarily many blocks, so each history of preceding blocks matters", "anchors": ["pdf2docx/page/Blocks.py: Blocks.collect_stream_lines", "pdf2docx/text/Lines.py: Lines.is_flow_layout"]}
{"id": "C66", "title": "The nested layout holds what was on the page, in reading order", "statement": "Parsing the layout of a page (page layout table, bordered tables, stream tables, text, and recursively each cell) never makes up content: each character and picture of the result, at any depth, was on the page with the same format, and each format added to it (underline, strike, highlight, link) is that of a shape of the page in the colour of that shape; shapes keep place, colour and order and are at most given a meaning; each shape handed to a cell meets that cell; on the page and in each cell, at any depth, the blocks are in reading order; of groups of borders in one another only the outermost become tables; a page (or cell) of plain running text is left as it is up to such formats - no table, nothing lost, doubled or raised. Refuted: text may be written twice (block 95% in one cell), lines around a framed line of the same block come before it, a black shaded paragraph loses its shading, a page whose lines all cross the middle gets an empty table above its top, and a group of borders may be dropped though it lies in no other.", "quantifier": "all pages, shapes, settings, iteration orders of sets and depths of nesting", "why_tests_cant": "nesting depth, number of blocks and shapes and their arrangement are unbounded, and the result depends on set iteration orders", "anchors": ["pdf2docx/page/Layout.py:Layout.parse", "pdf2docx/table/TablesConstructor.py:TablesConstructor", "pdf2docx/page/Blocks.py:Blocks.assign_to_tables", "pdf2docx/shape/Shapes.py:Shapes.assign_to_tables", "pdf2docx/table/TableBlock.py:TableBlock.parse", "pdf2docx/table/Cell.py:Cell.assign_shapes"]}
{"id": "C67", "title": "Pictures and ruled areas are left out of the search for vector graphics", "statement": "When a page contains vector graphics, before they are searched for, every pixel in (or within two pixels of) the box of an axis-parallel path or of a picture is painted white, so that tables and pictures are not taken for graphics a second time; all other pixels stay as rendered. Holds for boxes that keep two pixels away from the left and the upper edge of the page. Findings: a box that reaches the upper or left edge is not left out at all (a negative slice bound counts from the end of the page), and of a picture that fills the page only the last two rows and columns are.", "quantifier": "all pages sizes and pixel contents, all lists of path areas and blocks with any boxes", "why_tests_cant": "Tests render a few sample pages whose pictures lie well inside the page; the claim is about every box and pixel, and fails exactly for boxes at the page edge.", "anchors": ["pdf2docx/page/RawPage.py:_preprocess_shapes", "pdf2docx/image/ImagesExtractor.py:_detect_svg_contours"]}
{"id": "C68", "title": "A table drawn with lines is recognised with its grid, merged cells, borders and text", "statement": "Strokes that draw a closed frame with horizontal and vertical lines between, more than a few points apart, in whatever order, are recognised as one table: its box is the frame, it has one row (column) per space between neighbouring lines, each cell reaches up to the next lines drawn and is merged over exactly the rows and columns between, has these lines' widths and colours as borders, and every line is marked as a border. When the lines cut the frame into rectangles, the cells are exactly these rectangles, and text lying in them goes into the cell it lies in, none lost or doubled. Finding the table as one is proved for frames whose horizontal lines start at the left side; it is refuted for several tables on one page with different left sides (a line of an ordinary ruled table can be lost) and for inner lines meeting at corners.", "quantifier": "over all positions and numbers of lines (any rows, columns), all merge patterns, all line widths and colours, all orders of the strokes, all iteration orders of sets, all fills and settings", "why_tests_cant": "the recognition is a sequence of heuristics (connected groups found by a sweep, lines grouped by rounded positions, missing outer sides simulated, merge counts read off crossings); tests fix a few drawings, the claim is about every grid and merge pattern", "anchors": ["pdf2docx/table/TableStructure.py:TableStructure.parse", "pdf2docx/table/TablesConstructor.py:lattice_tables", "pdf2docx/common/Collection.py:group_by_connectivity", "pdf2docx/page/Blocks.py:assign_to_tables"]}
{"id": "C69", "title": "Merged cells, borders and contents of a table reach the Word table", "statement": "For a table whose cells divide the grid into rectangles (in particular any table recognised from drawn lines), writing it never fails and the Word table has the same rows and columns; Word shows exactly the rectangles as cells; each shown cell has the contents, borders, shading, text direction and width of its source cell, the continued parts of a merged cell are empty, and read in file order the contents are those of the cells row by row. If extents of cells overlap (known from C68), Word shows one big cell and text is hidden.", "quantifier": "all grid sizes, all divisions into rectangles, all cell contents, borders and shadings", "why_tests_cant": "the merging is done cell by cell on a table that changes under it; its correctness is an invariant over every division of the grid and every position in the writing order", "anchors": ["pdf2docx/table/TableBlock.py:TableBlock.make_docx", "pdf2docx/table/Row.py:Row.make_docx", "pdf2docx/table/Cell.py:Cell.make_docx", "pdf2docx/table/Cell.py:Cell._set_style", "pdf2docx/common/docx.py:set_cell_border", "pdf2docx/common/docx.py:set_cell_margins", "pdf2docx/common/docx.py:set_cell_shading"]}
{"id": "C70", "title": "The Word document holds the text of all pages, in order, in any nesting of tables", "statement": "For pages of text blocks and tables whose cells divide their grid into rectangles, with tables in cells to any depth, make_docx never fails: the document has one section per page, and each section, read in file order and into tables row by row, shows exactly the characters and pictures of its page, in the order of the parsed blocks, with all floating pictures anchored. At every depth no two tables touch and every cell ends with a paragraph; the document does not end with a table. Whatever the tables, a document that is written has a paragraph at the end of every cell and no character that was not on the page, nor a format that is not that of the character or of a shape of the page. If cells overlap, a cell can remove the text of another without any error.", "quantifier": "every list of parsed pages, every nesting depth, every size and division of the tables, every contents", "why_tests_cant": "nesting depth and the combinations of tables, merged cells, empty cells and adjacent tables are unbounded; a test fixes one document", "anchors": ["pdf2docx/page/Blocks.py:make_docx", "pdf2docx/table/Cell.py:make_docx", "pdf2docx/table/Row.py:make_docx", "pdf2docx/table/TableBlock.py:make_docx", "pdf2docx/text/TextBlock.py:make_docx", "pdf2docx/page/Page.py:make_docx", "pdf2docx/converter.py:make_docx"]}
{"id": "C71", "title": "extract_tables: shape and text of the tables", "statement": "For a parsed page, extract_tables returns one two-dimensional list per table at the top level of the page that is bordered (or per any table if extract_stream_table is set), in page order, with the rows and columns of the table and None exactly at the places of merged cells other than their first. But for white space, the string of a cell without nested tables is all of its text in reading order, pictures standing as '<image>' (a nested table is '<NEST TABLE>'); each line of the page is one line of the string; and it is the same text the Word document has in that table. (Found: spaces at the ends of differently formatted parts of a line are lost, so words run together.)", "quantifier": "every list of blocks of a parsed page, every table with any merged cells and any content", "why_tests_cant": "the tables, the merging and the text and formatting inside the cells are arbitrary; losing one character or shifting one cell shows only for particular contents", "anchors": ["pdf2docx/page/Page.py:extract_tables", "pdf2docx/table/TableBlock.py:text", "pdf2docx/table/Cell.py:text", "pdf2docx/text/TextBlock.py:text", "pdf2docx/text/Line.py:text", "pdf2docx/image/Image.py:text", "pdf2docx/converter.py:extract_tables"]}
{"id": "C72", "title": "A piece of text becomes one Word run with its text, font, colours, marks and link", "statement": "Each text span is written as one run whose text is the span's text (line ends as breaks), with exactly one font name (also for Asian text), colour, half-point size, bold and italic setting, those of the span; it is struck through, highlighted, underlined exactly if a shape of that kind covers it, in that shape's colour; it is a link exactly if it lies under a link and is not blank, then as a whole and to the target of the first link. Writing fails exactly for characters XML does not allow or sizes up to a quarter point. (Found: one control character loses the rest of the page; two underlines give two underline elements; the text of a link is in an inner run without the formatting.)", "quantifier": "every text span: any characters, font, size, flags, colour and any list of styles", "why_tests_cant": "combinations of styles, their order and colours and all characters are unbounded; properties may overwrite or duplicate each other only in particular orders", "anchors": ["pdf2docx/text/TextSpan.py:make_docx", "pdf2docx/text/TextSpan.py:_set_text_format", "pdf2docx/common/docx.py:add_hyperlink", "pdf2docx/common/docx.py:set_char_scaling", "pdf2docx/common/docx.py:set_char_shading", "pdf2docx/common/docx.py:set_char_underline"]}
{"id": "C73", "title": "From the raw page to the Word document: paragraphs stay paragraphs, nothing is made up", "statement": "For any pages of paragraphs only (lines of text beneath each other, in blocks beneath each other, without drawings and not in columns), given in any order, parsing and make_docx do not fail, and the document has one section per page, of the size of the page, that shows exactly one Word paragraph for each block of the pdf, from the top to the bottom, with the same characters and formats in the same order, no table and no picture. For any pages whatever (tables, columns, pictures, drawings), if the conversion succeeds, each visible character or picture in a section of the document was on the page of that section, its added formats come from drawings or links of that page, and each floating picture was on a page.", "quantifier": "every number of pages, every order of the blocks, every text, size and place of the lines, every iteration order of Python sets, every setting with a positive float_layout_tolerance and a line_overlap_threshold above 1e-6", "why_tests_cant": "the property composes clean-up, table detection, splitting, spacing and writing; tests compare single documents", "anchors": ["pdf2docx/page/Page.py:parse", "pdf2docx/page/Page.py:make_docx", "pdf2docx/page/Layout.py:parse", "pdf2docx/page/Blocks.py:clean_up", "pdf2docx/page/Blocks.py:parse_spacing", "pdf2docx/page/Blocks.py:split_back", "pdf2docx/converter.py:make_docx"]}
{"id": "C74", "title": "Word sets the paragraphs of a page where the PDF had them", "statement": "For every PDF whose pages are paragraphs of left-to-right lines beneath each other (text only: no pictures, no drawings, no columns, text inside the page): each page becomes a section of exactly the page's width and height whose left, right and top margins keep clear of every line (the bottom one to 0.05 pt); set one below the other from the top margin, with the spaces and line spacings written to the document, the rows of each paragraph end where its last line ended on the PDF page, up to half a tenth of a point for each row and space written so far; a left-aligned or justified paragraph starts at its left edge and a right-aligned or justified one ends at its right edge to 0.05 pt, a single centred line stays within the centring threshold of its place, and the only difference between the first and the other lines is the indent between the first two lines.", "quantifier": "all such pages, in any number and order, any block order in the PDF, any set iteration order, any parameters with overlap threshold and float tolerance positive and margin factors in [0,1]", "why_tests_cant": "Positions result from the composition of clean-up, margins, re-grouping, spacing and rounding over arbitrarily many paragraphs; rounding drift accumulates, and only an argument over all pages bounds it.", "anchors": ["pdf2docx/page/Page.py: parse, make_docx, _cal_margin, working_bbox", "pdf2docx/page/Blocks.py: parse_spacing", "pdf2docx/text/TextBlock.py: parse_horizontal_spacing, parse_line_spacing, make_docx"]}
{"id": "C75", "title": "Links, underlines, strikes and highlights reach exactly the characters they cover", "statement": "For every PDF whose pages are paragraphs of left-to-right lines beneath each other and whose drawings and links are formats of that text (each clear of a text or clearly over it): the conversion succeeds, each paragraph becomes one paragraph with the same characters in the same order, and a character gets, after its own formats, exactly the formats of the drawings and links that cover more than half of it - underline, strike, highlight with the colour of the drawing, link with the address of the link - and no other.", "quantifier": "all such pages in any number, any number of characters, drawings and links, any block order in the PDF, any set iteration order, any parameters with positive overlap and float thresholds", "why_tests_cant": "Each drawing splits the runs that earlier drawings left, through a pipeline of clean-up, classification, splitting and re-grouping; only an induction over arbitrary sequences of drawings shows that no format is lost, misplaced or invented.", "anchors": ["pdf2docx/text/TextSpan.py: split, _parse_text_format", "pdf2docx/text/TextBlock.py: parse_text_format", "pdf2docx/text/Lines.py: parse_text_format", "pdf2docx/page/Layout.py: _parse_text_format", "pdf2docx/shape/Shapes.py: text_style_shapes, detect_initial_categories", "pdf2docx/page/Page.py: parse, make_docx"]}
{"id": "C76", "title": "A page with a ruled table becomes that table, its text in the same cells", "statement": "For every page whose drawn lines form the grid of a table (any number of rows and columns, any merged cells whose rectangles the lines cut the frame into) with paragraphs or pictures in its cells, above it and below it (clear of the lines, the table across the middle of the page): parsing and make_docx do not fail, and the document is exactly the paragraphs above, in order, one Word table, the paragraphs below. The table has the rows of the grid, as high as its lines are apart; every place of it shows the cell it belongs to on the page; that cell is as wide as drawn, has the four lines on its sides as borders with their width and colour, and contains exactly the paragraphs and pictures that lie in it, with the same characters and formats in order. (Found: a character of no width in a line going through several cells is written into each of them.)", "quantifier": "every grid of lines and every division of it into cells, every number and content of paragraphs, every order of strokes and blocks in the PDF, every set iteration order, settings in the stated ranges", "why_tests_cant": "The result is the composition of clean-up (which joins texts of one row across cells), table detection, assignment to cells, recursion into the cells, splitting back, spacing and the writing of merged cells; tests compare single documents.", "anchors": ["pdf2docx/page/Page.py:parse", "pdf2docx/page/Page.py:make_docx", "pdf2docx/page/Layout.py:parse", "pdf2docx/table/TablesConstructor.py:lattice_tables", "pdf2docx/table/TableStructure.py:parse", "pdf2docx/page/Blocks.py:assign_to_tables", "pdf2docx/table/Cell.py:make_docx", "pdf2docx/table/TableBlock.py:make_docx", "pdf2docx/page/Blocks.py:split_back"]}
{"id": "C77", "title": "Pictures and links of the Word file point to the right things", "statement": "Whatever pictures and links a conversion writes, in whatever order: in the resulting package no two relations, image parts or drawing numbers have the same name, every picture leads to a stored image with exactly its own bytes, every link to its own address, in the order written; identical pictures are stored once, nothing is stored that was not on a page, and everything python-docx put into the new document is kept. Saving works exactly if XML allows all characters of all addresses. Refuted: one such address and the whole document is lost although every page was written.", "quantifier": "all sequences of pictures (in the text and floating; recognised, unknown or broken) and links, all initial packages of python-docx with any numbering of relations", "why_tests_cant": "names are allocated one after the other depending on everything written before; sequences are unbounded", "anchors": ["pdf2docx/common/docx.py: add_image, add_float_image, _CT_Anchor, add_hyperlink", "pdf2docx/image/Image.py: Image.make_docx", "pdf2docx/image/ImageBlock.py: ImageBlock.make_docx", "pdf2docx/converter.py: make_docx"]}
{"id": "C78", "title": "Pictures get their width and their place from the PDF page", "statement": "A picture python-docx recognises is written (unless over 2 million points), as wide as on the PDF page to one English Metric Unit, with the proportions of the picture file to half a unit; a floating one at its place on the PDF page to one unit. One in the text that is not recognised is left out and nothing else is. Refuted: a picture stretched on the PDF page loses its height; an unrecognised floating picture ends the page with an exception instead.", "quantifier": "all pictures, boxes, proportions and packages", "why_tests_cant": "continuous sizes and places, truncation and rounding, any picture file", "anchors": ["pdf2docx/common/docx.py: add_image, add_float_image", "pdf2docx/image/Image.py: Image.make_docx", "pdf2docx/image/ImageBlock.py: ImageBlock.make_docx"]}
{"id": "C79", "title": "A page that cannot be written does not harm the others", "statement": "Whatever pages raise an exception while they are written, and wherever in the page: each page still has its own section with its own size and margins, in order; a page that does not raise is complete, and one that does shows exactly its blocks up to the one that raised (its floating pictures likewise); no two tables touch, and the document ends with a paragraph unless the last page raised in a block. Refuted: when the first page raises in a table at its very start, the second page takes over its section and the rest of the table stands in front of it; when the last page raises in a table, the document ends with the table.", "quantifier": "all page lists, any set of raising pages and any block or floating picture in which each raises", "why_tests_cant": "every combination of failing pages and failure points, in documents of any length", "anchors": ["pdf2docx/converter.py: make_docx", "pdf2docx/page/Page.py: make_docx", "pdf2docx/page/Blocks.py: make_docx"]}
{"id": "C80", "title": "Pages that are shown turned are read as they are seen", "statement": "A page with /Rotate 90, 180 or 270 is read as the reader sees it: every character, picture and nested box lies at the place at which it is seen on the turned page, inside the turned page size, and text counts as running left to right, bottom to top or otherwise as it is seen; the result is the page an upright page with the seen boxes gives. The rotation of one page never leaks into another: whatever was parsed, failed or restored before and after, in any order and from any documents of the process, a page holds what reading it alone gives; restoring stored pages is exact in a process that read upright pages only. Not so: vector graphics of a turned page are turned twice, and text in a nameless font on a turned page is moved.", "quantifier": "every rotation, page size, raw page in any nesting, character box, writing direction, and every history of parsing and restoring over any pages of a process", "why_tests_cant": "the rotation matrix is global to the process, so every order of pages and restores matters, and the coordinates range over all boxes", "anchors": ["pdf2docx/common/Element.py:Element.set_rotation_matrix, pure_rotation_matrix, __init__", "pdf2docx/page/RawPage.py:RawPage.raw_dict", "pdf2docx/page/Page.py:Page.restore, _load_source", "pdf2docx/text/Line.py:Line.__init__, text_direction", "pdf2docx/text/TextSpan.py:TextSpan.set_font", "pdf2docx/image/ImagesExtractor.py:ImagesExtractor.extract_vector_graphics"]}
{"id": "C81", "title": "Text that cannot be written cuts off its own page only, and exactly there", "statement": "A PDF may hold text that a Word file cannot (characters XML forbids, in the text or a font name; text of no size). make_docx reports the page and goes on. Whatever the pages hold: the document still opens in Word, has one section for each page, in order, with the page's own size; a page without such text is complete (text, tables, inline and floating pictures), whatever happened on the other pages; of a page with such text everything before its first such piece is there in order (also when it is inside a cell of a table inside a cell), followed by at most a prefix of this piece, and nothing after it; nothing is invented, repeated or moved to another page. If there is no such text the document is that of the failure-free writer. Not so: that only the offending characters are lost; the rest of the page is lost with them.", "quantifier": "every list of pages of paragraphs, pictures and regular tables in any nesting, any text, any font names and link targets, any number of pieces that cannot be written anywhere (except in a first-page table right at the top of the page)", "why_tests_cant": "A test tries a few bad characters in a few places; the claim is about every place in every nesting of tables and every combination of failing pages.", "anchors": ["pdf2docx/converter.py: Converter.make_docx", "pdf2docx/page/Page.py: Page.make_docx", "pdf2docx/page/Blocks.py: Blocks.make_docx", "pdf2docx/text/TextBlock.py: TextBlock.make_docx", "pdf2docx/text/TextSpan.py: TextSpan.make_docx", "pdf2docx/table/Cell.py: Cell.make_docx", "pdf2docx/table/Row.py: Row.make_docx", "pdf2docx/common/docx.py: add_hyperlink"]}
{"id": "C82", "title": "A page of the PDF is one page of the Word document", "statement": "For pages of paragraphs beneath each other (as in C74): the document has as many sections as pages, and on each of them all rows of all paragraphs end above the bottom margin, with room for anything of a given height below (such as the paragraph that holds the section break), whenever the part of the free space below the text that is not made bottom margin (half of it by default) has room for it and for the roundings of the numbers written (half a tenth of a point for each row and space). The same for any paragraphs and tables below each other that parse_spacing can place (C63). Not so: that no blank pages appear; a page whose text ends closer to the edge of the page than about twice the height of a line of the template gets one, because the paragraph with the section break does not fit.", "quantifier": "every list of pages, text, number and size of paragraphs and lines, page size, margin factors between 0 and 1; every list of blocks with tables", "why_tests_cant": "Whether the sum of rounded spaces and line heights stays on the page depends on every block of the page; tests can look at a few pages only and have no Word to lay them out.", "anchors": ["pdf2docx/page/Page.py: Page._cal_margin, Page.make_docx", "pdf2docx/page/Blocks.py: Blocks.parse_spacing", "pdf2docx/text/TextBlock.py: TextBlock.parse_line_spacing, make_docx", "pdf2docx/converter.py: Converter.make_docx"]}
{"id": "C83", "title": "Text in table cells keeps its place and is not cut off", "statement": "For every page with a ruled table (any rows, columns and merged cells) and paragraphs in its cells, the Word table has, in the cell over each cell of the page, one paragraph per paragraph of that cell; set by Word below the upper line of the cell, each ends where it ended on the page up to the rounding of spacings to tenths of a point, and starts/ends at its left/right edge according to its alignment between the lines of the cell. Row heights are exact, so text that does not fit is hidden: text is never hidden if it was above the bottom line of its cell with room for the roundings - and, in the last row of a table at the end of a page, for one more point (text closer than that is cut off).", "quantifier": "all pages with a ruled grid of any number of rows and columns and any merged cells, all paragraphs of any number of lines in the cells, every settings value allowed by the distances of the lines, every iteration order of sets", "why_tests_cant": "a test checks a few tables; the place of each paragraph is the sum of all spacings, roundings and row heights before it, for any number of rows, merged cells and lines", "anchors": ["pdf2docx/layout/Blocks.py: Blocks.parse_spacing, _parse_block_vertical_spacing", "pdf2docx/table/Cell.py: Cell.working_bbox, make_docx", "pdf2docx/table/Row.py: Row.make_docx", "pdf2docx/text/TextBlock.py: TextBlock.parse_horizontal_spacing, make_docx"]}
{"id": "C84", "title": "Every character keeps its look from the page to the Word file", "statement": "For pages of paragraphs (also with links, underlines, strikes and highlights on the text) and pages with a ruled table, the Word document is written, and paragraph by paragraph, cell by cell and character by character, what is found in its runs has the code (a carriage return is a line break), font name, size (to half points), bold, italic and colour of the character in the PDF; it is struck through, highlighted and underlined, in the colours drawn, and linked, exactly where a drawing or link lies over it.", "quantifier": "all such pages and documents of them, texts, fonts, sizes, colours, drawings over the text, settings in the stated ranges and orders of set iteration", "why_tests_cant": "the attributes go through span splitting, line and block grouping, table cells and run writing; a test sees a few files, the claim is about every character of every such page", "anchors": ["pdf2docx/text/TextSpan.py: TextSpan.make_docx, _set_text_format, split, intersects", "pdf2docx/text/Line.py: Line.make_docx", "pdf2docx/text/TextBlock.py: TextBlock.make_docx", "pdf2docx/table/TableBlock.py: TableBlock.make_docx", "pdf2docx/page/Page.py: Page.parse, make_docx"]}
{"id": "C85", "title": "Pictures between paragraphs stay in the flow, pictures on text float", "statement": "For every document whose pages are paragraphs and pictures beneath each other, plus pictures that overlap the text (or each other) by more than the ignorable gap: parsing and make_docx do not fail; section by section the document has exactly the paragraphs and the pictures between them, in order, each as one paragraph with the same characters and the same picture; the overlapping pictures, and only these, become floating pictures, each exactly once, the ones of an earlier page first; sections have the size and margins of their pages. A picture in a cell of a ruled table is shown in that cell.", "quantifier": "every number of pages, paragraphs and pictures, every order of the blocks in the PDF, every set iteration order, every gap >= 0 and settings in the stated ranges", "why_tests_cant": "whether a picture floats depends on all other lines of the page through the sweep over box edges, grouping and set order; tests look at single pages", "anchors": ["pdf2docx/page/Blocks.py:clean_up", "pdf2docx/page/Blocks.py:_identify_floating_images", "pdf2docx/common/algorithm.py:solve_rects_intersection", "pdf2docx/page/Page.py:parse", "pdf2docx/page/Page.py:make_docx", "pdf2docx/image/ImageSpan.py:make_docx"]}
{"id": "C86", "title": "A ruled table and the text around it are set in their places", "statement": "For every page with a ruled table and paragraphs of text above and below it (all inside the page, the frame in the writing area and below the text above it): the converted page is one section of its size whose margins keep clear of all its text; laid out by Word with the numbers written (spaces, exact line spacings, exact row heights, the empty paragraph before the table), each paragraph above and below the table ends where it did in the PDF and each line of the table is where it was, up to half a tenth of a point per row of text and per space written so far, and, with nothing above the table, up to 0.7 pt; across the page the paragraphs are in their places as in C74, and so are the sides of the cells of the table: left margin, indent of the table and the widths of the cells before it in the row add up to each of them (in rows up to the first cell merged with the one above). (A table at the end of the page is 1 pt shorter, C63.)", "quantifier": "every grid (rows, columns, merged cells), every text above, below and in the cells, every order of strokes and blocks in the PDF, every set iteration order, settings in the stated ranges", "why_tests_cant": "positions are the sum of all spaces, line spacings and heights written before; whether errors accumulate is a statement about every number of paragraphs and rows", "anchors": ["pdf2docx/page/Blocks.py:parse_spacing", "pdf2docx/page/Blocks.py:make_docx", "pdf2docx/text/TextBlock.py:parse_line_spacing", "pdf2docx/table/Row.py:make_docx", "pdf2docx/page/RawPage.py:calculate_margin", "pdf2docx/page/Page.py:make_docx", "pdf2docx/table/TableBlock.py:make_docx", "pdf2docx/common/docx.py:indent_table", "pdf2docx/common/Block.py:parse_horizontal_spacing", "pdf2docx/table/Cell.py:make_docx"]}
{"id": "C87", "title": "Pictures are recovered with their colours, visible where their mask says", "statement": "For every image of a PDF, with or without a soft mask of its size: the picture extracted has the image's size and is gray or RGB (or consists of alpha values only, and is then rendered from the page); without a mask every pixel is as it was; with a mask a pixel is invisible exactly where the mask is 0, and elsewhere opaque, in its colour (converted if not gray or RGB). Extraction raises exactly when the mask has fewer bytes than the image has pixels. (Findings: partly transparent pixels become opaque; smaller masks, which PDF allows, make the page fail; larger masks hide the wrong pixels.)", "quantifier": "every size, every pixel value, every mask, every colour space", "why_tests_cant": "the claim is about every pixel of every picture and mask, of any size; tests compare a few renderings", "anchors": ["pdf2docx/image/ImagesExtractor.py:_recover_pixmap", "pdf2docx/image/ImagesExtractor.py:extract_images"]}
{"id": "C88", "title": "convert, end to end: any selection of pages of a mixed document", "statement": "Converter(pdf).convert(docx, start, end, pages) on a pdf whose selected pages are pages of paragraphs and pictures (some of them lying on text), pages with a ruled table, pages set in two columns (with or without full-width paragraphs above and below them), or pages that cannot be parsed: if at least one of them can be parsed, the call succeeds and the docx has exactly one section per parsed selected page, in the order of the pdf whatever the order or repetition in the selection, each with the size and margins of its page; each section shows the paragraphs and pictures of its page in order, and its table as one Word table with the same cells, widths, borders and texts, or its two columns as the two cells of one borderless row, independent of what the other pages contain; pictures lying on text float, page after page. Pages not selected or not parsed leave no trace. If none can be parsed, the call raises.", "quantifier": "every number of pages, every selection (start/end or list), every mixture of such pages with any texts, grids and pictures, every order of blocks and strokes, every set iteration order", "why_tests_cant": "selections, page contents and their combinations are unbounded; a sample document shows one mixture only", "anchors": ["pdf2docx/converter.py: Converter.convert, parse, make_docx, _page_indexes", "pdf2docx/page/Page.py: parse, make_docx", "pdf2docx/layout/Layout.py: parse"]}
{"id": "C89", "title": "extract_tables, end to end", "statement": "Converter(pdf).extract_tables(start, end, pages) on a pdf whose selected pages are pages of paragraphs and pictures, pages with a ruled table, pages set in two columns (with or without full-width paragraphs above and below them), or pages that cannot be parsed: the call returns, in the order of the pdf, exactly one list of rows for each ruled table on a selected page (with or without extract_stream_table), with the rows and columns of the grid drawn; at the first place of each cell there is the text lying in that cell (its visible characters in order, one line of the string per line of the page), and None at the other places of merged cells; nothing else is returned, except with extract_stream_table the two columns of a page as one row of two strings. (Found: a ruled table on a page of two columns is not returned.)", "quantifier": "every number of pages, every selection, every mixture of such pages with any grids, cells and texts, every order of blocks and strokes, every set iteration order", "why_tests_cant": "grids, merged cells, texts and selections are unbounded; a wrongly shifted or missing cell shows only for particular tables", "anchors": ["pdf2docx/converter.py: Converter.extract_tables, parse, _page_indexes", "pdf2docx/page/Page.py: extract_tables", "pdf2docx/table/TablesConstructor.py: lattice_tables, page_layout_table", "pdf2docx/common/Block.py: is_lattice_table_block, set_lattice_table_block, set_stream_table_block"]}
{"id": "C90", "title": "A page in two columns, end to end", "statement": "A page of nothing but text (and inline pictures) set in two columns, one in each half of the page's working area, with the paragraphs of a column beneath each other: the page converts to one section with one Word table of one row and two cells, without borders or shading; the first cell shows exactly the paragraphs of the left column in their order, the second those of the right one; nothing is lost, doubled or moved to the other column - however lines of the two columns stand beside each other (rows of the page are cut at the middle), provided that no row through both columns lies almost wholly (94.5%) in one of them. (Found: a short line beside a full one that breaks this proviso is written twice.)", "quantifier": "every number of paragraphs and lines in either column, every placement of them, every order of blocks in the pdf, every set iteration order", "why_tests_cant": "the columns are found from the boxes of all lines and the rows of text are re-cut; errors show only for particular placements of lines of the two columns relative to each other", "anchors": ["pdf2docx/table/TablesConstructor.py: page_layout_table", "pdf2docx/table/TableStructure.py: TableStructure", "pdf2docx/layout/Layout.py: Layout.parse, assign_to_tables", "pdf2docx/common/Element.py: contains", "pdf2docx/table/TableBlock.py: make_docx", "pdf2docx/page/Page.py: make_docx"]}
{"id": "C91", "title": "Two columns between full-width paragraphs, end to end", "statement": "A page of text (and inline pictures) in two columns, one in each half of the page's working area, with paragraphs above and below the columns whose lines go across the middle of the page (a title, an abstract, a note) and that are more than 6pt away from the columns: the page converts to one section with the paragraphs above the columns in their order, one Word table of one row and two cells without borders or shading - the left column in the first cell, the right one in the second, each in its order -, and the paragraphs below the columns in their order; nothing is lost, doubled or moved, whatever the order of the blocks in the pdf. (Found: a line across the middle in small print within 5pt of the columns becomes part of the first paragraph of the left column.)", "quantifier": "every number of paragraphs and lines above, below and in either column, every placement of them, every order of blocks in the pdf, every set iteration order", "why_tests_cant": "whether a line belongs to a column, to the text around the columns or to both depends on the boxes of all lines of the page; errors show only for particular placements", "anchors": ["pdf2docx/table/TablesConstructor.py: page_layout_table", "pdf2docx/table/TableStructure.py: TableStructure", "pdf2docx/layout/Layout.py: Layout.parse, assign_to_tables", "pdf2docx/common/Element.py: contains", "pdf2docx/table/TableBlock.py: make_docx", "pdf2docx/page/Page.py: make_docx"]}
