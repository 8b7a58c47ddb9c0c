{"id": "C01", "title": "Source buffer reads are total and positional", "statement": "After any number k of advance() calls on a buffer built from text, get_position() is k, get_char() is the k-th character of the text (or NUL when k is past the end), peek_three_chars() is the k-th, k+1-th and k+2-th such characters, and peeking never moves the position; no call faults however far past the end the index is.", "quantifier": "every text, every number of advances", "why_tests_cant": "A test can only probe finitely many texts and offsets; the off-the-end cases are unbounded.", "anchors": [{"file": "src/parser/source_buffer.rs", "symbols": ["SourceBuffer::new", "get_char", "peek_three_chars", "advance", "get_position"]}]}
{"id": "C02", "title": "get_symbol always returns", "statement": "From every tokenizer state that can arise (any source text, after any number of earlier get_symbol calls, successful or not) get_symbol terminates with a token or an error string; it never loops and never panics.", "quantifier": "every source text and every history of calls", "why_tests_cant": "Termination over all inputs is not testable.", "anchors": [{"file": "src/parser/tokenizer.rs", "symbols": ["get_symbol", "handle_string"]}]}
{"id": "C03", "title": "Tokenising a whole text finishes and end-of-file is absorbing", "statement": "Calling get_symbol repeatedly on any text yields, within 3*len+8 calls, either an EOF token or an error; once EOF has been returned every later call returns EOF at the same position and changes nothing.", "quantifier": "every source text", "why_tests_cant": "A bound on the number of calls for all texts and an infinite future of calls cannot be sampled.", "anchors": [{"file": "src/parser/tokenizer.rs", "symbols": ["get_symbol", "EOF"]}]}
{"id": "C04", "title": "Read position is monotone and in range; no 32-bit counter overflows", "statement": "The read position never decreases from one get_symbol call to the next, never exceeds len+1, and for texts shorter than 2^30 characters every position, indentation column and pending counter stays inside its u32/i32 range, so unchecked += cannot wrap or panic.", "quantifier": "every source text and every history of calls", "why_tests_cant": "Overflow needs inputs of around 2^30 characters.", "anchors": [{"file": "src/parser/tokenizer.rs", "symbols": ["source_buffer", "token_start_position", "pending", "indent_stack"]}, {"file": "src/parser/source_buffer.rs", "symbols": ["advance"]}]}
{"id": "C05", "title": "Token spans are ordered and non-overlapping", "statement": "Every token with a span has start < end (EOF: a single position), its start is not before the end of any token returned by an earlier call, and get_position() after the call equals that start.", "quantifier": "every source text, every pair of calls", "why_tests_cant": "Ordering over all pairs of tokens of all texts.", "anchors": [{"file": "src/parser/tokenizer.rs", "symbols": ["get_symbol", "get_position"]}, {"file": "src/parser/tokens.rs", "symbols": ["Token"]}]}
{"id": "C06", "title": "Tokens and trivia tile the consumed text", "statement": "Full claim: concatenating the trivia and token spans of successive get_symbol calls covers every consumed character exactly once, in order. (The code loses line-leading blanks, which are recorded nowhere; the exact statement that holds is that every character between two successive read positions lies in exactly one trivia span, the token span, or a run of blanks/tabs at the beginning of a line.)", "quantifier": "every source text and every successful call", "why_tests_cant": "Loss of a character is only visible on the inputs that trigger it.", "anchors": [{"file": "src/parser/tokenizer.rs", "symbols": ["trivia_collector", "is_at_beginning_of_line"]}, {"file": "src/parser/trivias.rs", "symbols": ["Trivia"]}]}
{"id": "C07", "title": "Literal, name and comment texts are verbatim source slices", "statement": "The text carried by a name, number or type-comment token and by a comment trivia equals the source slice delimited by its span; for a string token prefix followed by text equals the slice. (For a '0' at the end of the text the code stores an extra NUL and a span one past the end; this is the only case that leaves the source.)", "quantifier": "every source text, every token carrying text", "why_tests_cant": "A dropped or duplicated character may need a particular spelling.", "anchors": [{"file": "src/parser/tokenizer.rs", "symbols": ["AtomName", "AtomNumber", "AtomString", "TypeComment", "Comment"]}]}
{"id": "C08", "title": "Operators and delimiters: maximal munch over the full table", "statement": "When the next significant character starts an operator or delimiter, the token returned is the longest entry of Python's operator table that prefixes the remaining text, its span has exactly that length, and '.' followed by a digit is the only operator prefix that is not taken as an operator.", "quantifier": "every remaining text", "why_tests_cant": "Longest-match must hold for all continuations of each operator.", "anchors": [{"file": "src/parser/tokenizer.rs", "symbols": ["peek_three_chars match arms 268-538"]}]}
{"id": "C09", "title": "Keywords are recognised exactly", "statement": "A word (maximal run of identifier characters) becomes a keyword token iff it is one of the 35 reserved words, with the keyword's own kind; otherwise it is a name or a string prefix; no keyword is recognised inside a longer word.", "quantifier": "every word over the Unicode identifier alphabet", "why_tests_cant": "Infinitely many words.", "anchors": [{"file": "src/parser/tokenizer.rs", "symbols": ["get_symbol 539-648"]}]}
{"id": "C10", "title": "Names are maximal runs of identifier characters", "statement": "A name token's text starts with a letter or underscore, contains only letters, digits (any Unicode alphanumeric) and underscores, and the character after it is not an identifier character, whatever the Unicode tables say above ASCII.", "quantifier": "every text and every Unicode classification", "why_tests_cant": "The Unicode classification is a parameter; tests see one table and few words.", "anchors": [{"file": "src/parser/tokenizer.rs", "symbols": ["get_symbol 539-545"]}]}
{"id": "C11", "title": "Radix literals follow the grammar exactly", "statement": "A number token starting 0x/0o/0b (either case) is accepted iff the remaining text starts with at least one digit of that radix with single underscores only directly before digits; the token text is the longest such prefix; otherwise an error is returned.", "quantifier": "every remaining text", "why_tests_cant": "Underscore placement has unboundedly many variants.", "anchors": [{"file": "src/parser/tokenizer.rs", "symbols": ["get_symbol 649-748"]}]}
{"id": "C12", "title": "Decimal and point-float literals follow the grammar", "statement": "A number token starting with 1-9 or with '.digit' has text digitpart[.[digitpart]][e[+-][digits]][j] (no doubled/trailing underscore), taken maximally; full claim additionally demands at least one exponent digit and no underscore directly after e, which the code does not enforce.", "quantifier": "every remaining text", "why_tests_cant": "Unbounded literals.", "anchors": [{"file": "src/parser/tokenizer.rs", "symbols": ["get_symbol 836-982"]}]}
{"id": "C13", "title": "A literal 0 ends at the zero", "statement": "Full claim: the number 0 followed by a character that cannot continue a number (operator, bracket, blank, newline, end of text) is the one-character token '0', and 0.5 style floats are accepted.", "quantifier": "every continuation of '0'", "why_tests_cant": "The wrong behaviour depends on the following character.", "anchors": [{"file": "src/parser/tokenizer.rs", "symbols": ["get_symbol 750-835"]}]}
{"id": "C14", "title": "Single-line string literals", "statement": "A token for a single-quoted string is opening quote, body, same closing quote; the body contains no line break, no NUL and not that quote; if no closing quote occurs before line end/NUL/end of text the call is an error. The closing quote is the first one (full claim: first unescaped one).", "quantifier": "every remaining text", "why_tests_cant": "Unbounded bodies.", "anchors": [{"file": "src/parser/tokenizer.rs", "symbols": ["handle_string 1036-1056", "get_symbol 983-995"]}]}
{"id": "C15", "title": "Triple-quoted string literals", "statement": "A triple-quoted token runs from the opening three quotes to the first following occurrence of three such quotes, may contain line breaks and the other quote, and if none occurs before NUL/end of text the call returns the error MORE DATA!.", "quantifier": "every remaining text", "why_tests_cant": "Unbounded bodies.", "anchors": [{"file": "src/parser/tokenizer.rs", "symbols": ["handle_string 1007-1035"]}]}
{"id": "C16", "title": "Backslash escapes do not end a string", "statement": "Full claim: a quote preceded by an (unescaped) backslash does not terminate a string literal.", "quantifier": "every string literal with an escaped quote", "why_tests_cant": "Needs a counterexample; unit tests contain none.", "anchors": [{"file": "src/parser/tokenizer.rs", "symbols": ["handle_string"]}]}
{"id": "C17", "title": "String prefixes", "statement": "A word immediately followed by a quote becomes a string prefix iff it is one of r R u U f F and the rf/fr combinations; every other word is a separate token. (Full claim also includes the bytes prefixes b, br, rb.)", "quantifier": "every word and following quote", "why_tests_cant": "Infinitely many words.", "anchors": [{"file": "src/parser/tokenizer.rs", "symbols": ["get_symbol 616-644"]}]}
{"id": "C18", "title": "Brackets nest and close in LIFO order", "statement": "In the sequence of tokens returned from the start of any text, bracket tokens form a prefix of a well-nested word: a closing bracket token is returned only when it matches the most recent unclosed opening bracket, and a non-matching closer is an error.", "quantifier": "every source text, every number of calls", "why_tests_cant": "Unbounded nesting depth and all interleavings.", "anchors": [{"file": "src/parser/tokenizer.rs", "symbols": ["parenthesis"]}]}
{"id": "C19", "title": "No layout tokens inside brackets", "statement": "While any bracket is open, no Newline token is returned and no indentation level is pushed or popped; line breaks there are trivia.", "quantifier": "every source text, every number of calls", "why_tests_cant": "Unbounded nesting and line structure.", "anchors": [{"file": "src/parser/tokenizer.rs", "symbols": ["get_symbol 84-107, 183-236"]}]}
{"id": "C20", "title": "Indent and Dedent tokens balance", "statement": "At any point of any token sequence the number of Dedent tokens never exceeds the number of Indent tokens, the open indentation columns are strictly increasing above 0, and (Indents - Dedents) equals the number of open levels minus levels whose Dedent is still pending.", "quantifier": "every source text, every number of calls", "why_tests_cant": "Invariant over all histories.", "anchors": [{"file": "src/parser/tokenizer.rs", "symbols": ["indent_stack", "pending"]}]}
{"id": "C21", "title": "Every open block is closed at end of file", "statement": "Full claim: when EOF is returned the numbers of Indent and Dedent tokens returned are equal.", "quantifier": "every source text", "why_tests_cant": "Depends on trailing blank lines / missing final newline.", "anchors": [{"file": "src/parser/tokenizer.rs", "symbols": ["get_symbol 110-178"]}]}
{"id": "C22", "title": "A dedent must return to an open level", "statement": "Full claim: a line indented to a column that is neither deeper than the current level nor equal to an open level is rejected with an indentation error.", "quantifier": "every source text", "why_tests_cant": "The error branch exists but reachability is a global question.", "anchors": [{"file": "src/parser/tokenizer.rs", "symbols": ["Inconsistent indentation level"]}]}
{"id": "C23", "title": "Blank and comment lines do not affect layout", "statement": "Full claim: inserting a blank or comment-only line before a line does not change the Indent/Dedent tokens produced for that line.", "quantifier": "every source text and insertion point", "why_tests_cant": "Needs a pair of runs.", "anchors": [{"file": "src/parser/tokenizer.rs", "symbols": ["is_blank_line"]}]}
{"id": "C24", "title": "Newline tokens span exactly the line break", "statement": "Full claim: a Newline token or newline trivia covers exactly the characters CR, LF or CRLF. (Code: CRLF advances three characters and swallows the first character of the next line.)", "quantifier": "every source text", "why_tests_cant": "Width of the span on all continuations.", "anchors": [{"file": "src/parser/tokenizer.rs", "symbols": ["get_symbol 183-236"]}]}
{"id": "C25", "title": "Indentation column is the standard tab-stop computation", "statement": "The indentation column of a line is obtained by reading its leading blanks left to right, a blank adding one and a tab moving to the next multiple of four; an Indent is pending exactly when that column exceeds the current level.", "quantifier": "every mix of leading blanks and tabs, every state", "why_tests_cant": "Unbounded mixes.", "anchors": [{"file": "src/parser/tokenizer.rs", "symbols": ["get_symbol 52-69"]}]}
{"id": "C26", "title": "Comments are never tokens, type comments always are", "statement": "A '#' outside a string starts a run up to the next line break, NUL or end of text; the run becomes a TypeComment token iff it starts with '# type:', otherwise it is comment trivia of the next token.", "quantifier": "every remaining text", "why_tests_cant": "Unbounded comment texts.", "anchors": [{"file": "src/parser/tokenizer.rs", "symbols": ["get_symbol 148-170"]}]}
{"id": "C27", "title": "Backslash line continuation", "statement": "A backslash directly followed by CR, LF or CRLF joins lines: it is recorded as one trivia of exactly that width and produces no Newline token; a backslash followed by anything else is an error.", "quantifier": "every remaining text", "why_tests_cant": "All continuations.", "anchors": [{"file": "src/parser/tokenizer.rs", "symbols": ["get_symbol 238-259"]}]}
{"id": "C28", "title": "Unknown characters are reported and never skipped", "statement": "A character that starts no token yields a lexical error naming its position and itself, the read position does not move, and every later call returns the same error.", "quantifier": "every remaining text, every Unicode classification", "why_tests_cant": "All characters times all later calls.", "anchors": [{"file": "src/parser/tokenizer.rs", "symbols": ["Lexical error"]}]}
{"id": "C29", "title": "Token round trip", "statement": "Rendering any list of keyword, operator, bracket, name, decimal-number and simple string tokens whose brackets nest, separated by single blanks and ended by a newline, and tokenising it returns exactly that list of kinds and texts, then Newline, then EOF.", "quantifier": "every such token list", "why_tests_cant": "Unbounded lists; pairwise interactions.", "anchors": [{"file": "src/parser/tokenizer.rs", "symbols": ["get_symbol"]}]}
{"id": "C30", "title": "Expression parsing terminates", "statement": "Every parse_expressions_* function returns (tree or error) on every tokenizer state; recursion depth is bounded by a linear function of the remaining text.", "quantifier": "every source text, every entry point", "why_tests_cant": "Termination over all inputs.", "anchors": [{"file": "src/parser/expressions.rs", "symbols": ["all parse_expressions_* functions"]}, {"file": "src/parser/parser.rs", "symbols": ["advance"]}]}
{"id": "C31", "title": "Statement and module parsing terminates", "statement": "Full claim: every parse_statements_*/parse_blocks_*/parse_functions_* function returns on every text. (Code: an import statement recurses forever; the theorem that holds is that non-termination implies the parser reached an `import` token at the start of a small statement, and a panic implies it reached the name `match` at the start of a statement.)", "quantifier": "every source text, every entry point", "why_tests_cant": "Termination over all inputs.", "anchors": [{"file": "src/parser/statements.rs", "symbols": ["parse_statements_import_stmt", "parse_statements_stmt"]}, {"file": "src/parser/blocks.rs", "symbols": ["parse_blocks_file_input"]}, {"file": "src/parser/patterns.rs", "symbols": ["parse_patterns_match"]}]}
{"id": "C32", "title": "Accepted inputs are derivable in the grammar and the tree is their derivation", "statement": "If a parse function succeeds, the tokens it consumed are a sentence of the corresponding Python (LL(1)) grammar rule and the returned tree is the derivation of exactly those tokens with every keyword/operator/bracket in its place; documented deviations from the Python grammar are separate productions.", "quantifier": "every source text, every entry point, every depth", "why_tests_cant": "Soundness over an infinite language.", "anchors": [{"file": "src/parser/expressions.rs", "symbols": ["all"]}, {"file": "src/parser/statements.rs", "symbols": ["all"]}, {"file": "src/parser/blocks.rs", "symbols": ["all"]}, {"file": "src/parser/functions.rs", "symbols": ["all"]}]}
{"id": "C33", "title": "No token is lost, duplicated or invented", "statement": "The tokens stored in the tree returned by a parse function are, counted with multiplicity, exactly the tokens it consumed (plus the look-ahead token stored by the input rules).", "quantifier": "every source text, every entry point", "why_tests_cant": "Loss may hide in any rule at any depth.", "anchors": [{"file": "src/parser/nodes.rs", "symbols": ["ASTNode"]}, {"file": "src/parser/expressions.rs", "symbols": ["all"]}, {"file": "src/parser/statements.rs", "symbols": ["all"]}, {"file": "src/parser/blocks.rs", "symbols": ["all"]}]}
{"id": "C34", "title": "Node spans", "statement": "Every tree node's start is the start of its first token and its end is the start of the token following it; children therefore lie inside their parents and siblings do not overlap. (Exception recorded: dictionary/set entries after the first carry the container's start.)", "quantifier": "every source text, every node of the result", "why_tests_cant": "All nodes of all trees.", "anchors": [{"file": "src/parser/nodes.rs", "symbols": ["ASTNode"]}, {"file": "src/parser/tokenizer.rs", "symbols": ["get_position"]}]}
{"id": "C35", "title": "Operator precedence and associativity", "statement": "Parsing the canonical text of any expression tree built from names, numbers, strings, constants, tuples, lists, sets, dictionaries of one or two entries (the parser takes no others), starred elements, comprehensions in parentheses and brackets (whose targets end in a comma or a star: the parser takes no others), yields in parentheses, lambdas with plain and default parameters, attribute access, calls, subscripts, await, power, unary and binary operators, comparisons, not/and/or, conditional and assignment expressions and parentheses gives back exactly that tree; a line of tokens parses to a given tree exactly if the tree obeys the precedences and groupings of the Python language reference and the tokens are those of the tree.", "quantifier": "every expression tree; every line of tokens", "why_tests_cant": "Unbounded trees and operator combinations.", "anchors": [{"file": "src/parser/expressions.rs", "symbols": ["parse_expressions_power ... parse_expressions_test"]}]}
{"id": "C36", "title": "A tokenizer error is never swallowed", "statement": "If module parsing succeeds then every token of the text up to end of file was produced without error and was consumed; an error token met by any statement or binary-operator level makes the parse fail.", "quantifier": "every source text", "why_tests_cant": "All positions of the erroneous token.", "anchors": [{"file": "src/parser/parser.rs", "symbols": ["symbol"]}, {"file": "src/parser/blocks.rs", "symbols": ["parse_blocks_file_input"]}]}
{"id": "C37", "title": "File and eval input consume the whole text", "statement": "parse_blocks_file_input and parse_blocks_eval_input succeed only with the look-ahead at EOF, and the EOF token stored in the tree is that one.", "quantifier": "every source text", "why_tests_cant": "All texts.", "anchors": [{"file": "src/parser/blocks.rs", "symbols": ["parse_blocks_eval_input", "parse_blocks_file_input"]}]}
{"id": "C38", "title": "List order and separator counts", "statement": "In every list node the children are stored in the documented order (reversed source order, except expression lists, test lists, trailers, string parts and assignment chains) and the number of separators is the number of elements or one less (trailing separator).", "quantifier": "every source text, every list node", "why_tests_cant": "Unbounded list lengths.", "anchors": [{"file": "src/parser/expressions.rs", "symbols": ["nodes_list.reverse"]}, {"file": "src/parser/statements.rs", "symbols": ["nodes_list.reverse"]}]}
{"id": "C39", "title": "except and except* are never mixed within one try", "statement": "Full claim: a try statement whose own clauses mix `except` and `except*` is rejected, and one whose clauses do not mix is not rejected for that reason, whatever try statements are nested in its suites.", "quantifier": "every nesting of try statements", "why_tests_cant": "Nested state interplay.", "anchors": [{"file": "src/parser/parser.rs", "symbols": ["except_status"]}, {"file": "src/parser/statements.rs", "symbols": ["parse_statements_try_stmt", "parse_statements_except_clause"]}]}
{"id": "C40", "title": "Decorated definitions parse", "statement": "Full claim: a decorator line followed by a class or function definition is accepted.", "quantifier": "every decorated definition", "why_tests_cant": "The failure is universal, not per input.", "anchors": [{"file": "src/parser/blocks.rs", "symbols": ["parse_blocks_decorator", "parse_blocks_decorated"]}]}
{"id": "C41", "title": "Functions with parameters and async functions parse", "statement": "Full claim: `def f(a, b=1): ...` and `async def f(): ...` statements are accepted.", "quantifier": "every parameter list", "why_tests_cant": "Universal failure.", "anchors": [{"file": "src/parser/blocks.rs", "symbols": ["parse_blocks_parameters", "parse_blocks_typed_args_list"]}, {"file": "src/parser/statements.rs", "symbols": ["parse_statements_async_stmt"]}]}
{"id": "C42", "title": "Displays of any size parse", "statement": "Full claim: `{}` and dictionary/set displays with any number of entries, tuples/lists with a trailing comma are accepted.", "quantifier": "every number of entries", "why_tests_cant": "Unbounded number of entries.", "anchors": [{"file": "src/parser/expressions.rs", "symbols": ["parse_expressions_dictorset_maker", "parse_expressions_testlist_comp", "parse_expressions_atom"]}]}
{"id": "C43", "title": "Slices and call arguments", "statement": "Full claim: `x[a:b]` is accepted with the bracket closing it, calls accept keyword arguments and reject slices.", "quantifier": "every subscript and call", "why_tests_cant": "Shape depends on the token after the second bound.", "anchors": [{"file": "src/parser/expressions.rs", "symbols": ["parse_expressions_trailer", "parse_expressions_subscript"]}]}
{"id": "C44", "title": "assert with message", "statement": "Full claim: `assert a, b` is accepted and `assert a from b` rejected.", "quantifier": "every assert statement", "why_tests_cant": "Needs language-level statement.", "anchors": [{"file": "src/parser/statements.rs", "symbols": ["parse_statements_assert_stmt"]}]}
{"id": "C45", "title": "Every token inside a line is the one the token grammar gives at its position", "statement": "Every token with a span other than Newline and type comments is derivable, kind, length and text, from the text at its start by a declarative token grammar (longest operator, brackets, words, strings, numbers); and wherever that grammar gives a token at the read position inside a line, get_symbol returns exactly it.", "quantifier": "every source text and history of calls; every text at the read position", "why_tests_cant": "Soundness and completeness of the whole token grammar quantify over all texts and all Unicode classifications.", "anchors": [{"file": "src/parser/tokenizer.rs", "symbols": ["get_symbol"]}]}
{"id": "C46", "title": "for loops and comprehensions with plain targets", "statement": "Full claim: `for a in b: c` and `[a for a in b]` are accepted. (The target list is parsed as a list of general expressions, so `a in b` is read as one comparison.)", "quantifier": "every target and iterable", "why_tests_cant": "Whether a target list is accepted depends on the whole expression before `in` and on the token after it.", "anchors": [{"file": "src/parser/expressions.rs", "symbols": ["parse_expressions_exprlist", "parse_expressions_sync_comp_for"]}, {"file": "src/parser/statements.rs", "symbols": ["parse_statements_for_stmt"]}]}
{"id": "C47", "title": "A tree reads back as the tokens it was parsed from", "statement": "Walking any tree returned by a parse in the source order given for each kind of node, with reversed lists turned round, yields exactly the tokens that were consumed, in order: nothing of the text is lost, added or reordered by the tree.", "quantifier": "every source text, every entry function, every result", "why_tests_cant": "All trees of all shapes; depends on the storage order of every node kind.", "anchors": [{"file": "src/parser/nodes.rs", "symbols": ["ASTNode"]}, {"file": "src/parser/expressions.rs", "symbols": ["parse_expressions_*"]}, {"file": "src/parser/statements.rs", "symbols": ["parse_statements_*"]}, {"file": "src/parser/blocks.rs", "symbols": ["parse_blocks_*"]}]}
{"id": "C48", "title": "Every node holds what its production calls for", "statement": "In every tree returned by a parse, every node has the token kinds its production names (an operator node the operator token, a call trailer its two parentheses, ...) and children of the right category: operands bind at least as tightly as the node's operator requires, suites hold statements, an if statement has a test and suites, elif clauses only where allowed, optional tokens appear together with the parts they introduce, lists that must not be empty are not empty, in every list there is one separator between any two elements, with at most one more at the end, and none at the end of lists that cannot end in a separator (the values of a yield in parentheses among them), the targets before 'in' end in a comma or a starred target, the condition of a comprehension is no conditional expression, and no Decorated node and no async def occurs (the function for async def exists, but no statement calls it).", "quantifier": "every source text, every entry function, every node of every result", "why_tests_cant": "All trees of all shapes and nesting depths.", "anchors": [{"file": "src/parser/nodes.rs", "symbols": ["ASTNode"]}, {"file": "src/parser/expressions.rs", "symbols": ["parse_expressions_*"]}, {"file": "src/parser/statements.rs", "symbols": ["parse_statements_*"]}, {"file": "src/parser/blocks.rs", "symbols": ["parse_blocks_*"]}]}
{"id": "C49", "title": "Errors are placed at a token read, and are final", "statement": "When a parse function fails, the error is a SyntaxError naming the start of a token it has read or of the look-ahead it failed at (never before the call's first token, never after the look-ahead); and the failure is final: every other text in which the same tokens stand up to and including that look-ahead is rejected with the same message at the same place, whatever follows.", "quantifier": "every source text, every entry function, every failing call, every continuation", "why_tests_cant": "Quantifies over all texts and over all continuations of a failing text.", "anchors": [{"file": "src/parser/expressions.rs", "symbols": ["parse_expressions_*"]}, {"file": "src/parser/statements.rs", "symbols": ["parse_statements_*"]}, {"file": "src/parser/blocks.rs", "symbols": ["parse_blocks_*"]}, {"file": "src/parser/functions.rs", "symbols": ["parse_functions_*"]}]}
{"id": "C50", "title": "A parse is decided by its tokens and one look-ahead", "statement": "The tree returned by a parse function is determined by the tokens it consumed, their positions and the single token after them: the same call on any other text where these are the same returns the same tree and consumes the same tokens, whatever comes later and whatever was parsed before (except flag of try statements aside).", "quantifier": "every source text, every entry function, every succeeding call, every other text", "why_tests_cant": "Relates all pairs of texts.", "anchors": [{"file": "src/parser/parser.rs", "symbols": ["PythonCoreParser", "advance"]}, {"file": "src/parser/expressions.rs", "symbols": ["parse_expressions_*"]}, {"file": "src/parser/statements.rs", "symbols": ["parse_statements_*"]}, {"file": "src/parser/blocks.rs", "symbols": ["parse_blocks_*"]}]}
{"id": "C51", "title": "The demonstration program reports success", "statement": "The program of main.rs prints its greeting and then \"Oh yeah!\" for every choice of the Unicode tables behind the character tests; it does not print \"Failed!\", panic or fail to end.", "quantifier": "every Unicode table", "why_tests_cant": "A run exercises one table only.", "anchors": [{"file": "src/main.rs", "symbols": ["main"]}]}
{"id": "C52", "title": "Modules of statements are parsed to their structure", "statement": "Take any module built from expression statements, assignments (plain, chained, augmented, annotated), del, pass, break, continue, return, raise, yield, from-imports, global, nonlocal, assert, and if/elif/else, while, for, try/except/else/finally, with, class and def statements with suites on one line or in blocks nested to any depth, within the restrictions the parser has (targets of loops, no parameters, one kind of except at a time). Its text, with any indentation of each block and any blanks between tokens, is accepted, and the tree returned has exactly the structure of that module: every statement belongs to the block it is indented under, every else/elif/except/finally to its statement, every expression to its place. Hence two different modules never have a common text, and printing a module and parsing it gives the module back.", "quantifier": "every module of the tree language, every layout of its lines", "why_tests_cant": "Infinitely many nestings and layouts; a wrong attachment of one clause shows only in particular combinations.", "anchors": [{"file": "src/parser/statements.rs", "symbols": ["parse_statements_stmt", "parse_statements_small_stmt", "parse_statements_expr_stmt", "parse_statements_if_stmt", "parse_statements_try_stmt", "parse_statements_suite"]}, {"file": "src/parser/blocks.rs", "symbols": ["parse_blocks_func_body_suite"]}]}
{"id": "C53", "title": "Exactly the modules of statements", "statement": "For every source text and every module of the tree language of C52: parsing the text succeeds with a tree of that structure if and only if the module keeps the restrictions of the parser and the tokens of the text up to the end of file are the tokens of the module, in order, with at most newline tokens of their own between statements. In particular a returned tree never drops, repeats, reorders or invents a token of the text, and two texts that differ only in blanks, comments, blank lines and widths of indentation have the same module.", "quantifier": "every source text, every module", "why_tests_cant": "An equivalence over all texts and all modules: the direction from the tree back to the text needs every input that could lead to the tree.", "anchors": [{"file": "src/parser/statements.rs", "symbols": ["parse_statements_stmt", "parse_statements_suite"]}, {"file": "src/parser/expressions.rs", "symbols": ["parse_expressions_*"]}, {"file": "src/parser/blocks.rs", "symbols": ["parse_blocks_file_input"]}]}
{"id": "C54", "title": "Layout does not matter", "statement": "For any two source texts whose tokens up to the end of file or the first lexical error have the same kinds and the same texts, whatever their positions, blanks, comments, blank lines, line continuations and widths of indentation, every entry point of the parser behaves alike: both succeed with trees that have the same node variants and the same tokens throughout, each position in one tree corresponding to the position in the other after the same number of tokenizer calls; or both fail with the same message, at corresponding positions; or both panic; or neither returns.", "quantifier": "every pair of source texts, every pair of character tables, every entry point", "why_tests_cant": "It relates two executions for all pairs of texts: comparing some pairs does not exclude a function that inspects a position or trivia on an input not tried.", "anchors": [{"file": "src/parser/blocks.rs", "symbols": ["parse_blocks_file_input", "parse_blocks_eval_input", "parse_blocks_single_input", "parse_blocks_func_type_input"]}, {"file": "src/parser/expressions.rs", "symbols": ["parse_expressions_*"]}, {"file": "src/parser/statements.rs", "symbols": ["parse_statements_*"]}]}
{"id": "C55", "title": "Every text can be written down again in one fixed layout", "statement": "Take any source text without lexical errors and write its tokens down with one space between tokens, one space of indentation for each open block, one line per Newline token and no comments. The new text has the same tokens, every entry point of the parser treats both texts alike (same tree up to positions and trivia, or the same message at corresponding places), and writing down again changes nothing. For an accepted file, expression or function type the tokens to write can be read off the returned tree alone: the tree loses nothing but layout.", "quantifier": "every source text, every character table, every entry point", "why_tests_cant": "It holds for all texts including type comments in brackets, lines after blank lines, unfinished blocks and brackets at the end of file; a sample cannot cover all combinations of tokens that could merge or split when respaced.", "anchors": [{"file": "src/parser/tokenizer.rs", "symbols": ["get_symbol"]}, {"file": "src/parser/blocks.rs", "symbols": ["parse_blocks_file_input", "parse_blocks_eval_input", "parse_blocks_func_type_input"]}]}
{"id": "C56", "title": "Exactly the token sequences of the line grammar", "statement": "A sequence of tokens is what the tokenizer returns for some source text without lexical errors if and only if it keeps these rules: every ordinary token is one of the token grammar; closing brackets match; outside brackets a line consists of at least one token or type comment and a Newline; a line is preceded by at most one Indent, or by at most as many Dedents as there are open blocks; a type comment is followed by a line end, or stands inside brackets; Indent and Dedent are followed by an ordinary token or the end of file; the end of file may come anywhere. The tokens before the first lexical error of any text are the beginning of such a sequence. In particular a Newline token is never first and never follows a Newline, an Indent or a Dedent.", "quantifier": "every sequence of tokens, every source text, every character table", "why_tests_cant": "An equivalence: one direction quantifies over all texts that could produce a sequence, the other needs a text for each sequence.", "anchors": [{"file": "src/parser/tokenizer.rs", "symbols": ["get_symbol"]}]}
{"id": "C57", "title": "Newlines kept by input nodes; interactive input takes simple lines only", "statement": "An accepted file has no newline tokens of its own besides those that end its statements, however many blank lines the text has; an accepted expression or function type input has at most one. An interactive input is accepted only if it is one line of simple statements: no compound statement (if, while, for, try, with, def, class, async, decorated) and no empty line is ever accepted, because the Newline token required after them can never come.", "quantifier": "every source text, every character table", "why_tests_cant": "A statement that no text at all is accepted; trying texts does not exclude the next one.", "anchors": [{"file": "src/parser/blocks.rs", "symbols": ["parse_blocks_file_input", "parse_blocks_eval_input", "parse_blocks_single_input", "parse_blocks_func_type_input"]}, {"file": "src/parser/tokenizer.rs", "symbols": ["get_symbol"]}]}
{"id": "C58", "title": "Accepted texts are Python, up to a list of known departures", "statement": "The tokens of an accepted file, expression or function type input are a sentence of Python's own grammar (the LL(1) grammar of the language reference, written down in EBNF independently of the parser), the tokens read by an accepted interactive input likewise, and what any parser function for an expression or statement reads is a phrase of the rule it is named after — provided the tree shows none of the listed departures. The departures are: a slice whose second separator is not a colon, slices as call arguments, targets looser than operands, defaults after '*' and '**', '/' among class bases, assert ... from, def without parameters, mixed or empty except* clauses. Without that condition the claim is false, for each departure.", "quantifier": "every source text, every character table, every parser state for the functions of phrases", "why_tests_cant": "That nothing outside a context-free grammar is ever accepted is a statement about infinitely many texts; every test shows one.", "anchors": [{"file": "src/parser/expressions.rs", "symbols": ["parse_expressions_*"]}, {"file": "src/parser/statements.rs", "symbols": ["parse_statements_*"]}, {"file": "src/parser/blocks.rs", "symbols": ["parse_blocks_*"]}]}
{"id": "C59", "title": "The accepted language is exactly a context-free grammar", "statement": "A file is accepted with a tree that shows neither of two departures (a slice whose second separator is not a colon, an except* clause) exactly if its tokens form a sentence of a plain EBNF grammar — the parser's own grammar, written rule by rule beside Python's, without any look-ahead — and none of its statements begins with the name 'match'. Expressions and function types likewise, without the last condition; an interactive input exactly if the text begins with the tokens of one line of simple statements. Consequently acceptance depends on the kinds of the tokens alone, and one-token look-ahead never loses a sentence of that grammar.", "quantifier": "every source text, every character table", "why_tests_cant": "Equality of two infinite languages; a test compares them on one text.", "anchors": [{"file": "src/parser/expressions.rs", "symbols": ["parse_expressions_*"]}, {"file": "src/parser/statements.rs", "symbols": ["parse_statements_*"]}, {"file": "src/parser/blocks.rs", "symbols": ["parse_blocks_*"]}]}
{"id": "C60", "title": "A core of Python is always accepted", "statement": "Every sentence of Python's grammar is accepted. This is false of the code (48 rejected sentences, among them functions with parameters, for over a name, keyword arguments, one-element tuples, import). It holds for the sentences of a core grammar, Python's rules with listed alternatives left out: a text whose tokens form such a sentence, no statement beginning with the name 'match', is a sentence of Python and is parsed successfully by the matching entry point.", "quantifier": "every source text, every character table", "why_tests_cant": "Never rejecting any of infinitely many programs of a grammar; a test shows one program accepted.", "anchors": [{"file": "src/parser/expressions.rs", "symbols": ["parse_expressions_*"]}, {"file": "src/parser/statements.rs", "symbols": ["parse_statements_*"]}, {"file": "src/parser/blocks.rs", "symbols": ["parse_blocks_*"]}]}
{"id": "C61", "title": "Error messages say what is the case", "statement": "Every error of the parser is one of 177 listed messages, given at a look-ahead behind the tokens it depends on, and what the message says of this look-ahead, read off its text, is true: after \"Expecting 'w'\" the look-ahead is not the token spelled w, after \"Expecting name literal\", \"Newline\", \"end of file\" and the like it is not a token of that kind, \"Expecting symbol\" is given only where the tokenizer cannot read a token, \"Missing elements between two ','\" at a comma. The position in the message is the start of the look-ahead or of the token that opens the construct named in it, as listed for each message. The claim about the text is false of nine messages (for instance \"Expecting symbol in atom expression!\" is given at a readable token, 'except' and 'except*' are exchanged); for the others it holds.", "quantifier": "every parser function, state, source text and character table", "why_tests_cant": "A message and its place are decided by where in an unbounded input the parse stops; a test checks one message for one input.", "anchors": [{"file": "src/parser/expressions.rs", "symbols": ["parse_expressions_*"]}, {"file": "src/parser/statements.rs", "symbols": ["parse_statements_*"]}, {"file": "src/parser/blocks.rs", "symbols": ["parse_blocks_*"]}, {"file": "src/parser/functions.rs", "symbols": ["parse_functions_*"]}]}
{"id": "C62", "title": "The errors of the tokenizer, exactly", "statement": "After any calls, a call of the tokenizer is an error exactly if, behind the blanks, comments and line breaks that follow, the text has one of these: a character that starts no token; a closing bracket other than the one awaited; a backslash not followed by a line break; a string in single quotes (with or without prefix) reaching the end of the line or text; a string in triple quotes reaching the end of the text; a number with an underscore not between two digits, with no digit after 0x, 0o or 0b, with an underscore behind the point, or with a leading zero. The message and the position in it are the ones listed for that case, the first faulty part of a number deciding. A parser of complete inputs that says it expects a symbol has met one of these right behind the tokens read. That the messages are right about the text is false of two kinds: the message about digits after 0x is given for decimal numbers, and the messages about brackets name the bracket found as the one expected.", "quantifier": "every source text, history of calls and character table", "why_tests_cant": "Each error depends on an unbounded stretch of text (a string or number of any length, any nesting of brackets before it), and that there are no other errors is a statement about all texts.", "anchors": [{"file": "src/parser/tokenizer.rs", "symbols": ["get_symbol", "handle_string"]}]}
{"id": "C63", "title": "Every accepted file is a module, up to listed constructs", "statement": "Take any accepted file. Either its tokens are those of a module of statements in the sense of C52 (and the tree returned is the tree of that module), or its tree contains a node that is one of these: a slice with a colon, a single starred expression in parentheses, a comprehension of a starred element, parameters of a lambda or bases of a class with *, ** or /, an assert with a second part, a type comment, a function without parameter list. The two cases exclude each other, and the same holds for every expression and every statement within any tree the parser returns, for expression inputs and for interactive inputs.", "quantifier": "every accepted source text, every node of its tree", "why_tests_cant": "It says that there is no accepted text of any other shape: a statement about all accepted texts of any size and nesting.", "anchors": [{"file": "src/parser/expressions.rs", "symbols": ["parse_expressions_*"]}, {"file": "src/parser/statements.rs", "symbols": ["parse_statements_*"]}, {"file": "src/parser/blocks.rs", "symbols": ["parse_blocks_*"]}]}
{"id": "C64", "title": "Trees and tokens determine each other", "statement": "Of two accepted inputs (files, expression inputs, function types), read with any character tables, the trees are equal up to positions and trivia exactly if the tokens of the two texts are equal in kind and text: the tree loses nothing of a text but its layout, and layout does not shape the tree. The same holds for what any other parsing function reads from any token on. It is false for one kind of node: the tree does not tell where * and / stand among the parameters of a lambda, the bases of a class or the types of a function type, so that `lambda a, *b: c` and `lambda *b, a: c` have the same tree.", "quantifier": "every two accepted source texts, character tables and amounts of fuel", "why_tests_cant": "It says of every pair of different token sequences that their trees differ; the pairs are unbounded in number and size, and a node that drops a part shows only on the pair that differs in that part.", "anchors": [{"file": "src/parser/nodes.rs", "symbols": ["ASTNode"]}, {"file": "src/parser/expressions.rs", "symbols": ["parse_expressions_*", "parse_expressions_var_args_list"]}, {"file": "src/parser/statements.rs", "symbols": ["parse_statements_*"]}, {"file": "src/parser/blocks.rs", "symbols": ["parse_blocks_*"]}]}
{"id": "C65", "title": "The recursion is no deeper than the nesting of the source", "statement": "The calls of the parsing functions nest no deeper than 40 times the nesting of the tokens plus 34: with that much stack every input function gives the result it gives with any larger stack. The nesting of a place in the text is the number of blocks and brackets open there, plus the words on the way that open a nested operand (**, lambda, if, else, for, a second sign, a second not). The factor is of the right order: k nested parentheses take at least 17*k calls. A long flat text needs no more stack than a short one. This holds for texts without slices only: the parser reads what follows a slice inside it, so that texts of nesting 1 need any depth; for every text the total number of brackets, indents and such words bounds the depth.", "quantifier": "every source text, character table and input function", "why_tests_cant": "How deep the stack gets on all texts of a nesting cannot be sampled: the texts of one nesting are unbounded in length, and stack overflow (an abort, not an error value) shows only on the text that reaches it.", "anchors": [{"file": "src/parser/expressions.rs", "symbols": ["parse_expressions_*", "parse_expressions_subscript"]}, {"file": "src/parser/statements.rs", "symbols": ["parse_statements_*"]}, {"file": "src/parser/blocks.rs", "symbols": ["parse_blocks_*"]}]}
{"id": "C66", "title": "Files written one after the other read as their parts", "statement": "If a source text ends with a line feed that ends a logical line, and the next text begins at the left margin with a line that is neither blank nor a comment (or no block is open at the end of the first), the tokens of both texts together, in kind and content, are the tokens of the first followed by those of the second; and if file_input accepts both with modules m1 and m2, it accepts both together with the module m1 followed by m2. The same holds of any number of texts. Neither condition can be left out: after an open block a leading comment makes the next statement one of the block, and a line ending in CR LF takes the first character of the next text with it.", "quantifier": "every character table and all source texts, in any number, that meet the conditions", "why_tests_cant": "That no state of the tokenizer (indentation, brackets, blank-line flag) and no look-ahead of the parser leaks from one text into the next is a claim about all pairs of texts; a leak shows only for the pair that triggers it, as the two refuted variants do.", "anchors": [{"file": "src/parser/tokenizer.rs", "symbols": ["get_symbol"]}, {"file": "src/parser/blocks.rs", "symbols": ["parse_blocks_*"]}]}
{"id": "C67", "title": "The parser takes linear time", "statement": "Whenever an input function returns, with a tree, a syntax error or a panic, it has made at most 62 calls of parsing functions and rounds of their loops for each token it took from the tokenizer, plus 60; and it has taken no more tokens than the text has up to its end or first lexical error, but one (the end of the text is taken a second time after an unfinished slice). So there is no backtracking and no input takes more than linearly many steps: at most 186 for each character, plus 370. If the whole text is accepted, every token has been taken from the tokenizer exactly once.", "quantifier": "every source text, character table and input function, every result", "why_tests_cant": "Exponential or quadratic behaviour of a recursive descent parser shows only on particular nestings, in correct texts or in texts with an error at the wrong place; a bound for all texts cannot be measured.", "anchors": [{"file": "src/parser/expressions.rs", "symbols": ["parse_expressions_*"]}, {"file": "src/parser/statements.rs", "symbols": ["parse_statements_*"]}, {"file": "src/parser/blocks.rs", "symbols": ["parse_blocks_*"]}, {"file": "src/parser/parser.rs", "symbols": ["advance"]}]}
{"id": "C68", "title": "The tree takes linear space", "statement": "The tree of an accepted module, expression or function type has fewer nodes than twice the tokens of its text, the end of the text counted; so at most 6 for each character, plus 7. The tree any one function of the parser returns has at most twice as many nodes as tokens, plus one.", "quantifier": "every source text, character table, parsing function and starting state of the parser that gives a tree (but the two functions that continue a phrase their caller began, and the one for 'async def')", "why_tests_cant": "A chain of nodes that hold nothing but one another, or a list that is copied at every level, shows only for particular nestings; that no nesting of any of the hundred kinds of nodes does so cannot be sampled.", "anchors": [{"file": "src/parser/nodes.rs", "symbols": ["ASTNode"]}, {"file": "src/parser/expressions.rs", "symbols": ["parse_expressions_*"]}, {"file": "src/parser/statements.rs", "symbols": ["parse_statements_*"]}, {"file": "src/parser/blocks.rs", "symbols": ["parse_blocks_*"]}]}
{"id": "C69", "title": "Only the characters of the text matter of the character tables", "statement": "If two versions of the Unicode tables say the same of the characters above ASCII that occur in a text, its tokens are the same, and every function of the parser started on the text has the same outcome: the same tree, error or panic, and the same state left behind. So nothing depends on the tables for an ASCII text.", "quantifier": "every text, pair of tables, parsing function and amount of fuel", "why_tests_cant": "The tables change with the version of the standard library and cover over a million characters; that no character outside the text is ever looked up, on any path of the tokenizer, cannot be sampled.", "anchors": [{"file": "src/parser/tokenizer.rs", "symbols": ["get_symbol"]}, {"file": "src/parser/parser.rs", "symbols": ["advance"]}]}
{"id": "C70", "title": "The tree is no taller than the nesting of the source, up to a factor", "statement": "The height of a returned tree, and so the stack that walking or releasing it takes, is bounded by the nesting of the source text up to a constant factor, as the depth of the parser's own recursion is. (False: a row of equal operators has a tree as tall as it is long. What holds is a bound by twice the number of tokens.)", "quantifier": "every text, table set, parsing function, result and path in the result", "why_tests_cant": "It bounds a resource for all texts at once, and its refutation needs a family of texts of every length, all accepted.", "anchors": [{"file": "src/parser/expressions.rs", "symbols": ["parse_expressions_arith", "parse_expressions_or_test"]}, {"file": "src/parser/nodes.rs", "symbols": ["ASTNode"]}]}
{"id": "C71", "title": "Calls one after the other lose no token", "statement": "If one parser is called again and again for input (for instance line by line in interactive mode), the trees returned hold every token of the text read, in order, and no error of the tokenizer is passed over. (False: each call begins by advancing, so the symbol at which a call for a simple line has left the parser, be it a token or an error, is lost. All other tokens are kept.)", "quantifier": "every text, table set and sequence of successful calls of input functions on one parser", "why_tests_cant": "Tests make a fresh parser for every input; the loss shows only in sequences of calls, of which there are infinitely many.", "anchors": [{"file": "src/parser/blocks.rs", "symbols": ["parse_blocks_single_input", "parse_blocks_file_input", "parse_blocks_eval_input", "parse_blocks_func_type_input"]}, {"file": "src/parser/parser.rs", "symbols": ["advance"]}]}
{"id": "C72", "title": "A call for input depends on the tokenizer alone", "statement": "The outcome of an input function (tree, error, panic, and where the parser is left) depends only on the state of the tokenizer, not on the current symbol or on the kind of except noted by earlier calls; all other functions but the two called within a try statement do not depend on the latter either. So a parser that has been used is as good as a new one at the same place, for any sequence of calls.", "quantifier": "every pair of parser states with the same tokenizer state, every function, amount of fuel and sequence of calls", "why_tests_cant": "The note about except is mutable state shared by all functions; that it is always reset before it is read, on every path, cannot be sampled.", "anchors": [{"file": "src/parser/parser.rs", "symbols": ["except_status", "advance"]}, {"file": "src/parser/statements.rs", "symbols": ["parse_statements_try_stmt"]}, {"file": "src/parser/blocks.rs", "symbols": ["parse_blocks_*_input"]}]}
{"id": "C73", "title": "The end of the text is final", "statement": "After a successful call for a file, an expression or a function type, which takes the text to its end, the only further calls for input that succeed on the same parser are those for a file; each of them gives the empty file and leaves the tokenizer where it is, and there can be any number of them.", "quantifier": "every text, table set, sequence of calls before and sequence of calls after", "why_tests_cant": "Tests use a parser once; the claim is about all sequences of calls.", "anchors": [{"file": "src/parser/blocks.rs", "symbols": ["parse_blocks_file_input", "parse_blocks_eval_input", "parse_blocks_single_input", "parse_blocks_func_type_input"]}, {"file": "src/parser/tokenizer.rs", "symbols": ["get_symbol"]}]}
{"id": "C74", "title": "Called on and on, the tokenizer comes to rest", "statement": "After an error about an unknown character or a backslash that ends no line every further call gives the same error and moves nothing; after any other error the tokenizer has moved on behind the place it was called at. Whatever the text, and errors or not, after at most three calls for each character and four more every further call gives one and the same answer and moves nothing; this answer is the end marker or one of those two errors, and the end marker is given exactly if none of the errors before was one of them.", "quantifier": "every text, table set and history of calls, with or without errors", "why_tests_cant": "Tests stop at the first error; the claim is about all sequences of calls after errors, at every place of every text.", "anchors": [{"file": "src/parser/tokenizer.rs", "symbols": ["get_symbol"]}]}
