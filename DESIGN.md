# Formal model of PythonCoreRust (tokenizer, parser, main) in Rocq

## What is modelled

Every non-test function of the repository is modelled. Each definition cites file and lines.

| /repo file | model file (rocq/theories) | notes |
|---|---|---|
| src/parser/source_buffer.rs | SourceBuffer.v | index-based buffer as written, plus the (position, remaining text) view used by the tokenizer; both agree (C01) |
| src/parser/trivias.rs, tokens.rs | Token.v | one record for all tokens: kind, span, trivia, payload |
| src/parser/tokenizer.rs | Tokenizer.v | `get_symbol`, `handle_string`, function by function |
| src/parser/nodes.rs | Node.v | the tree type, same constructors and field order |
| src/parser/parser.rs | ParserState.v | lexer + look-ahead + except_status, error monad |
| src/parser/expressions.rs | Expressions.v | all functions |
| src/parser/statements.rs, patterns.rs | Statements.v | all functions |
| src/parser/blocks.rs, functions.rs | Blocks.v | all functions |
| (recursive knot) | Parser.v | fuel-indexed closure of the mutually recursive functions |
| src/main.rs | Main.v | the demonstration program |

Not modelled: `Display`/`Debug`/`Clone` plumbing, `Box` (pure values), the 32-bit width of counters
(C04 gives the bound under which that is exact), wall-clock time and the size of the stack (a stack
overflow is unbounded recursion, i.e. out of fuel for every fuel), the content of the Unicode tables.
The unit tests of the repository are replayed on the model in Conformance.v (tests, not proofs).

## Modelling choices

* `char` is `N` (a Unicode scalar value). `char::is_alphabetic` / `is_alphanumeric` are Rust std's
  definitions (ASCII fast path, tables above 0x7F); the tables are a parameter `U : unicode`
  over which every theorem quantifies. No law about the tables is assumed.
* `u32`/`i32` counters are unbounded.
* `Vec` used as a stack: head of list = last element. `Vec` built with push and later reversed:
  `l ++ [x]`, then `rev`.
* `Result<_, String>`: errors are data (message template + arguments).
* `todo!()` is the distinguished outcome `Panic`. Rust recursion is closed with fuel; running out
  of fuel is the distinguished outcome `Fuel` and every positive theorem excludes it.
* `while` loops of the tokenizer over characters are structural recursion on the remaining text;
  the `'outer`/`'inner` loops use fuel `S (length rest)`, proved sufficient (C02).
* The state after an error is dropped: no function resumes after one. C49 proves errors final.

## Specifications (read these, not the model, to judge the theorems)

| file | content |
|---|---|
| LexSpec.v | histories of calls, tilings, balance of layout tokens, columns of indentation |
| TokenSpec.v | the token grammar: operators, words, strings, numbers, longest match; `plain` texts of tokens |
| RenderSpec.v | source lines written token by token, the tokens such a program must give |
| GrammarSpec.v | the grammar accepted by the parser: inductive, over token sequences with one look-ahead, with the tree of each phrase |
| ParseSpec.v | in which states a parser function may be called; `parsed`, `rejects` |
| TreeSpec.v | how the components of a node lie over the tokens of its phrase |
| SchemaSpec.v | which tokens and kinds of nodes the fields of every node may hold |
| OnlineSpec.v | what a parse depends on, where errors are placed |
| ErrorSpec.v | what error messages say, the list of them |
| BeyondSpec.v | the constructs of accepted texts that have no tree in ExprSpec.v and StmtSpec.v |
| ShapeSpec.v | trees compared without positions and trivia; parameters whose place the tree does not tell |
| LexErrorSpec.v | the errors of the tokenizer, with messages and places |
| ExprSpec.v | expressions: abstract trees (also sets, dictionaries, lambdas, starred elements), levels of precedence, canonical parentheses, tokens, text |
| StmtSpec.v | statements and modules: abstract trees, tokens, lines with any layout, canonical text, the parser's restrictions |
| LayoutSpec.v | tokens and trees up to places and trivia |
| PrintSpec.v, SequenceSpec.v | one fixed layout; the line grammar of token sequences |
| PythonGrammar.v | the grammar of Python (3.8, LL(1), with parenthesised with items and except*) in EBNF, from the language reference |
| CodedGrammar.v, CodedSpec.v | the grammar of the parser in EBNF, rule by rule beside Python's; statements that begin with `match` |
| CoreGrammar.v | the part of Python the parser can be relied on to accept: Python's rules with alternatives left out |
| JoinSpec.v | when a text ends a line, when texts may follow each other |
| Meter.v, MeterExpr.v, MeterStmt.v, MeterBlocks.v, MeterParser.v | the parser over a monad that counts calls, rounds and tokens; the functions are copies of the model's, proved to give the same results |
| TableSpec.v | tables that agree on a text |
| HeightSpec.v | paths down a tree |
| SessionSpec.v | calls one after the other on one parser |
| RepeatSpec.v | when the tokenizer has come to rest |
| FlagSpec.v | outcomes up to the noted kind of `except` |
| DepthSpec.v | a parser with bounded stack; nesting of a place in a token sequence |
| PythonSpec.v | where the parser is known to accept more than Python; which rule each function stands for |

The grammar of GrammarSpec.v is the grammar *of the code*: where the code departs from Python, so does
the grammar, and the departure is recorded in a property of its own (C39-C44, C46) that is refuted or
proved in part. Without this no theorem of equivalence with the code could be true.

## Main theorems

* Tokenizer: one call is total and progresses (C02-C04); tokens and trivia tile the text (C05-C07);
  every token is exactly the one the token grammar gives at its position (C08-C17, C45); layout
  tokens, brackets, lines (C18-C28); a written program is read back (C29).
* Parser = grammar: `run_exact` (C32): a function succeeds with tree x iff the tokens read derive x.
  Soundness by induction on fuel, completeness by induction on derivations, termination by a measure
  on the lexer state and ranks of functions (C30, C31): the only inputs on which the parser does not
  return are those reaching `import` or `match` at the start of a statement.
* The tree: no token lost, duplicated or reordered (C33, C38, C47), spans (C34), schema (C48).
* Errors: tokenizer errors are never swallowed (C36), the end of file is reached (C37), places and
  finality of errors (C49), dependence on consumed tokens and one look-ahead only (C50).
* Structure: expression trees up to precedence and associativity (C35), modules of statements (C52),
  both exactly (C35_exact, C53): a text parses to a given structure iff it has its tokens.
* Layout: texts with the same tokens, places and trivia aside, are parsed alike, failures included (C54).
  Every text can be written down again from its tokens, or from its tree, in one fixed layout (C55); the
  token sequences of texts are exactly those of a small line grammar (C56), so that an interactive input
  never accepts a compound statement (C57).
* Python: the tokens of an accepted text are a sentence of the grammar of Python, for trees that show none of
  the departures in PythonSpec.v (C58).
* The language: with two departures aside (the second separator of a slice, the flag of except*), the accepted
  texts are exactly the sentences of an EBNF grammar without look-ahead (CodedGrammar.v), `match` at the start of a
  statement excepted (C59). Hence a core of Python, Python's rules with listed alternatives left out, is always
  accepted (C60).
* Error messages: every error is one of 177 listed messages; what its text says about the look-ahead is the case, and it
  is placed at the look-ahead or at the token opening the construct, as listed (C61, ErrorSpec.v).
- Errors of the tokenizer: exactly the cases listed in LexErrorSpec.v, with message and place (C62); a parser
  that says it expects a symbol has met one of them.
- What the trees of C35 and C52 leave out: the constructs listed in BeyondSpec.v and nothing else (C63), so every
  accepted file is the text of a module of C52 or contains one of them.
- Trees and tokens determine each other, positions and trivia aside, except for the place of `*` and `/` among the
  parameters of a lambda, the bases of a class and the types of a function type (C64).
- The depth of the recursion: bounded by the nesting of the tokens, slices aside, and by the number of brackets, indents
  and nesting words always (C65).
- Files after one another: if each ends a line with a line feed, and begins at the left margin where the one before leaves a
  block open, the tokens are those of the parts and the module is the statements of the parts (C66).
- Time: the parser makes a number of calls and rounds linear in the tokens it takes, whatever its result, and takes every token
  of an accepted text once (C67).
- Space: a tree has at most twice as many nodes as tokens, and one (C68).
- Tables: of the character tables, only what they say of the characters of the text matters (C69).
- Height: no path in a tree is longer than twice the tokens; the nesting of the text does not bound it (C70).
- Sessions: called again and again, one parser gives the tokens in order but for one symbol per call, which interactive input loses (C71).
- Memory: a call for input depends on the state of the tokenizer alone, not on what earlier calls have left in the parser (C72).
- The end: after a call that took the text to its end only calls for a file succeed, with the empty file (C73).
- Rest: after an error the tokenizer has moved on, or, for two kinds of error, gives that error for ever; after three calls per character and four more it
  gives one answer for ever (C74). It need not be the end marker: at an unknown character, or a backslash that ends no line, it
  stays, so a caller that collects errors until the end marker comes does not terminate (`C74_reaches_end_refuted`).

## Properties that are false of the code

Each has a theorem `..._refuted` with a computed witness and, where the failure is uniform, a universal
theorem that describes what the code does instead.

| property | what happens | what is proved instead |
|---|---|---|
| C06 | leading blanks of a line are in no trivia | everything else is covered exactly once |
| C12 | `1e` is a number | all reference literals accepted, exact decision as coded |
| C13 | `0` swallows the next character | `0` is never a token; exact decision after `0` |
| C16 | no escapes in strings | the first escaped quote always ends the string |
| C17 | no bytes prefixes | r, u, f and combinations |
| C21 | blocks stay open if the text does not end after a Newline | holds for texts ending after a Newline |
| C22 | a dedent to no open level is accepted | such lines are never rejected, what they give |
| C23 | trailing blanks can give an Indent | a blank line gives no layout token itself |
| C24 | CR LF advances three | exact for CR and for LF |
| C31 | `import` never returns, `match` panics | these are the only cases |
| C39 | a nested try changes the kind of except of the outer one | clauses agree without nested try |
| C40 | decorated definitions are never accepted | for all inputs |
| C41 | async def and parameters are never accepted | for all inputs |
| C42 | `{}`, three dictionary entries, trailing comma rejected | all other sizes accepted |
| C43 | keyword and star arguments rejected, a slice takes the bracket | for all inputs |
| C44 | assert takes `from` instead of a comma | for all inputs |
| C58 | texts that are not Python are accepted (twelve kinds) | accepted texts whose trees show no listed departure are Python |
| C46 | `for x in y` rejected (the target swallows `in`) | the targets that are accepted |
| C60 | 48 kinds of Python sentences are rejected | the sentences of the core (CoreGrammar.v) are accepted |
| C61 | nine messages do not say what is the case | all the others do; a weaker claim for four of the nine |
| C62 | the message about digits after 0x is given for decimal numbers; a bracket message names the bracket found | message and place are exact for every error; the other messages are right about the text |
| C64 | `lambda a, *b: c` and `lambda *b, a: c` have the same tree | without `*` or `/` among other parameters equal trees have equal tokens |
| C65 | what follows a slice is read inside it: texts of nesting 1 need any depth | without slices the nesting bounds the depth |
| C70 | operators of one precedence nest to the left: a text without nesting has a tree of any height, so releasing the tree can take more stack than parsing | twice the number of tokens bounds the height |
| C71 | every input function begins with `advance`, but simple statements leave the parser at the next token: a second call of interactive input drops the first token of its line, or the tokenizer's error there | all other tokens are in the trees, in order |

C66 is stated with the conditions it needs: two refutations (C66_open_block_refuted, C66_carriage_return_refuted) show that
neither can be left out.

## Proof plan per property

C01 index buffer vs. independent `nth`-style spec, induction on the number of advances.
C02 well-foundedness of the outer/inner loop: every `continue` consumes a character; result never `LFuel`.
C03 measure 3*(chars left) + open levels + pending strictly decreases on every non-EOF token; EOF state is a fixpoint.
C04, C05 invariants over reachable lexer states.
C06 tiling relation between consecutive states; C07 slice equality from the same invariant.
C08 independent longest-match specification over a literal table.
C09, C10, C17 specification over maximal runs and a literal keyword table.
C11-C13 inductive grammar of literals. C14-C16 specification of the first closing quote.
C18 independent Dyck-word checker over the token history; C19, C20 invariants over histories.
C21-C24 computed witnesses, plus the universal characterisation of what does happen.
C25-C28 direct specifications of single calls. C45 completeness and soundness of the token grammar.
C29 printing/tokenising round trip by induction on the lines.
C30, C31 fuel bound linear in the measure of C03.
C32-C34 grammar relation (tokens, tree, positions); C33, C38, C47, C48 by induction on derivations.
C35, C52 tokens of an abstract tree derive a node that reads as the tree; C53 the converse by induction on derivations.
C54 a relation between two runs (TwinProofs.v), by induction on fuel over all bodies; it needs no grammar.
C55, C56 a line grammar of token sequences (Sheet.v) that every run of the tokenizer follows (call by call) and
whose sequences, typeset, are read back (Typeset.v, by induction on the line grammar); C54 for the parser. C57 from C56
and the last token of a statement.
C58 every derivation of GrammarSpec is a derivation of the EBNF, case by case; the side conditions are decided by a
recogniser for EBNF proved exact (Recognise.v), which also decides the refutations.
C59 from left to right as C58, with what is known of the look-ahead token; from right to left by induction on the length
of the sentence, a lemma for each rule giving the derivation before every token that may follow (first sets computed and
proved sound). The look-ahead as coded decides each option rightly because first and follow sets are disjoint.
C60 from C59 and a checker for inclusion of EBNF grammars, proved sound (Include.v), by computation.
C61 the compositional statement of C49 with a claim computed from the text of the message, case by case over all bodies.
C62 from the case analysis of one call (TokenLemmas.v), both ways; numbers by the first faulty part.
C63 by induction on trees that keep C48 and C38: a reader fails at a node exactly if the node is listed or a part fails.
C64 two readings (C47) of trees of the same shape are the same, node by node; the converse from C54.
C65 `run` against `run_deep`, both run symbolically over every body (as for C31), with the place in the token sequence carried along;
each function has a level, and calls go to a lower level or behind a token that raises the height. The lower bounds by induction on the depth.
C66 a relation between the states of the tokenizer in a text and in a longer text, kept by every call that does not look past the
end; the parser by C59 and C53.
C67 the bodies run symbolically over the counting monad: every function has a weight it may spend before it takes a token, and every
token pays for the calls and rounds up to the next one.
C69 the same scan and, where a token begins, the same word; the bodies of the parser run side by side.
C68 from C48: by the schema of every kind of node, its own tokens and nodes pay for it, but for a few that may hold one node only.
C70 above from C68, below from C35 with a row of sums.
C71 from soundness call by call, with the events of the tokenizer carried along.
C73 at the end the tokenizer gives the end marker for ever, and no derivation but that of the empty file begins with it.
C74 an error that reads nothing does not depend on the trivia before it; the measure of C03 falls with all others.
C72 every body run from two states that agree but for the flag; at `try` they become equal.
C36, C37 from the reading relation. C39-C44, C46 refutations and FIRST/FOLLOW arguments on derivations.
C49, C50 a relational invariant of two runs over texts that agree up to a point.

## Trusted base

* The Coq 8.16.1 kernel (and `vm_compute` for examples and refutations).
* The hand transcription of the Rust sources into the model files above, and the Rust semantics of
  `Vec`, `String`, `Result` and the order of `match` arms.
* `Print Assumptions` follows each theorem of the Properties files: all are closed under the global
  context. No axioms, no admitted proofs, no disabled checks. (`coqchk` lists the parameters of
  `Coq.ssr.ssrunder`, a part of the standard library that is loaded but used by no theorem.)

## Mutation tests

seeded/LOG.jsonl: one line for each wrong program tried: the edited definition, the edit, the claims
it breaks, the lemmas whose proofs failed (`failed`), the property theorems that rest on those
(`failed_theorems`), and the theorems tightened as a consequence.
