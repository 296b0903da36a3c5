# Formal model of iostrovok/gorouter in Rocq (Coq 8.16.1)

(The plan was written before the proofs; this file is kept current as the model grows.)

## Layout of `rocq/theories/`

| Files | Content |
|---|---|
| `Base`, `GoStrings`, `GoErrors`, `GoInt`, `GoPath`, `GoSlices`, `GoTime` | *environment models*: Go byte strings and maps, parts of `strings`, `bytes`, `net/textproto`, `pkg/errors`, int64 and `strconv`, `path`, `path/filepath`, `fasthttp.URI`, slices over a heap of arrays, `time`'s calendar and HTTP layouts. Not code of /repo; trusted to describe the libraries |
| `M_*` | the model of /repo, one Gallina definition per Go function, with file:line citations |
| `S_*` | small independent specifications used in theorem statements |
| `P_*` | lemmas and proofs |
| `Props_*` | the property theorems `Cnn_...`, each followed by `Print Assumptions`, with a concrete non-vacuity `Example` beside it |

Conventions: a Go `string`/`[]byte` is a `list ascii` (`bytes`); a nil pointer is `None`; a Go panic is the explicit
outcome `Panic`; errors are values; a loop is structural recursion or recursion on explicit fuel whose exhaustion is a
separate outcome that the theorems exclude. `int64`/`int` are `Z`, with explicit wrap-around where it matters. Go maps
are association lists with unique keys; where Go's iteration order matters it is an argument that ranges over all
permutations.

Naming: `Cnn_x` = the property as stated; `Cnn_x_partial` = a weaker theorem (what is missing is said beside it);
`Cnn_x_refuted` = the property is false of the faithful model, with a concrete witness (a finding about the code).
A property with a `_refuted` theorem is listed as `partial` in MANIFEST.json: the code does not have it, and what does
hold is the `_partial` theorem.

## Trusted base

* Coq 8.16.1's kernel and, for the definitions, `vm_compute` (used in the concrete examples and witnesses).
* `Print Assumptions` answers **Closed under the global context** for every theorem named in MANIFEST.json: no axiom is
  used. Only the standard library is imported. Checking the whole compiled library with `coqchk` also lists the seven
  axioms that loading the standard library's `lia`/`ssr` files brings along (they are the abstract signature of
  `Coq.ssr.ssrunder`, no theorem depends on them):
  `Coq.ssr.ssrunder.Under_rel.Under_rel`, `...Under_rel.Under_rel_from_rel`, `...Under_rel.Under_relE`,
  `...Under_rel.under_rel_done`, `...Under_rel.Over_rel`, `...Under_rel.over_rel`, `...Under_rel.over_rel_done`.
* That the definitions of the `M_*` files are what the Go code of /repo does (read by hand, cited line by line), and
  that the environment models below are what the libraries do.

### Environment models (libraries, not code of /repo)

* `fasthttp` v1.58: `Args` as an ordered list of pairs (`Add`, `Set`, `Peek`, `PeekMulti`, `VisitAll`, `Reset`);
  `URI.SetPath` = percent-decoding and normalisation of the path; `RequestCtx` as method, path, request URI, header
  table and a reply of status, headers and body; `Server.Serve` and `ShutdownWithContext` as transitions; `Cookie`
  stores what its setters are given in `M_Ctx`; `ResponseHeader.Set` replaces CR and LF by blanks (`M_Challenge`); `hash/crc64` byte by byte (`M_UniqId`); `M_SetCookie` models the setters, `Cookie.AppendBytes` and `ResponseHeader.SetCookie` down to the header text; the request cookie scanner (`cookieScanner.next`, `decodeCookieArg`, in `M_Cookie`).
* `path.Clean`, `path.Join`, `filepath.*` on slash-separated elements as their documentation says (theorems in
  `P_GoPath` relate them to the element semantics).
* `strconv.ParseInt`, `FormatInt`: exact, with int64 range. `encoding/base64` StdEncoding: an exact decoder (strict
  padding, embedded newlines skipped). `url.QueryEscape`: exact.
* `strings.TrimSpace`/`unicode.ToLower` outside ASCII: function arguments, quantified over.
* `regexp.Compile` and `MatchString`: in `M_Mount`, exact for expressions made of "^", ordinary ASCII characters, dots and
  stars (with Go's rune decoding); every other expression is a function argument.
* `time.Parse`/`Format`: in C162-C168, exact for the layouts RFC1123 with GMT, RFC 850 and ANSI C (Parse) and for the logger's `2006-01-02T15:04:05.999Z` (Format, C165-C167; the local offset is an argument) (`GoTime`, after go 1.23's format.go); the
  meaning of zone names other than the layout's own text is a function argument (`C163_rfc850_date` assumes that GMT is 0, which Parse guarantees
  in a UTC context). Everywhere else, and otherwise for `regexp.MatchString`, `time.Parse`/`Format`, `mime.TypeByExtension`, the multipart boundary, jsoniter `Marshal`,
  the file system (`fs.FS`), `io.ReadSeeker`: function arguments the theorems quantify over.
* Go's map iteration order: quantified over. `append`'s growth: quantified over (every growth policy) except where a
  refutation fixes the Go runtime's.
* fasthttp `AcquireArgs`/`ReleaseArgs`: a pool that returns any released object or a new one and may forget objects; release empties the object.
* `sync.RWMutex`, `sync/atomic`, `errgroup`, `os/signal`: transition rules in `M_Race`, `M_Share`, `M_Run`, `M_Pipeline`.
* `errgroup` v0.10.0 (`Go`, `TryGo`, `SetLimit`, `Wait`, the semaphore, the group context) and `context.WithCancel`: transition rules in `M_Group`.
* fasthttp parses query, form and request cookies into the request at the first use; `AppendBody` and `SetCookie` write the response;
  `errgroup.SetLimit` writes what `Go` reads (`M_Share`).

## What of /repo is modelled

| /repo | Model | Left out or simplified |
|---|---|---|
| tree.go, methods.go | `M_Tree`, `M_Print` (`String`, `print`) | nothing but the locks (M_Race) |
| reg_tree.go, server.go `Find` | `M_RegTree` | a regexp is its source string and an abstract match function |
| gorouter.go, top_handler.go (building), server.go `Add`, `AddReg`, `Get`.. | `M_Router` | locks (each operation atomic); the routes are listed in order and tied to `M_Tree` by the order of registrations |
| top_handler.go `Run`, `RunLast`, ctx.go control part, server_run.go `runHTTP` | `M_Pipeline` | a handler is a list of context operations plus an outcome (nil, error, panic) |
| baseauth.go, server_run.go `ServeHTTP` | `M_Auth` | the log function is an observer |
| server_run.go `printError` | `M_Report` | the time stamp is a parameter |
| baseauth.go:35-85 with the maps shared with the caller | `M_AuthMaps` | one operation after the other; maps are numbered in the order they are made |
| ctx.go parameters, data, cookies; params/params.go | `M_Ctx`, `M_Cookie`, `M_SetCookie` | |
| ctx.go `UniqId` | `M_UniqId` | the clock is a parameter |
| ctx.go: which fields of a Context and its clones each method uses and changes | `M_Clone` | values abstract; goroutines not run (`M_Group`) |
| baseauth.go:98-103 the challenge as sent | `M_Challenge` | |
| internal/text | `M_Text` | |
| static/fs.go, fs_utils.go, sniff.go, static.go; static.go, static_embed.go, static_embed_fix.go | `M_Range`, `M_Cond`, `M_Content`, `M_Sniff`, `M_Static` | time values are nanoseconds since 1970; the texts of `Seek` errors; Windows paths |
| logger/logger.go New (time stamp), logger/config DefaultTimestampFormat | `M_Stamp` | the location's offset from UTC at the time is an argument |
| static/fs.go ioFile.Readdir | `M_Readdir` | an entry is what its Info returns |
| server.go:97-121, ctx.go logger functions, server_run.go:148-149, AddDebug/Debugf calls of the static handlers and mounts | `M_ReqLog` | one call at a time; a formatted message is its text; what else these functions do is in M_Pipeline, M_Ctx, M_Mount |
| server_run.go:109-167, top_handler.go with static handlers, what goes over the wire | `M_Site` | concurrency, goroutines beyond their results, debug log entries, Context data; handlers of the program are arbitrary functions of Context, request, path and response |
| static.go, static_embed.go, static_embed_fix.go (registration) | `M_Mount` | the debug log entries; an `*regexp.Regexp` registered twice (for that see C13) |
| logger/** | `M_Logger` | direct writes to the exported maps; what a failing `Write` prints |
| gorouter.go, top_handler.go, server.go (registration methods, `SetBaseAuth`, `SesInit`, `SetLogLevel`, `Find`), server_run.go `ServeHTTP`: one history of calls and requests | `M_Server` | one call at a time; one server; user code by identity, given the URL parameters |
| server_run.go `Run`, `Shutdown`, server.go `resolveAddress` | `M_Run` | requests |
| server_run.go `Run`, `Shutdown` repeated, server.go setters | `M_Life` | two Runs of one server at the same time; setters during a Run; what TLS does |
| tree.go `Find`, `cloneArgs`, reg_tree.go `Find`, server.go `Find`, the parameter object of runHTTP, operation by operation | `M_Pool` | routes fixed during the lookups; handlers as programs over their parameters that do not keep the object |
| server_run.go `ServeHTTP`, `runHTTP`, top_handler.go with handlers as programs, several requests at once | `M_Serve` | one lookup = one step; handlers without state outside the Context; goroutines of EGGo are their results; request objects of fasthttp are per request |
| ctx.go `EGGo`, `EGTryGo`, `EGSetLimit`, `EGWait`, `Ctx`, `Stop`, `Abort`, `SkipMain`; server_run.go:135-167; top_handler.go:24-81, with the goroutines the handlers start, as concurrent programs | `M_Group` | one access = one step; a panic nobody recovers ends the process; a goroutine waiting for its token when the limit is replaced takes it from the new semaphore; handlers are programs over the Context operations |
| locks of tree.go / reg_tree.go | `M_Race` | only field accesses and lock operations |
| accesses and locks of logger/**, ctx.go, baseauth.go, server.go, server_run.go | `M_Share` | per method the possible sequences of lock operations and accesses, whatever the data; handler sets and route tables are in `M_Race`; what happens inside the handlers' own objects |
| which locks each call holds while it calls user code (gorouter.go, top_handler.go, tree.go, logger/**, server_run.go:109-167) | `M_Locks` | data; locks of objects nobody else has yet; EGWait (in `M_Group`); user code that uses the embedded `Lock`/`RLock` itself |

Of examples/, the calls that server.go and example_1 make up to Run, the registrations of example_2, example_3 and static_video and the file handler of static_video are modelled (M_Examples), not the texts and cookies the other handlers write. Also not modelled: getters and setters without logic, what TLS does.

## Plan and proof per property

| Property | Modelled | Proof |
|---|---|---|
| C01–C06, C12, C77 | tree.go: `splitPath`, `getUrlID`, `nextNodes`, `addMethod`, `_add`, `Add`, `Find` (work queue with fuel) | queue search = first match in preorder (level invariant); tree = grouping of the registration list (induction over the history); corollaries. C04, C06, C12 false: witness, and the exact part that holds |
| C07 | `splitPath`, Unicode `TrimSpace` | characterisation of trim as unique decomposition; the segments of every path string whatever (`S_Paths`: bare, unslashed, unended, parts), existence and uniqueness |
| C08 | `addMethod`, `RegTree.Add` | case analysis on method strings |
| C09–C11 | `Find` for arbitrary trees | invariants on the queue; measure = number of nodes |
| C13–C16 | reg_tree.go, `Server.Find`; regexp matching and map order are parameters | permutation of the entries as an explicit argument; C14 false |
| C17 | `nonEmptySet`, `Server.Add`, nil receiver | false: always panics |
| C18–C23, C27 | `HandlerSet.Run` over arbitrary handler behaviours (each run = list of context API calls + outcome) | induction over handler lists with an explicit call trace; C22 false |
| C24–C26, C28 | `runHTTP`, `RunLast`, errgroup | completion order of the goroutines is an argument; C26 false |
| C29–C32 | slices as (array, len, cap) in a heap, append with a growth oracle, Router/HandlerSet objects | ownership invariant over histories; C30/C31 false in general |
| C33–C37 | baseauth.go, base64, `ServeHTTP` | decode∘encode; C34/C37 false |
| C38–C44, C76, C78 | ctx.go parameter access, SqueezeParams, data/Clone, splitHost, SetCookie; params.go | list induction; C39/C42/C76 false |
| C89, C90 | Context.Cookie over the cookie scanner, SetCookie | printing/scanning round trip over cookie lists; both false (value parsed twice, never unescaped), exact answers |
| C45–C47, C59–C63, C84, C88 | static handlers, serveFile, Dir/ioFS.Open, path.Clean, fasthttp SetPath | element-level semantics of Clean; C46/C59/C60/C88 false (double percent-decoding, RequestURI in the redirect, index.html) |
| C99, C100 | StaticFile, StaticFileFS, FixStaticFileFS, the expression they compile, set-up histories | invariant relating the two tables to the history; matching of literal prefixes; composition with C88; C99 false (a dot in the mount point), C100 false (HEAD) |
| C48–C53, C79, C80 | parseRange, serveContent, rangesMIMESize | int64 explicit; rendering/parsing round trip; C79/C80 false, exact language given and the exact answer for every header (`C80_every_header`) |
| C54–C56 | conditional headers, scanETag | decision table; list grammar; fuel bound |
| C57, C81, C82, C86 | sniff.go with checked slicing | signature by signature; C86 against a table written independently (`S_Sniff`) |
| C58, C83, C87 | serveContent/ServeContent | C58 false: witness; totality by case analysis |
| C139 | serveContent, checkPreconditions, Error, filepath.Ext | an inductive specification of the whole response (`answer` in `Props_Answer`, vocabulary in `S_Answer`), proved exact, total and unambiguous; sizes below 2^63 |
| C140–C142 | M_Run (as C71–C74) | step invariants: a closed listener whose mutex is free has no connections unless Run's own shutdown gave up; C140, C141 false: witnesses |
| C143 | M_Clone (as C117, C118) | induction over histories against levels and names computed from the history alone (`S_Names`) |
| C144 | M_Mount, M_Static, M_Content | composition of C134/C137 (which handler, which name) with C139 (complete ServeContent answers); `response` lists the cases; totality and uniqueness |
| C145 | M_Group | invariant over steps: every owner's events are a path through its program (`S_Follow`), goroutine programs recovered from the trace alone |
| C146 | M_Serve | invariant over the steps of one request (others by C92 isolation): the trace is a sequence of complete runs of the set's code (`S_Obeys`), with the Context's answers defined from the trace |
| C147 | M_Server | induction over the history with the simulation of C131; panics of every call decided against the plan (`S_History`); user code that returns lifted through the pipeline |
| C148 | M_AuthMaps (over M_Auth) | invariant relating the state to the settings last made (`S_AuthMaps`: last operation of a kind, entries of the shared map); getUserPassword against `carries`, both ways |
| C149, C150 | M_Report (over M_Auth, M_Pipeline) | the error runHTTP returns recovered from the calls made (`S_Report`), by cases on the pipeline; C150 false: an escaped line break in the target |
| C151 | M_Static (`dir_list`, `serve_file` with showDir) | insertion sort is a sorted permutation; escaping as a relation (`S_Listing`); `path.Base` |
| C152 | M_Group | invariant `down <-> panicked trace`; progress and necessity of each operation's guard, with the guards read off the trace (`free`) |
| C153 | M_Readdir (ioFile.Readdir) | loop invariant over any directory that keeps to fs.ReadDirFile (`S_Readdir`: `allowed`, `lawful`), strong induction over the entries left for the pages |
| C154 | M_ReqLog (Server.SetLogLevel/SetLoggerWriter/Debugf, NewContext, runHTTP's logger, Context logging) over M_Logger | simulation by plain values (`S_ReqLog`) extending C138's, induction over histories; settings by an invariant on the server's configuration |
| C155 | as C154 | refuted: SesInit's logger is dropped; what holds from the simulation, C66 (one Write) and C69 (isolation) |
| C156 | M_Static (`serve_file` with showDir) | refuted; two file systems that differ only in index.html's content give the same answer; the answer without conditions is exact. Files are taken to be unreadable once closed (`closed_content`), as the operating system's are; files of an `embed.FS` stay readable |
| C157 | M_Mount | matching of starred items as an inductive relation (`S_Starred`); as C99 otherwise |
| C158 | M_Site (top_handler.go, server_run.go:123-167 with the RequestCtx threaded through) over M_Pipeline, M_Mount, M_Static | the run is a run of M_Pipeline with the same handlers (`shape`), so C18-C28 apply; induction over the handler lists for `chain` and `genuine`; composed with C144 |
| C159 | M_Site, M_Auth | C35's exact characterisation of accepted credentials in front of M_Site |
| C160 | M_Site, M_Auth, M_Mount | refuted by a concrete site; the universal negative from C136; the partial from C46 and injectivity of names |
| C161 | M_Print (tree.go:243-260) | `shows` relates table and text line by line (`S_Print`); induction over nested nodes; unique reading by cutting at the punctuation and rebuilding the tree from depths |
| C162, C163 | GoTime (environment), M_Cond (`set_last_modified`, `parse_time`) | Gregorian calendar as day-after-day rules with 1 Jan 1970 given (`S_Date`), unique and onto the days that exist; civil-from-days arithmetic proved against it; each layout read byte by byte |
| C164 | as C163, over M_Cond, M_Content | refuted by a concrete file; C139 (answers are complete) with C163's own dates |
| C165 | M_Stamp (logger.New's time stamp), M_Logger | refuted; invariant on plain values (C138's simulation) along timed histories: `births` says when each logger was made |
| C166, C167 | M_Stamp, GoTime (`go_format`) | the text against `S_Stamp` (RFC 3339, shortest fraction), unique reading, byte order; refuted by concrete times |
| C168 | M_Cond, M_Content, M_Static, M_Mount (`handler_run`), GoTime | refuted by a concrete file; C139 with step 4 of RFC 7232; equality of the runs of the handlers, function by function |
| C169 | M_Examples over M_Server | C131, C147 and C05/C128: the reference search evaluated on the two programs' tables for symbolic methods and paths, `serves_pages` (Props_Examples) over the page tables of S_Examples |
| C170 | M_Examples over M_Mount | C99, C05 and C15; a path below /html/ has a segment that begins with h (from C07's specification of segments); downloads by C88/C99 |
| C171 | M_Examples over M_Mount and M_Content | routes as C170; the type refuted by a WebM content; whole answer by C51, C87 and the rules of `finish` |
| C64 | internal/text | decomposition |
| C65–C70, C85, C91 | logger/level, logger/config, logger over heaps of configurations and field maps | induction over histories of operations; C67, C68, C85 false |
| C92–C98 | M_Serve: transition system of requests, route changes and the parameter pool | ownership invariant (an object is in the pool or held by one request), projection of every request to a run of its own; trace invariants on that run; simulation by `run_http` with scripted handlers (C97); well-founded induction over programs and remaining parts (C98); C93 false |
| C71–C74 | server_run.go as a labelled transition system | invariants over all schedules, explicit runs for liveness; C72 (cancellation) and C73 false |
| C75 | lock/field access traces of Add and Find | lock sets over all interleavings; false for Add/Find, proved for Add/Add, Find/Find and the root path; every listed write is made by some registration that reaches it, and a lookup races exactly with the registrations that write something it reads |
| C101–C103 | access/lock traces of the methods of Logger, Config, Context, Server, BaseAuth | lock-set theorem for any number of threads and call sequences; schedules that exhibit a race for every listed pair; tables proved exact; all three claims false |
| C104 | the same lock traces | locks are taken in a fixed order and always released, so some goroutine can step; the number of remaining operations decreases; a writer that calls the logger deadlocks (proved) |
| C105–C112 | one request with its goroutines as concurrent programs (EG methods, Ctx(), Stop/Abort/SkipMain), errgroup and context as environment | control automaton simulating runHTTP/Run/RunLast; trace invariants by induction over steps; termination by a multiset order on program trees; C105, C109, C111 false as stated, partial versions proved |
| C113, C114 | SetCookie down to the Set-Cookie text, read back by an RFC 6265 section 5.2 client (`S_SetCookie`) | exact parse of the written line; induction over call sequences; both false as stated, partial versions proved |
| C115 | the WWW-Authenticate value of every refused request, read by an RFC 7235 quoted-string reader (`S_Challenge`) | false as stated; exact equivalence proved |
| C116 | UniqId as CRC-64/ISO of the decimal nanoseconds and the path | CRC as a linear map over GF(2): kernel computed through a left inverse, then all kernel elements (4095) bounded by `vm_compute`; false as stated, exact minimal distance of colliding times proved |
| C117, C118 | methods of contexts and clones over any call history | invariant per context by induction from the end of the history; C117 false as stated, exact table of panicking calls proved |
| C119–C121 | locks of Router, HandlerSet, Tree nodes, Logger, Config with user code run inside the calls; sync.RWMutex as environment | held-lock stacks as an invariant; a ranking of the locks derived from the nesting of user code; number of remaining operations decreases; C120 false, partial version proved |
| C122–C124 | any number of Runs of one server, Shutdown calls and setters between them, TLS layers of the listener | invariants of M_Run generalised to used servers, counter = number of calls; C122–C124 false as stated, the exact parts proved |
| C125, C126 | lookups and requests as programs over a shared heap of parameter objects and a shared pool, interleaved operation by operation | weakest precondition over owned objects, global invariant that all objects are owned once, pooled or given up; refinement of the value-passing lookup; counting predicate for C126 (false as stated, exact count proved) |
| C127 | the registration API over Go slices (`M_Router`); a value semantics in which Clone and Add copy, and a bookkeeping of which lists can share storage (`S_Copies`) | simulation over places (router, set or route lists): same array implies same bookkeeping id; with a policy that always leaves room for the whole history, same id implies same array, so an unsafe append overwrites |
| C128–C130 | the routing tree (`M_Tree`); an order on registrations stated on the list of registrations alone: where they part, the branch opened by the earlier registration goes ahead (`S_Choice`) | from C05, by induction on the path: the first end point of the search is reached exactly by the registrations that go first; the order is total, asymmetric and transitive; a dead or live route is decided on a path whose parameter values differ from every literal |
| C131–C133 | a whole server: building calls, tables, settings and requests in one history (`M_Server` puts `M_Router`, `M_Tree`, `M_RegTree`, `M_Auth`, `M_Pipeline` together); plain values instead of slices and a list of routes instead of tables (`S_Server`) | simulation along the history: lists by C127, tables by C128 and C13, the rest call by call; consequences for requests by computing the pipeline |
| C134–C137 | the static handlers of C45–C100 again, without assuming that paths are free of escapes and mount points free of dots; escapes, following path elements, UTF-8 and dots as relations (`S_Exposed`) | decoding and cleaning commute with splitting up to `..`; what the handler opens is a fold over decoded elements; doubly encoded targets reach every name; the rune widths of the expression matcher against the encoding |
| C138 | the heap model of loggers and configs (`M_Logger`) against a store of plain values (`S_LogValues`) | simulation relation kept by every call, by induction on the history |

## Testing the theorems

`seeded/LOG.jsonl` lists edits of the model (realistic bugs), the claim each breaks and the theorems that then failed to
prove; where a theorem survived although its claim was false of the edited program it was tightened.
