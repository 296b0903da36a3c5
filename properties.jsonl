{"id": "C01", "title": "A table of literal routes behaves as a map keyed by (method, normalised path)", "statement": "If every route registered so far is literal (no ':' segment, no empty segment), then Find(m,p) returns exactly the handler set of the most recent registration whose route normalises to the same segments as p and whose method covers m, with no URL parameters; if there is none, it reports not found.", "quantifier": "every finite history of Add calls on literal routes, every method string, every request path (any bytes)", "why_tests_cant": "The claim is over all registration histories and all byte strings; tests register a handful of routes in one order.", "anchors": ["tree.go:Tree.Add", "tree.go:Tree._add", "tree.go:Tree.Find", "tree.go:addMethod", "tree.go:splitPath"]}
{"id": "C02", "title": "Routing is sound: a match really is a registered route", "statement": "Whenever Find(m,p) succeeds there is an earlier registration whose pattern matches p segment for segment, whose method covers m, whose handler set is the one returned, and the returned URL parameters are exactly that pattern's parameter names with the corresponding segments of p, in left-to-right order.", "quantifier": "every history of registrations whose routes have no empty segment, every method and request path", "why_tests_cant": "Needs every interleaving of literal and parametric routes and every path, including the queue-based exploration order.", "anchors": ["tree.go:Tree.Find", "tree.go:Tree._add", "tree.go:nextNodes", "tree.go:cloneArgs"]}
{"id": "C03", "title": "An unambiguous registered route is always found", "statement": "If a registration covers method m and its pattern matches path p, and no other registration has a prefix of p's length matching p, then Find(m,p) returns that registration's handler set and its parameter bindings.", "quantifier": "every history of registrations without empty segments, every method and path", "why_tests_cant": "Completeness of a search over every tree shape cannot be sampled.", "anchors": ["tree.go:Tree.Find", "tree.go:Tree.Add"]}
{"id": "C04", "title": "Registered routes are reachable for their method whatever else is registered", "statement": "If some registration covers m and its pattern matches p then Find(m,p) succeeds.", "quantifier": "every history of registrations without empty segments, every method and path", "why_tests_cant": "Depends on the presence of overlapping routes registered in any order.", "anchors": ["tree.go:Tree.Find:135-153", "tree.go:nextNodes"]}
{"id": "C05", "title": "Routing result is a function of the registration list: reference semantics", "statement": "For every history of registrations (no empty segments) Find equals a reference search on the plain list of (pattern, method, set): alternatives at each level are tried in order of first registration, one shared alternative per literal segment, one private alternative per parametric registration, and the first alternative that covers the whole path decides alone, found or not.", "quantifier": "every history of registrations without empty segments, every method and path", "why_tests_cant": "A refinement between the mutable tree plus work queue and a list semantics; all shapes.", "anchors": ["tree.go:Tree.Find", "tree.go:Tree.Add"]}
{"id": "C06", "title": "Later registrations do not change how an already routed request is routed", "statement": "If Find(m,p) succeeds before a registration r is added, it gives the same handler set and parameters afterwards, unless r is a literal route equal to p whose method covers m.", "quantifier": "every history, every added route (no empty segments), every request", "why_tests_cant": "Quantifies over every pair (history, extension).", "anchors": ["tree.go:Tree._add"]}
{"id": "C07", "title": "Paths are normalised: surrounding blanks and slashes do not matter", "statement": "A path made of non-empty slash-free segments joined by '/', none of whose ends is white space, is split into exactly those segments; adding leading slashes, trailing slashes and surrounding white space does not change the split; every split starts with the root and no segment contains '/'. For every path string whatever: remove the white space around it, then the slashes around that, then white space at the end; the parts between the slashes of what is left are its segments (none if nothing is left).", "quantifier": "all byte strings", "why_tests_cant": "Unbounded strings including Unicode white space and invalid UTF-8.", "anchors": ["tree.go:splitPath"]}
{"id": "C08", "title": "Combined methods register exactly their two members", "statement": "Registering with MethodGetPost makes the route answer GET and POST and nothing else; MethodGetHead GET and HEAD and nothing else; any other method answers exactly itself. Other methods already registered on the same route keep their handler set.", "quantifier": "every method string, every handler table", "why_tests_cant": "Every method string and every prior table.", "anchors": ["tree.go:addMethod", "reg_tree.go:RegTree.Add", "methods.go"]}
{"id": "C09", "title": "URL parameters never leak", "statement": "After Find, the caller's argument collection holds nothing it held before the call; when nothing is found it is empty; when a route is found it holds only bindings collected on the winning branch, one per parametric segment, never values from abandoned branches.", "quantifier": "every tree state, every previous content of the argument collection, every path", "why_tests_cant": "Abandoned-branch leakage depends on exploration order over arbitrary trees.", "anchors": ["tree.go:Tree.Find:86-88,141-145", "tree.go:cloneArgs", "reg_tree.go:RegTree.Find"]}
{"id": "C10", "title": "Find always returns", "statement": "For every router state and every request, Find terminates without panicking, after examining at most as many queue entries as there are nodes in the tree.", "quantifier": "every tree (reachable or not), every method and path", "why_tests_cant": "Termination of a growing work queue for all trees.", "anchors": ["tree.go:Tree.Find:118-165"]}
{"id": "C11", "title": "Whatever the route strings, a returned handler set was registered for that method", "statement": "Even with malformed route strings, the handler set returned by Find(m,p) is one passed to an earlier Add whose method covers m.", "quantifier": "every history of Add calls with arbitrary route strings, every request", "why_tests_cant": "All histories, all byte strings.", "anchors": ["tree.go:Tree.Find", "tree.go:Tree._add"]}
{"id": "C12", "title": "Soundness with arbitrary route strings", "statement": "C02 for every history, including routes with empty segments (for example 'b//z').", "quantifier": "every history of Add calls with arbitrary route strings, every request", "why_tests_cant": "One odd route string among arbitrary many changes the table.", "anchors": ["tree.go:nextNodes:34-46", "tree.go:Tree._add"]}
{"id": "C13", "title": "Regexp routes: a request is served by a registered matching expression, if any", "statement": "RegTree lookup succeeds for (m,p) iff some expression registered with a method covering m matches p, and then returns the set most recently registered for one of the matching expressions; with exactly one matching expression the answer is determined.", "quantifier": "every registration history, every matching predicate, every map iteration order", "why_tests_cant": "Go map order is random; every order must be considered.", "anchors": ["reg_tree.go:RegTree.Add", "reg_tree.go:RegTree.Find"]}
{"id": "C14", "title": "Regexp routing is deterministic", "statement": "Two lookups of the same request against the same registrations give the same handler set.", "quantifier": "every registration history and pair of map iteration orders", "why_tests_cant": "Randomised map iteration.", "anchors": ["reg_tree.go:RegTree.Find:45"]}
{"id": "C15", "title": "Path routes take precedence over regexp routes", "statement": "Server.Find returns the tree's answer whenever the tree has one, otherwise the regexp answer with an empty parameter collection, otherwise not found with an empty collection.", "quantifier": "every state, request and iteration order", "why_tests_cant": "All states.", "anchors": ["server.go:Server.Find"]}
{"id": "C16", "title": "Regexp registration accepts exactly the standard methods", "statement": "AddReg/UseReg succeeds exactly for GET, HEAD, POST, PUT, PATCH, DELETE, CONNECT, OPTIONS, TRACE and the two combined methods; any other method panics.", "quantifier": "every method string", "why_tests_cant": "Infinite method strings.", "anchors": ["reg_tree.go:newRegTree", "reg_tree.go:RegTree.Add"]}
{"id": "C17", "title": "The handler-set argument of Server.Get/Post/... is optional", "statement": "server.Get(route, handler) (and every sibling) without a handler set registers the route.", "quantifier": "every route, handler and server state", "why_tests_cant": "For all inputs.", "anchors": ["server.go:nonEmptySet", "server.go:Server.Add", "top_handler.go:HandlerSet.Clone"]}
{"id": "C18", "title": "Handlers are called in pipeline order, each at most once", "statement": "The calls a request makes are a prefix of: main.Init, before[0..], main.Run, after[0..], with main.Run possibly left out; no handler is skipped over except main.", "quantifier": "every handler set, every behaviour of the handlers, every initial context", "why_tests_cant": "Handler behaviours are arbitrary code.", "anchors": ["top_handler.go:HandlerSet.Run"]}
{"id": "C19", "title": "With no error and no stop the entire pipeline runs", "statement": "If no handler returns an error, stops, aborts or panics, then Init, all before handlers, main (unless skipped) and all after handlers run and the result is success; conversely, success without Stop implies that all of them ran.", "quantifier": "every handler set and behaviour", "why_tests_cant": "Arbitrary lists of handlers.", "anchors": ["top_handler.go:HandlerSet.Run"]}
{"id": "C20", "title": "The first handler error ends the pipeline and is what Run returns", "statement": "If a called handler returns an error, no later handler of the pipeline is called and Run returns that very error.", "quantifier": "every handler set and behaviour", "why_tests_cant": "Arbitrary lists of handlers.", "anchors": ["top_handler.go:HandlerSet.Run"]}
{"id": "C21", "title": "Stop and Abort prevent all following handlers", "statement": "Once a before, main or after handler has called Stop or Abort (and returned no error), no further handler of the pipeline is called and Run returns nil.", "quantifier": "every handler set and behaviour", "why_tests_cant": "Arbitrary lists of handlers.", "anchors": ["top_handler.go:HandlerSet.Run", "ctx.go:Context.Stop", "ctx.go:Context.Abort", "ctx.go:Context.Stopped"]}
{"id": "C22", "title": "Stop called from Init prevents all following handlers", "statement": "If the main handler's Init calls Stop or Abort, no other handler runs.", "quantifier": "every handler set", "why_tests_cant": "Arbitrary handlers.", "anchors": ["top_handler.go:HandlerSet.Run:30-44"]}
{"id": "C23", "title": "SkipMain skips main and only main", "statement": "If Init or a before handler calls SkipMain and nothing stops the pipeline, main.Run is not called and every after handler is; if none calls it before main's turn, SkipMain called later has no effect.", "quantifier": "every handler set and behaviour", "why_tests_cant": "Arbitrary lists of handlers.", "anchors": ["top_handler.go:HandlerSet.Run:46", "ctx.go:Context.SkipMain"]}
{"id": "C24", "title": "The last handler runs exactly once, at the end, with the combined error", "statement": "For a routed request whose context initialiser succeeds and which is not aborted, the last handler (if set) is called exactly once, after every pipeline handler and every goroutine started with EGGo has finished, and receives nil iff the pipeline and all goroutines succeeded, the pipeline error if there is one (wrapped with the goroutine error if both), else the first goroutine error; its return value is the request's result.", "quantifier": "every handler set, behaviour and completion order of the goroutines", "why_tests_cant": "All schedules of the goroutines.", "anchors": ["server_run.go:Server.runHTTP:150-166", "top_handler.go:HandlerSet.RunLast", "ctx.go:Context.EGGo", "ctx.go:Context.EGWait"]}
{"id": "C25", "title": "An aborted request cancels its context and skips the last handler", "statement": "After Abort the request context is cancelled at once, the pipeline ends, the last handler is not called, and the request's error is the pipeline's own error.", "quantifier": "every handler set and behaviour", "why_tests_cant": "Arbitrary handlers.", "anchors": ["ctx.go:Context.Abort", "server_run.go:Server.runHTTP:153-156"]}
{"id": "C26", "title": "The request context is still live when the last handler runs", "statement": "When the last handler of an unaborted request runs, ctx.Ctx() is not cancelled.", "quantifier": "every request", "why_tests_cant": "Depends on errgroup's behaviour after Wait.", "anchors": ["server_run.go:Server.runHTTP:158-164", "ctx.go:NewContext"]}
{"id": "C27", "title": "The debug list names exactly the handlers that were called", "statement": "At debug level, CalledHandles lists the names of the called handlers in call order (Init listed under the main handler's name); below debug level nothing is recorded.", "quantifier": "every handler set and behaviour", "why_tests_cant": "Arbitrary lists of handlers.", "anchors": ["ctx.go:Context.AddDebugHandleName", "ctx.go:Context.CalledHandles", "top_handler.go:HandlerSet.Run"]}
{"id": "C28", "title": "No route, no handler; failed initialiser, no handler", "statement": "If no route is found the response is 404 and no handler, last handler or initialiser runs; if the SesInit function fails, no handler and no last handler runs and the error is reported.", "quantifier": "every server state, request, and initialiser", "why_tests_cant": "All states.", "anchors": ["server_run.go:Server.runHTTP:127-148"]}
{"id": "C29", "title": "A route registered through a Router is a snapshot", "statement": "The pipeline of a route registered by Router.Use/Get/... is the router's before list, handler, after list and last handler at that moment, and no later operation on any router, any handler set, or on slices passed by the caller changes it.", "quantifier": "every history of operations on routers, handler sets and caller slices, every append growth policy", "why_tests_cant": "Slice aliasing bugs show up only for particular capacities and orders.", "anchors": ["gorouter.go:Router.Use", "gorouter.go:Router.Clone", "top_handler.go:HandlerSet.Before"]}
{"id": "C30", "title": "A route registered with a handler set is a snapshot", "statement": "The pipeline of a route registered by Server.Add(..., set) is that of set at that moment and no later operation on set or on any other handler set or router changes it.", "quantifier": "every history of operations, every append growth policy", "why_tests_cant": "Slice aliasing shows only for particular capacities and orders.", "anchors": ["top_handler.go:HandlerSet.Clone", "server.go:Server.Add"]}
{"id": "C31", "title": "Clones are independent", "statement": "After r2 := r.Clone() (Router or HandlerSet) operations on one do not change the other's before/after lists.", "quantifier": "every history, every growth policy", "why_tests_cant": "Aliasing.", "anchors": ["gorouter.go:Router.Clone", "top_handler.go:HandlerSet.Clone", "gorouter.go:Router.LastAfter"]}
{"id": "C32", "title": "Router list operations follow list semantics", "statement": "Without Clone and without the caller mutating slices it passed, after any history GetBefore is the last Before list with the First handlers since prepended, most recent first, and GetAfter is the last After list followed by the LastAfter handlers since; for handler sets Before/After append. The Last handler of a router and the Last and main handler of a handler set are the ones most recently set, and a clone starts with those of its original (with Clone allowed).", "quantifier": "every history of operations", "why_tests_cant": "All histories.", "anchors": ["gorouter.go:Router.First", "gorouter.go:Router.Before", "gorouter.go:Router.After", "gorouter.go:Router.LastAfter", "top_handler.go:HandlerSet.Before"]}
{"id": "C33", "title": "With basic auth on, no handler runs for an unauthorised request", "statement": "If auth is in use and the access function selects the request, a request whose credentials are refused gets status 401 and the configured WWW-Authenticate header and no handler, initialiser or route lookup happens; if auth is off or the request is not selected, auth does not interfere.", "quantifier": "every server state and request", "why_tests_cant": "All requests.", "anchors": ["server_run.go:Server.ServeHTTP", "baseauth.go:BaseAuth.Check"]}
{"id": "C34", "title": "Only listed users with their password are admitted", "statement": "A request is admitted only if its Authorization header carries a user name present in the role table together with exactly that user's password.", "quantifier": "every role table, every header", "why_tests_cant": "All headers and all tables; the failing case is an absent key.", "anchors": ["baseauth.go:BaseAuth.Check:92-93", "baseauth.go:BaseAuth.getUserPassword"]}
{"id": "C35", "title": "Any admitted request with a non-empty password names a listed user with that password", "statement": "If a request is admitted and its password part is not empty then (lower-cased user, password part) is an entry of the role table.", "quantifier": "every role table, every header", "why_tests_cant": "All headers.", "anchors": ["baseauth.go:BaseAuth.Check", "baseauth.go:BaseAuth.getUserPassword"]}
{"id": "C36", "title": "Correct credentials are admitted", "statement": "For every table entry whose user is non-empty, contains no ':' and is unchanged by lower-casing, and whose password contains no ':', the standard header 'Basic '+base64(user:password), with any letter case of 'Basic' , is admitted.", "quantifier": "every role table and entry, all byte strings", "why_tests_cant": "Base64 round trip for all byte strings.", "anchors": ["baseauth.go:BaseAuth.getUserPassword"]}
{"id": "C37", "title": "Passwords containing ':' are compared whole", "statement": "A header carrying user:password, with ':' inside the password, is admitted iff the table has exactly that password.", "quantifier": "every table, user, password", "why_tests_cant": "Only for particular byte contents.", "anchors": ["baseauth.go:BaseAuth.getUserPassword:128-133"]}
{"id": "C38", "title": "Parameter lookup precedence", "statement": "PeekParam(k) is the first non-empty of: first URL parameter k, first query parameter k, first form parameter k (empty if none). PeekMultiParam(k) is all values of the first of the three sources that has any value for k.", "quantifier": "all argument collections and keys", "why_tests_cant": "All collections.", "anchors": ["ctx.go:Context.PeekParam", "ctx.go:Context.PeekMultiParam", "ctx.go:Context.PeekMultiStringParam"]}
{"id": "C39", "title": "PeekParam is the first of PeekMultiParam", "statement": "Whenever PeekMultiParam(k) is non-empty, PeekParam(k) is its first element.", "quantifier": "all argument collections and keys", "why_tests_cant": "Empty values in particular sources.", "anchors": ["ctx.go:Context.PeekParam", "ctx.go:Context.PeekMultiParam"]}
{"id": "C40", "title": "Boolean parameters", "statement": "PeekBoolParam(k) is false exactly when the looked-up value is, ignoring letter case, one of '', '0', 'f', 'false'.", "quantifier": "all argument collections and keys", "why_tests_cant": "All values.", "anchors": ["ctx.go:Context.PeekBoolParam"]}
{"id": "C41", "title": "SqueezeParams loses no form value", "statement": "For every form body and key, the entry of SqueezeParams for the key is absent iff the key is absent, a plain string iff it occurs once, otherwise a list with exactly its values (as a multiset).", "quantifier": "every form argument list", "why_tests_cant": "All lists.", "anchors": ["ctx.go:Context.SqueezeParams"]}
{"id": "C42", "title": "SqueezeParams keeps repeated values in order", "statement": "When a key occurs several times, its list in SqueezeParams is in order of occurrence.", "quantifier": "every form argument list", "why_tests_cant": "All lists.", "anchors": ["ctx.go:Context.SqueezeParams:237-242"]}
{"id": "C43", "title": "Context data behaves as a map and Clone is independent", "statement": "Get returns the value most recently Set for that key; Set on a clone is not visible in the original and vice versa, and a clone starts with the original's data.", "quantifier": "every history of Set/Clone on a family of contexts", "why_tests_cant": "All histories.", "anchors": ["ctx.go:Context.Set", "ctx.go:Context.Get", "ctx.go:Context.Clone"]}
{"id": "C44", "title": "Cookie domain defaults to the host without port", "statement": "For host strings h or h:digits, the default cookie domain is h, with one pair of enclosing brackets removed; a non-numeric suffix is not treated as a port.", "quantifier": "all byte strings", "why_tests_cant": "All strings.", "anchors": ["ctx.go:splitHost", "ctx.go:validOptionalPort", "ctx.go:Context.SetCookie"]}
{"id": "C45", "title": "File-system access through the file server is confined to the mounted root", "statement": "For every request path, each name the file server passes to the mounted fs.FS is '.' or a sequence of non-empty elements none of which is '.' or '..' (a valid fs path when it is valid UTF-8).", "quantifier": "all request paths", "why_tests_cant": "All byte strings; traversal bugs hide in unusual encodings.", "anchors": ["static/static.go:fileHandler.ServeHTTP", "static/fs.go:serveFile", "static/fs.go:ioFS.Open"]}
{"id": "C46", "title": "An embedded static mount only serves files below its file path", "statement": "For every request handled by a handler created by StaticFileFS(filePath, urlPath, fs), the opened name is filePath or lies below it.", "quantifier": "all request paths, all mounts", "why_tests_cant": "All byte strings, including percent-encoded ones.", "anchors": ["static_embed.go:StaticHandler.Run", "static_embed.go:Server.StaticFileFS", "static/static.go:fileHandler.ServeHTTP"]}
{"id": "C47", "title": "Directories are never listed", "statement": "Whatever the request (whose path does not end in /index.html), a file server created by FileServer answers a directory with 403; neither it nor ServeFile ever lets the answer depend on the entries of a directory.", "quantifier": "every request and file system", "why_tests_cant": "All file systems.", "anchors": ["static/fs.go:serveFile:644-648", "static/static.go:fileHandler.ServeHTTP"]}
{"id": "C48", "title": "Accepted ranges lie inside the content", "statement": "Every range parsed from a Range header has 0 <= start, 0 <= length and start+length <= size; a non-negative size in int64 never leads to overflow while parsing.", "quantifier": "every header, every size", "why_tests_cant": "All headers and 63-bit sizes.", "anchors": ["static/fs.go:parseRange"]}
{"id": "C49", "title": "Range headers mean what RFC 7233 says", "statement": "For every list of range specs first-last, first- and -suffix (with optional blanks and empty list elements), a Range header listing them selects, in order, exactly the specs' byte ranges clipped to the size, leaving out the first- specs that start at or beyond the end; it is answered as not overlapping iff there is a spec and none is left; a header with another unit than bytes is rejected.", "quantifier": "every list of specs with 63-bit numbers, every size", "why_tests_cant": "All headers.", "anchors": ["static/fs.go:parseRange"]}
{"id": "C50", "title": "A single satisfiable range returns exactly those bytes", "statement": "A GET with one satisfiable range and no failing precondition yields 206, Content-Range 'bytes start-end/size' and as body exactly the bytes start..end of the content.", "quantifier": "every content, every range", "why_tests_cant": "All contents.", "anchors": ["static/fs.go:serveContent"]}
{"id": "C51", "title": "Without a range the entire content is returned", "statement": "A GET with no Range header (or one disabled by If-Range, or whose ranges sum to more than the size, that sum fitting an int64) and no failing precondition yields 200 and the whole content, with matching Content-Length; a HEAD yields the same headers and an empty body.", "quantifier": "every content and request", "why_tests_cant": "All contents.", "anchors": ["static/fs.go:serveContent"]}
{"id": "C52", "title": "Unsatisfiable or malformed ranges give 416", "statement": "If the ranges are malformed or none overlaps the content, the response is 416, with 'Content-Range: bytes */size' in the no-overlap case, and no content byte is sent.", "quantifier": "every content and request", "why_tests_cant": "All headers.", "anchors": ["static/fs.go:serveContent:270-278"]}
{"id": "C53", "title": "Multi-range Content-Length equals the body length", "statement": "For a multipart/byteranges response the announced length is exactly the number of bytes of the encoded body, and the body contains each range's bytes in order.", "quantifier": "every list of ranges, content type and content", "why_tests_cant": "All lists.", "anchors": ["static/fs_utils.go:rangesMIMESize", "static/fs.go:serveContent:307-345"]}
{"id": "C54", "title": "Conditional requests are decided in RFC 7232 order", "statement": "If-Match (else If-Unmodified-Since) failing gives 412; then If-None-Match failing gives 304 for GET/HEAD and 412 otherwise; If-Modified-Since is only consulted without If-None-Match and only for GET/HEAD, giving 304; otherwise the content is served, ignoring Range iff If-Range fails.", "quantifier": "every combination of headers, modification times and response ETag", "why_tests_cant": "Product of five conditional headers with arbitrary values.", "anchors": ["static/fs.go:checkPreconditions", "static/fs.go:checkIfMatch", "static/fs.go:checkIfUnmodifiedSince", "static/fs.go:checkIfNoneMatch", "static/fs.go:checkIfModifiedSince", "static/fs.go:checkIfRange"]}
{"id": "C55", "title": "ETag lists are read element by element", "statement": "For an If-Match header that is a comma-separated list of valid ETags, the condition holds iff some listed ETag equals the response ETag and is strong; If-None-Match fails iff some listed ETag equals it up to the weak prefix; '*' as the only element always matches.", "quantifier": "every list of valid ETags, every response ETag", "why_tests_cant": "All lists.", "anchors": ["static/fs.go:scanETag", "static/fs.go:etagStrongMatch", "static/fs.go:etagWeakMatch", "static/fs.go:checkIfMatch", "static/fs.go:checkIfNoneMatch"]}
{"id": "C56", "title": "Header scanning terminates", "statement": "The If-Match and If-None-Match loops terminate for every header value, within one iteration per byte.", "quantifier": "all byte strings", "why_tests_cant": "All strings.", "anchors": ["static/fs.go:checkIfMatch", "static/fs.go:checkIfNoneMatch"]}
{"id": "C57", "title": "Content sniffing looks at 512 bytes, never fails and never reads out of bounds", "statement": "DetectContentType depends only on the first 512 bytes, always returns a non-empty type from a fixed list, and performs no out-of-range access.", "quantifier": "all byte strings", "why_tests_cant": "All byte strings, e.g. crafted MP4 box sizes.", "anchors": ["static/sniff.go:DetectContentType", "static/sniff.go:mp4Sig", "static/sniff.go:quicktimeSig"]}
{"id": "C58", "title": "A Content-Type set by the caller is respected by ServeContent", "statement": "If the response already has a Content-Type, ServeContent does not change it.", "quantifier": "every request", "why_tests_cant": "Depends on request headers.", "anchors": ["static/fs.go:serveContent:242-259"]}
{"id": "C59", "title": "Redirects keep only the query", "statement": "The redirect of '/index.html' goes to './' followed by '?query' iff the request had a query.", "quantifier": "every request", "why_tests_cant": "All requests.", "anchors": ["static/fs.go:localRedirect", "static/fs.go:serveFile:622"]}
{"id": "C60", "title": "Static handlers restore the request path", "statement": "After a static handler has run the request path is what it was before.", "quantifier": "all request paths", "why_tests_cant": "All byte strings, including percent signs.", "anchors": ["static.go:StaticFileHandler.Run", "static_embed.go:StaticHandler.Run", "static_embed_fix.go:FixStaticHandler.Run"]}
{"id": "C61", "title": "Dir is confined to its directory", "statement": "For every name, Dir(d).Open opens Clean(d) or a path lexically below it.", "quantifier": "all directories and names", "why_tests_cant": "All byte strings.", "anchors": ["static/fs.go:Dir.Open"]}
{"id": "C62", "title": "ServeFile rejects exactly the requests with a '..' path element", "statement": "ServeFile answers 400 and opens nothing iff the request path has an element (separated by / or \\) equal to '..'.", "quantifier": "all request paths", "why_tests_cant": "All strings.", "anchors": ["static/fs.go:containsDotDot", "static/fs.go:ServeFile"]}
{"id": "C63", "title": "File errors are reported without detail", "statement": "Opening errors map to 404 (not exist, or a path running through a non-directory), 403 (permission) or 500, with a fixed message independent of the error text.", "quantifier": "every error and file system", "why_tests_cant": "All errors.", "anchors": ["static/fs.go:toHTTPError", "static/fs.go:mapOpenError"]}
{"id": "C64", "title": "Trimming removes exactly the surrounding ASCII blanks", "statement": "TrimString/TrimBytes return the middle part of the input, with only ASCII blanks before and after it, that neither starts nor ends with a blank; they agree with each other and are idempotent. The ASCII letter test holds exactly for A-Z and a-z.", "quantifier": "all byte strings", "why_tests_cant": "All strings.", "anchors": ["internal/text/text.go:TrimString", "internal/text/text.go:TrimBytes"]}
{"id": "C65", "title": "Level names round-trip", "statement": "Parse(l.String()) = l for every valid level; String never panics and is 'unknown' exactly for invalid levels; among ASCII strings Parse accepts exactly the eight names (the seven and 'warn'), in any letter case.", "quantifier": "every integer level, every string", "why_tests_cant": "All ints and strings.", "anchors": ["logger/level/level.go"]}
{"id": "C66", "title": "The log threshold decides output", "statement": "A log call at level L writes exactly one record iff L <= the logger's configured level, otherwise it writes nothing and changes nothing; Panicf, Fatalf, Errorf, Warnf, Infof, Printf, Debugf and Tracef log at the level they are named after.", "quantifier": "every logger state, level, message", "why_tests_cant": "All states.", "anchors": ["logger/out.go:Logger.Log", "logger/out.go:Logger.Logf"]}
{"id": "C67", "title": "A log record carries the level it was logged at", "statement": "The level field of a record written by a call at level L is L's name.", "quantifier": "every logger state and level", "why_tests_cant": "All states.", "anchors": ["logger/out.go:Logger.Log:21"]}
{"id": "C68", "title": "Renaming a standard key renames its field", "statement": "After StdKeys(k,v), a field previously recorded under k's current name is found under v, with its value, and no field is lost; a key that is not a standard one, or an empty name, changes nothing.", "quantifier": "every logger state, key and name", "why_tests_cant": "All states.", "anchors": ["logger/logger.go:Logger.StdKeys", "logger/config/config.go:Config.StdKeys"]}
{"id": "C69", "title": "Logger configuration is copied, not shared", "statement": "SetConfig and Clone copy: later changes to the source configuration or logger (level, writer, key names, fields) do not affect the copy, nor vice versa.", "quantifier": "every history of operations", "why_tests_cant": "All histories.", "anchors": ["logger/logger.go:Logger.SetConfig", "logger/logger.go:Logger.Clone", "logger/config/config.go:Config.Clone"]}
{"id": "C70", "title": "Logged errors accumulate", "statement": "After any sequence of Error calls the record's error text is the texts in reverse order joined by ': ', nil errors ignored.", "quantifier": "every sequence of errors", "why_tests_cant": "All sequences.", "anchors": ["logger/logger.go:Logger.Error", "logger/out.go:Logger.Log"]}
{"id": "C71", "title": "Shutdown reaches the underlying server once", "statement": "However many goroutines call Shutdown concurrently (fewer than 2^64 calls), exactly one call reaches the underlying server and all others return nil at once.", "quantifier": "every number of callers and every interleaving", "why_tests_cant": "All interleavings.", "anchors": ["server_run.go:Server.Shutdown"]}
{"id": "C72", "title": "Run returns after both goroutines end, with the first error", "statement": "Run returns only after the watcher and the serving goroutine have ended; its result is the first non-nil error either produced; a failing listener makes Run return that error; cancellation leads to a shutdown.", "quantifier": "every interleaving of cancellation, signals, serve results", "why_tests_cant": "All interleavings.", "anchors": ["server_run.go:Server.Run"]}
{"id": "C73", "title": "Calling Shutdown makes Run return", "statement": "After Server.Shutdown has completed, Run returns without any further external event.", "quantifier": "every interleaving", "why_tests_cant": "A hang is not observable by a test in finite time.", "anchors": ["server_run.go:Server.Run:47-68", "server_run.go:Server.Shutdown"]}
{"id": "C74", "title": "Listening address", "statement": "Run listens on its address argument when given exactly one; with more than one it panics; the PORT environment variable and the :8080 default are never used by Run.", "quantifier": "every argument list and environment", "why_tests_cant": "All inputs.", "anchors": ["server.go:resolveAddress", "server_run.go:Server.Run:23-24"]}
{"id": "C75", "title": "Concurrent registration and lookup do not race", "statement": "No two concurrent calls among Add and Find access the same piece of router state, one of them writing, without holding a common lock.", "quantifier": "every tree and pair of calls", "why_tests_cant": "Schedules.", "anchors": ["tree.go:Tree.Find", "tree.go:Tree.Add"]}
{"id": "C76", "title": "Named parameter lists", "statement": "Params.Get returns the value list of the first entry with that name and reports presence correctly; ByName returns the first value, or the empty string if the name is absent.", "quantifier": "all parameter lists", "why_tests_cant": "All lists.", "anchors": ["params/params.go:Params.Get", "params/params.go:Params.ByName"]}
{"id": "C77", "title": "An unrelated registration changes no routing decision", "statement": "If the pattern of a newly added route does not match the request path, not even with its first segments covering the whole path, then Find gives the same answer (found or not, same set, same parameters) before and after, for every method.", "quantifier": "every history of well-formed routes, every added route and request", "why_tests_cant": "All histories and requests.", "anchors": ["tree.go:Tree.Add", "tree.go:Tree.Find"]}
{"id": "C78", "title": "Cookie values survive and cannot break the header", "statement": "For every value, the value that SetCookie stores in the response cookie consists of RFC 6265 cookie octets only, and query-unescaping it gives back the value.", "quantifier": "every byte string, every host and attribute", "why_tests_cant": "All byte strings, including control bytes, separators and non-UTF-8.", "anchors": ["ctx.go:Context.SetCookie"]}
{"id": "C79", "title": "A partial response is never empty", "statement": "Every 206 response carries at least one byte of the content.", "quantifier": "every request and content", "why_tests_cant": "All Range headers.", "anchors": ["static/fs.go:parseRange", "static/fs.go:serveContent"]}
{"id": "C80", "title": "Malformed Range headers are rejected", "statement": "A Range header with unit bytes that is not a comma-separated list of first-last, first- and -suffix specs is answered as invalid, whatever the content size.", "quantifier": "all byte strings, every size", "why_tests_cant": "All headers.", "anchors": ["static/fs.go:parseRange"]}
{"id": "C81", "title": "HTML is recognised exactly", "statement": "DetectContentType answers 'text/html; charset=utf-8' iff the first 512 bytes, after leading whitespace, start with one of seventeen HTML tags (letters in any case) followed by a space or '>'.", "quantifier": "all byte strings", "why_tests_cant": "All byte strings.", "anchors": ["static/sniff.go:htmlSig.match", "static/sniff.go:DetectContentType"]}
{"id": "C82", "title": "Plain text and binary data are told apart", "statement": "DetectContentType answers 'text/plain; charset=utf-8' only if the first 512 bytes start with a UTF-8 byte order mark or contain no binary control byte, and 'application/octet-stream' only if they contain one.", "quantifier": "all byte strings", "why_tests_cant": "All byte strings.", "anchors": ["static/sniff.go:textSig.match", "static/sniff.go:DetectContentType"]}
{"id": "C83", "title": "Serving content always returns", "statement": "ServeContent neither panics nor loops, whatever the headers of request and response, the size reported and the seeks that fail; a negative size is answered 200 with an empty body and without Content-Length or Accept-Ranges.", "quantifier": "every request, response so far, content and failure of a seek", "why_tests_cant": "All headers and contents.", "anchors": ["static/fs.go:serveContent", "static/fs.go:ServeContent"]}
{"id": "C84", "title": "The file server always answers with a file-serving status", "statement": "FileServer's handler and the three static handlers return for every request path and file system, with a status code among 200, 206, 301, 304, 403, 404, 412, 416 and 500.", "quantifier": "every request path, request header, file system and failure", "why_tests_cant": "All paths, file systems and failures.", "anchors": ["static/static.go:fileHandler.ServeHTTP", "static/fs.go:serveFile"]}
{"id": "C85", "title": "MessageKey names the message field", "statement": "After MessageKey(key), a message logged with Logf (Infof, Debugf, ...) is recorded under key.", "quantifier": "every logger state, key and message", "why_tests_cant": "All states.", "anchors": ["logger/logger.go:Logger.MessageKey", "logger/out.go:Logger.Logf"]}
{"id": "C86", "title": "Content sniffing follows the published table", "statement": "For every content, DetectContentType is the type of the first row of the WHATWG-style signature table (byte prefixes with masks and ignored leading whitespace, RIFF/ftyp containers, HTML tags, XML, text) that the first 512 bytes match, and application/octet-stream if none matches; the answer is unique.", "quantifier": "all byte strings", "why_tests_cant": "All byte strings.", "anchors": ["static/sniff.go:sniffSignatures", "static/sniff.go:DetectContentType"]}
{"id": "C87", "title": "The extension decides the content type", "statement": "A complete 200 answer of ServeContent (to a request without Content-Type) has the MIME type registered for the name's extension - the part from the last dot after the last slash - and the sniffed type only if none is registered.", "quantifier": "every name, content and MIME table", "why_tests_cant": "All names and tables.", "anchors": ["static/fs.go:serveContent:226-250"]}
{"id": "C88", "title": "A mount serves the files below it", "statement": "A GET below a static mount, for a path naming a readable regular file of the mounted file system, is answered 200 with exactly the file's bytes.", "quantifier": "every mount point, request target, file system and file", "why_tests_cant": "All paths and file systems.", "anchors": ["static.go:StaticFileFS", "static_embed.go:StaticEmbedFS", "static_embed_fix.go:FixStaticFileFS", "static/fs.go:serveFile"]}
{"id": "C89", "title": "Cookie returns what the client sent", "statement": "For every list of well-formed cookies in the Cookie header, Context.Cookie(name) gives the value of the first cookie of that name, and an error iff there is none or it is empty; Cookies.Get gives the first entry of that name.", "quantifier": "every cookie list and name", "why_tests_cant": "All headers.", "anchors": ["ctx.go:Context.Cookie", "ctx.go:Cookies.Get"]}
{"id": "C90", "title": "A cookie that was set can be read back", "statement": "If the client sends back the cookie set with SetCookie(name, value, ...), then Cookie(name) has that value.", "quantifier": "every name and value, among other cookies", "why_tests_cant": "All byte strings.", "anchors": ["ctx.go:Context.SetCookie", "ctx.go:Context.Cookie"]}
{"id": "C91", "title": "Log records hold the last value of each field", "statement": "After any sequence of Add, AddDebug and Merge calls on a logger, the next record has for every key (other than the level and error fields) the last value assigned to it, AddDebug counting only at level debug or finer; the calls themselves write nothing.", "quantifier": "every logger state and sequence of calls", "why_tests_cant": "All histories.", "anchors": ["logger/logger.go:Logger.Add", "logger/logger.go:Logger.AddDebug", "logger/logger.go:Logger.Merge", "logger/fields.go:Fields.Merge"]}
{"id": "C92", "title": "Concurrent requests do not influence each other", "statement": "However requests are interleaved with each other and with route changes, every answer (status, body, everything its handlers read and did) is one the server could have given to that request alone, with the routes in force at some time between its arrival and its answer; and an answer once given does not change.", "quantifier": "every set of requests, handler programs over the Context API, schedules, route changes and behaviours of the parameter pool", "why_tests_cant": "All interleavings.", "anchors": ["server_run.go:Server.ServeHTTP", "server_run.go:Server.runHTTP", "ctx.go:NewContext"]}
{"id": "C93", "title": "A Context keeps its URL parameters after its request", "statement": "User code that still refers to a Context (or a Clone of it) after its request was answered - e.g. a goroutine started with EGGo in an aborted request - reads the URL parameters of that request; at least never those of another request.", "quantifier": "every schedule and request mix", "why_tests_cant": "All interleavings.", "anchors": ["server_run.go:Server.runHTTP:124-125", "ctx.go:Context.Clone", "ctx.go:Context.UrlIds"]}
{"id": "C94", "title": "Request data flows between the handlers of a request", "statement": "Every Get(key) made while a request is handled returns the value of the last Set(key) made before it by a handler of the same request, and nil if there was none - also when other requests use the same keys.", "quantifier": "every schedule, request mix, key and handler program", "why_tests_cant": "All interleavings and programs.", "anchors": ["ctx.go:Context.Set", "ctx.go:Context.Get"]}
{"id": "C95", "title": "The response is what the handlers wrote", "statement": "If handlers ran, the response body is the concatenation of all their writes in order and the status the last one they set (200 if none), whatever errors they returned, whether they stopped or aborted. If none ran, the response is 401 with no body or 404 'not found'.", "quantifier": "every schedule, request mix and handler program", "why_tests_cant": "All interleavings and programs.", "anchors": ["ctx.go:Context.Write", "ctx.go:Context.WriteString", "server_run.go:Server.runHTTP", "server_run.go:Server.ServeHTTP"]}
{"id": "C96", "title": "Handlers read the parameters of their own request", "statement": "Every PeekParam and PeekMultiParam made by a handler is answered from what the matched route binds on the request's own path plus what handlers of this request added with UrlIds().Add before, then from its own query, then from its own form.", "quantifier": "every schedule, request mix, registered routes, key and handler program", "why_tests_cant": "All interleavings and programs.", "anchors": ["ctx.go:Context.PeekParam", "ctx.go:Context.PeekMultiParam", "server_run.go:Server.runHTTP"]}
{"id": "C97", "title": "Concurrent requests run the documented pipeline", "statement": "Also under concurrency, and with handlers that decide by what they read, the handlers of each request run one after another in the documented order, each at most once, and the calls made, what they asked for and the result are those of a pipeline run (so C18-C28 hold of every request).", "quantifier": "every schedule, request mix and handler program", "why_tests_cant": "All interleavings and programs.", "anchors": ["server_run.go:Server.runHTTP", "top_handler.go:HandlerSet.Run", "top_handler.go:HandlerSet.RunLast"]}
{"id": "C98", "title": "Every request comes to an end", "statement": "A request whose handlers (and goroutines) terminate can always take its next step, whatever other requests and route changes do in between, and is answered (or panics) after finitely many steps of its own.", "quantifier": "every state, schedule and handler program", "why_tests_cant": "All interleavings; a liveness property.", "anchors": ["server_run.go:Server.ServeHTTP", "server_run.go:Server.runHTTP", "top_handler.go:HandlerSet.Run"]}
{"id": "C99", "title": "A static mount answers exactly the paths below it", "statement": "After StaticFile(dir, url) or StaticFileFS(dir, url, fs), with no other route registered for the request, GET and HEAD requests whose path is url, a slash and anything are routed to the mount, and nothing else is; a GET for a readable regular file below the mount returns that file.", "quantifier": "every mount point, other registrations before and after, request path, file system, regexp iteration order", "why_tests_cant": "All mount points, histories and paths.", "anchors": ["static.go:Server.StaticFile", "static_embed.go:Server.StaticFileFS", "server.go:Server.AddReg", "server.go:Server.Find", "reg_tree.go:RegTree.Find"]}
{"id": "C100", "title": "A fixed static file is served at its URL", "statement": "After FixStaticFileFS(file, url, fs), GET and HEAD requests for url are routed to the handler of that file, whatever unrelated routes are registered.", "quantifier": "every url, file, other registrations, request path", "why_tests_cant": "All histories and paths.", "anchors": ["static_embed_fix.go:Server.FixStaticFileFS", "server.go:Server.Add", "tree.go:Tree.Find"]}
{"id": "C101", "title": "A Logger can be shared between goroutines", "statement": "Any number of goroutines may call any methods of one Logger (or one Config) at the same time without a data race. (Refuted; the exact table of the pairs of methods that can race is proved, and that any number of goroutines that avoid those pairs never race.)", "quantifier": "every number of goroutines, sequence of calls in each, schedule", "why_tests_cant": "All interleavings.", "anchors": ["logger/logger.go:Logger", "logger/out.go:Logger.Log", "logger/out.go:Logger.Logf", "logger/fields.go:Fields", "logger/config/config.go:Config"]}
{"id": "C102", "title": "Settings can be changed while the server runs", "statement": "While Run is active and requests are being served, every setter of the Server and of its BaseAuth may be called without a data race. (Refuted but for SetServerName and SetLoggerWriter; requests never race with each other; exact table of racing pairs.)", "quantifier": "every setter, number of requests, sequence of setter calls, schedule", "why_tests_cant": "All interleavings.", "anchors": ["server.go:Server", "baseauth.go:BaseAuth", "server_run.go:Server.Run", "server_run.go:Server.ServeHTTP", "server_run.go:Server.runHTTP"]}
{"id": "C103", "title": "Context methods can be called from goroutines of the request", "statement": "Goroutines started with EGGo may call the methods of the Context while the following handlers run and use it. (Refuted, even for two goroutines that only read parameters; exact table of racing pairs; Ctx, Logger, Debugf and EGGo are always safe.)", "quantifier": "every number of goroutines, sequence of calls in each, schedule", "why_tests_cant": "All interleavings.", "anchors": ["ctx.go:Context", "top_handler.go:HandlerSet.Run", "logger/logger.go:Logger.AddDebug"]}
{"id": "C104", "title": "The methods never deadlock", "statement": "Any number of goroutines may call any methods of shared Loggers' Config, one Logger, one Context and one Server in any order: some goroutine can always go on until all have returned, provided the log writer, error texts and field encoders do not themselves call the logger.", "quantifier": "every number of goroutines, sequence of calls in each, schedule", "why_tests_cant": "All interleavings; a liveness property.", "anchors": ["logger/logger.go:Logger", "logger/out.go:Logger.Log", "logger/config/config.go:Config", "ctx.go:Context", "server.go:Server"]}
{"id": "C105", "title": "No goroutine of a request outlives it", "statement": "When a request is answered, every goroutine its handlers started with EGGo or EGTryGo has ended. (Refuted: aborted requests, requests refused by the initialiser, and goroutines started by the last handler; otherwise true, and always true when the last handler is called.)", "quantifier": "every schedule, handler and goroutine program", "why_tests_cant": "All interleavings.", "anchors": ["ctx.go:Context.EGGo", "ctx.go:Context.EGWait", "server_run.go:Server.runHTTP:153-166", "top_handler.go:HandlerSet.Run"]}
{"id": "C106", "title": "Ctx() is done exactly when it should be", "statement": "Ctx() of a request is done, for whoever asks in a handler or goroutine, exactly if Abort was called, a goroutine returned an error, EGWait has returned, the request has returned, or the server shuts down; whoever waits for it goes on only, and always, after that.", "quantifier": "every schedule, handler and goroutine program", "why_tests_cant": "All interleavings.", "anchors": ["ctx.go:NewContext", "ctx.go:Context.Ctx", "ctx.go:Context.Abort", "server_run.go:Server.runHTTP"]}
{"id": "C107", "title": "EGSetLimit bounds the active goroutines", "statement": "If EGSetLimit is only called while no goroutine of the request is active, there are never more active ones than the limit last set; EGTryGo refuses exactly when the limit is reached; an ended goroutine can always leave. (A limit set later makes the request hang: proved.)", "quantifier": "every schedule, limit, handler and goroutine program", "why_tests_cant": "All interleavings.", "anchors": ["ctx.go:Context.EGSetLimit", "ctx.go:Context.EGTryGo", "ctx.go:Context.EGGo"]}
{"id": "C108", "title": "Which errors the last handler and the caller get", "statement": "The last handler is given the error of the handlers and the error of the goroutine that failed first in time, one wrapped with the other's text if there are both; a request returns what its last handler returned, without one the same combination, if aborted the handlers' error only, if refused the initialiser's error with the path.", "quantifier": "every schedule, handler and goroutine program", "why_tests_cant": "All interleavings.", "anchors": ["server_run.go:Server.runHTTP:142-166", "top_handler.go:HandlerSet.RunLast"]}
{"id": "C109", "title": "Requests with goroutines come to an end", "statement": "No request runs for ever, and every request whose handlers and goroutines are finite returns. (The second half is refuted: a goroutine that waits for Ctx() keeps its request waiting, as do some uses of limits; otherwise a request only ever waits for Ctx().)", "quantifier": "every schedule, handler and goroutine program", "why_tests_cant": "All interleavings; a liveness property.", "anchors": ["ctx.go:Context.EGGo", "ctx.go:Context.EGWait", "server_run.go:Server.runHTTP:153-166", "top_handler.go:HandlerSet.Run"]}
{"id": "C110", "title": "The pipeline is the documented one whatever goroutines do", "statement": "Handlers are called in the documented order, each at most once, whatever goroutines do at the same time; one is only started if all before returned nil and neither Stop nor Abort had been called by anybody when the previous one (other than Init) ended; main is not called if SkipMain was called before; if nothing ended the pipeline early all are called.", "quantifier": "every schedule, handler and goroutine program", "why_tests_cant": "All interleavings.", "anchors": ["top_handler.go:HandlerSet.Run", "server_run.go:Server.runHTTP", "ctx.go:Context.Stop"]}
{"id": "C111", "title": "After Abort no further handler is called", "statement": "Once anybody has called Abort, no further handler of the request is started, nor its last handler. (Refuted: a goroutine that aborts while the request waits for it does not prevent the last handler; true for an Abort before the handler that ended last had ended.)", "quantifier": "every schedule, handler and goroutine program", "why_tests_cant": "All interleavings.", "anchors": ["ctx.go:Context.Abort", "server_run.go:Server.runHTTP:153-164"]}
{"id": "C112", "title": "Stopped and Aborted tell what was asked for", "statement": "Stopped, Aborted and the SkipMain flag, read by any handler or goroutine, are set exactly if Stop, Abort, SkipMain has been called by any of them before.", "quantifier": "every schedule, handler and goroutine program", "why_tests_cant": "All interleavings.", "anchors": ["ctx.go:Context.Stop", "ctx.go:Context.Abort", "ctx.go:Context.SkipMain", "ctx.go:Context.Stopped", "ctx.go:Context.Aborted"]}
{"id": "C113", "title": "The client keeps the cookie that was asked for", "statement": "A client that reads the Set-Cookie header of SetCookie gets the name, the value (after unescaping), the path (root if none), the domain (the request's host if none), the flags and the lifetime asked for; a negative age deletes the cookie. (Refuted: a negative age sends the same bytes as age 0; percent escapes in the path are decoded and can add attributes; SameSite None sets secure.)", "quantifier": "every host, name, value, age, path, domain, flags and SameSite mode", "why_tests_cant": "All byte strings; the reader is the client.", "anchors": ["ctx.go:Context.SetCookie", "ctx.go:splitHost"]}
{"id": "C114", "title": "Every SetCookie call sends its cookie", "statement": "Every SetCookie call adds a Set-Cookie header, so cookies of the same name with different paths or domains are all sent. (Refuted: one header per name; proved: names in order of first use, each with the last call's cookie under the SameSite mode in force at that call.)", "quantifier": "every sequence of SetCookie and SetSameSite calls", "why_tests_cant": "Call sequences of any length.", "anchors": ["ctx.go:Context.SetCookie", "ctx.go:Context.SetSameSite"]}
{"id": "C115", "title": "The challenge shows the configured message", "statement": "The WWW-Authenticate header of every refused request is read by a client as the realm and charset last set with SetMessage (or the defaults). (Refuted: quotes, backslashes and line breaks in them are not escaped; true exactly without these.)", "quantifier": "every history of setters, message, charset, request and server", "why_tests_cant": "All byte strings; the reader is the client.", "anchors": ["baseauth.go:BaseAuth.SetMessage", "baseauth.go:BaseAuth.Check"]}
{"id": "C116", "title": "Requests have different ids", "statement": "Two requests that arrive at different nanoseconds or for different paths have different UniqId. (Refuted: a 64-bit checksum; true for the same path and any two times less than 9999947.8 seconds apart - the exact bound - and for paths of one length that differ within eight bytes at the same time.)", "quantifier": "all times from 2001 to 2262 and all paths", "why_tests_cant": "Collisions of a checksum over all pairs of inputs.", "anchors": ["ctx.go:NewContext:79", "ctx.go:Context.UniqId"]}
{"id": "C117", "title": "A cloned Context can be used like the original", "statement": "Calling a method on the clone of a Context does not panic unless it would on the original. (Refuted: a clone has no logger, goroutine group or cancel function; the calls that panic are given exactly: logger methods, Stop, SkipMain, Abort, Debugf, CalledHandles until SetLogger; Abort and EG methods always.)", "quantifier": "every history of method calls on a request's contexts", "why_tests_cant": "Call histories of any length.", "anchors": ["ctx.go:Context.Clone", "ctx.go:Context.Stop", "ctx.go:Context.Abort", "ctx.go:Context.EGGo"]}
{"id": "C118", "title": "A clone has its own flags and mode and shares the response", "statement": "Stopped and Aborted are true exactly if Stop or Abort was called on that very Context, so a clone cannot stop the request; the request is cancelled exactly by Abort on the original; all writes through any of them appear in the one response body in order, and every cookie carries the SameSite mode of the Context it was set on, which a clone inherits once.", "quantifier": "every history of method calls on a request's contexts", "why_tests_cant": "Call histories of any length.", "anchors": ["ctx.go:Context.Clone", "ctx.go:Context.Stopped", "ctx.go:Context.SetSameSite", "ctx.go:Context.Write"]}
{"id": "C119", "title": "Requests, registrations and logging never deadlock", "statement": "Goroutines that serve requests, register routes, build sets and log never wait for each other for ever, also when handlers register routes or serve further requests themselves and log Writers call the package, provided no set that is in use is modified, Writers do not log themselves and user code returns: every run is finite and ends with all calls returned. A Writer that logs through its own Logger never returns.", "quantifier": "every number of goroutines, every list of calls each makes (user code inside calls nested to any depth), every schedule", "why_tests_cant": "Deadlock freedom over all programs and interleavings.", "anchors": ["gorouter.go:Router", "top_handler.go:HandlerSet", "tree.go:Tree.Add", "tree.go:Tree.Find", "server_run.go:runHTTP", "logger/logger.go", "logger/out.go", "logger/config/config.go"]}
{"id": "C120", "title": "A handler set in use can be modified", "statement": "Calling Before, After, Last, Use, Clone on a handler set, or registering a route with it, returns, also while requests run it. (Refuted: a handler that does so to its own set never returns, whatever else happens; proved when no handler modifies sets or serves requests itself.)", "quantifier": "every number of goroutines, every list of calls each makes, every schedule", "why_tests_cant": "Deadlock freedom over all programs and interleavings.", "anchors": ["top_handler.go:HandlerSet.Run", "top_handler.go:HandlerSet.Before", "top_handler.go:HandlerSet.Clone", "server.go:Server.Add"]}
{"id": "C121", "title": "A handler that hangs holds up nobody else", "statement": "If some handlers never return, every other goroutine's requests, registrations and logging still return (no set in use is modified, Writers return and do not log).", "quantifier": "every number of goroutines, every list of calls each makes, every schedule", "why_tests_cant": "Liveness of all other goroutines over all programs and interleavings.", "anchors": ["top_handler.go:HandlerSet.Run", "server_run.go:runHTTP", "tree.go:Tree.Find"]}
{"id": "C122", "title": "A server can be run, stopped and run again", "statement": "Cancelling its context ends every Run whose listener the underlying server knows, the second Run of a server like the first. (Refuted: once Shutdown has been called, by the program or by a cancelled Run, every later Run without a shutdown time out ends only by a signal or a failure of Serve, whatever is cancelled and however often Shutdown is called; and without SetListener it serves a closed listener. Proved for a positive time out, for servers nobody has shut down, and for signals.)", "quantifier": "every history of Run, Shutdown and setters, every schedule of the goroutines in each Run", "why_tests_cant": "Histories of any length, all interleavings, and a hang is not observable in finite time.", "anchors": ["server_run.go:Server.Run", "server_run.go:Server.Shutdown", "server.go:Server.SetListener"]}
{"id": "C123", "title": "Shutdown before Run is harmless", "statement": "Calling Shutdown on a server that has not been run neither panics nor prevents stopping it later. (Refuted: the first call panics exactly if there is no underlying server, and any call disables later Shutdowns and cancellation.)", "quantifier": "every history of setters and Shutdown calls before the first Run, every schedule afterwards", "why_tests_cant": "Histories and interleavings.", "anchors": ["server_run.go:Server.Shutdown", "server.go:Server.SetServer"]}
{"id": "C124", "title": "A server configured for TLS serves nothing in the clear", "statement": "If a certificate or key file was set, everything served is inside TLS. (Refuted: with only one of the two names the server silently serves plain HTTP; with both there is exactly one TLS layer around the listener it has.)", "quantifier": "every history of Run, Shutdown and setters, every schedule", "why_tests_cant": "Histories and interleavings.", "anchors": ["server_run.go:Server.Run:70-87", "server.go:Server.SetServerTLS"]}
{"id": "C125", "title": "Concurrent lookups share parameter objects without mixing parameters", "statement": "However many lookups and requests run at the same time and whatever objects the shared pool hands out, each lookup and each request ends with the result and the parameters it would have alone; no object is used by two of them, used after it was given back, or given back twice; what the pool holds is empty; nothing leaks; nobody waits and every schedule ends.", "quantifier": "every route tree, every list of lookups and requests, every handler, every schedule of the single operations on parameter objects, every behaviour of the pool and the garbage collector", "why_tests_cant": "Interleavings at the granularity of single operations and histories of a shared pool.", "anchors": ["tree.go:Tree.Find", "tree.go:cloneArgs", "reg_tree.go:RegTree.Find", "server.go:Server.Find", "server_run.go:runHTTP:123-128"]}
{"id": "C126", "title": "Serving requests in turn needs a bounded number of parameter objects", "statement": "Requests served one after the other reuse the objects of earlier ones, so the number of objects depends on the routes only. (Refuted: each lookup of a path with segments makes one new object and leaves it in the pool; exactly that many are made when the pool has an object for each node of the tree; never more than one per node and two per lookup.)", "quantifier": "every route tree, every sequence of requests, every state of the pool", "why_tests_cant": "Sequences of any length.", "anchors": ["tree.go:Tree.Find:105-116", "tree.go:cloneArgs"]}
{"id": "C127", "title": "Clones are copies exactly while no list is extended behind another one's back", "statement": "In a program that keeps no slices of its own, every list of every router, handler set and registered route is what it would be if Clone and registration copied it, as long as each append either goes to new storage for certain or is made on a list no longer list shares storage with; and an append of new handlers that is not so made can spoil another list under some growth policy of the runtime.", "quantifier": "every history of calls on any number of routers, handler sets, clones and routes, every growth policy of the runtime", "why_tests_cant": "Histories of any length and unspecified capacities chosen by the runtime.", "anchors": ["gorouter.go:Router.Clone", "gorouter.go:Router.LastAfter", "top_handler.go:HandlerSet.Clone", "top_handler.go:HandlerSet.Before", "top_handler.go:HandlerSet.After", "server.go:Server.Add"]}
{"id": "C128", "title": "Which of several overlapping routes answers", "statement": "A request is answered by the registration whose whole route fits the path and that goes ahead of every other registration of which some leading part fits the path: where two routes part (at a different literal, or at a parameter even of the same name), the one whose branch was opened by the earlier registration goes ahead; among registrations of the very same literal route the latest one for the method counts. At most one registration answers and if none does the request is not found.", "quantifier": "every history of registrations of well-formed routes, every method and path", "why_tests_cant": "All histories and all paths.", "anchors": ["tree.go:Tree.Find", "tree.go:Tree.Add", "tree.go:node.nextNodes", "tree.go:node.addMethod"]}
{"id": "C129", "title": "What one more registration changes", "statement": "Adding a route changes the answer to a request exactly if it takes the request over: some leading part of it fits the whole path and it is the same literal route for the method, or it runs ahead on a branch opened before the one that answered. Then it answers itself if its whole route fits and the method is right, and otherwise nobody answers any more. A request nobody answered is answered by the newcomer or still by nobody.", "quantifier": "every history of registrations of well-formed routes, every further registration, every method and path", "why_tests_cant": "All histories and all paths.", "anchors": ["tree.go:Tree.Find", "tree.go:Tree.Add", "tree.go:node.nextNodes"]}
{"id": "C130", "title": "Which routes can ever be served", "statement": "A registration is served for some request with a given method exactly if it goes ahead of, or has all its segments literally in common with, every registration with a leading part at least as general as its route, and no later registration of the same literal route answers the method; all other registrations are dead.", "quantifier": "every history of registrations of well-formed routes, every registration and method in it", "why_tests_cant": "Quantifies over all request paths for each history.", "anchors": ["tree.go:Tree.Find", "tree.go:Tree.Add", "tree.go:node.nextNodes", "tree.go:node.addMethod"]}
{"id": "C131", "title": "What a request does, from the calls that built the server", "statement": "For a server built by any history of calls on routers, handler sets, clones and the server itself (keeping the discipline of C127), a request is first subject to authentication, then goes to the path route that answers it (C128) with its URL parameters, else to the latest registration of a matching expression, else gets 404; it runs the handlers that were in the router or set when the route was registered, with the session initialiser, log level and authentication set last. For ordinary handlers: Init of the main handler, the handlers in front, the main handler, those behind and the last handler, each once and in order.", "quantifier": "every history of building calls, settings and requests, every growth policy, every request, every map order and goroutine order", "why_tests_cant": "Histories of any length and all requests.", "anchors": ["server_run.go:Server.ServeHTTP", "server_run.go:Server.runHTTP", "server.go:Server.Add", "server.go:Server.AddReg", "gorouter.go:Router.Use", "gorouter.go:Router.UseReg", "top_handler.go:HandlerSet.Run"]}
{"id": "C132", "title": "What happens to routers, sets and clones afterwards does not change how requests are served", "statement": "Calls that register no route and change no setting of the server (configuring routers and sets, cloning, serving requests) leave the answer to every request as it was, under the discipline of C127.", "quantifier": "every history, every sequence of further calls, every request", "why_tests_cant": "Histories of any length and all requests.", "anchors": ["gorouter.go:Router", "top_handler.go:HandlerSet", "server_run.go:Server.ServeHTTP"]}
{"id": "C133", "title": "A new route leaves the requests it does not take over as they were", "statement": "After one more registration every request a path route answered is served exactly as before, unless the new route has a path that takes the request over (C129); a new expression never changes it.", "quantifier": "every history, every further registration, every request", "why_tests_cant": "Histories of any length and all requests.", "anchors": ["server.go:Server.Add", "server.go:Server.AddReg", "gorouter.go:Router.Use", "gorouter.go:Router.UseReg", "server_run.go:Server.ServeHTTP"]}
{"id": "C134", "title": "Which file a static mount opens, for every request", "statement": "A static handler opens exactly one name of the file system it serves: what is left of the (already decoded) request path below the mount point is percent-decoded once more and its elements are followed from the root of the file system (directory mounts) or from the mounted directory (embedded mounts), where .. goes up; a fixed file is opened by its own name, decoded, whatever the request. The thing of that name is served by its kind (file, directory: 403, error: 404/403/500). If the last element is index.html nothing is opened and the answer is a redirect.", "quantifier": "every file system, mount point, mounted directory without .., request and request path", "why_tests_cant": "All paths, with any nesting of escapes.", "anchors": ["static.go:StaticFileHandler.Run", "static_embed.go:StaticHandler.Run", "static_embed_fix.go:FixStaticHandler.Run", "static/static.go:fileHandler.ServeHTTP", "static/fs.go:serveFile"]}
{"id": "C135", "title": "The request path after a static handler, exactly", "statement": "A static handler leaves the request path decoded and tidied once more (the elements followed from the root); it is unchanged exactly if no percent escape was left in it.", "quantifier": "every file system, request and request path", "why_tests_cant": "All paths, with any nesting of escapes.", "anchors": ["static.go:StaticFileHandler.Run", "static_embed.go:StaticHandler.Run", "static_embed_fix.go:FixStaticHandler.Run"]}
{"id": "C136", "title": "Every file of an embedded file system can be requested through a mount of any of its directories", "statement": "Whatever directory of an embedded file system is mounted, and at whatever plain mount point, for every file of the whole file system (inside or outside the directory, index.html included) there is a request target below the mount point that is answered with this file (dots and slashes encoded twice). Mounting a directory does not confine requests to it.", "quantifier": "every embedded file system, mounted directory, mount point, file and server with such a mount where no other route claims its paths", "why_tests_cant": "All file systems and names; the existence of a target for each.", "anchors": ["static_embed.go:StaticHandler.Run", "static_embed.go:Server.StaticFileFS", "static/static.go:fileHandler.ServeHTTP"]}
{"id": "C137", "title": "Mount points with dots answer exactly the paths in which each dot is any one character", "statement": "A directory mounted at a URL with dots is found for GET and HEAD exactly for the paths that consist of the URL with every dot replaced by one character other than a newline (UTF-8 encoded, or one stray byte), a slash and anything; paths not below the URL as written are then looked up in the file system in full.", "quantifier": "every server, every mount point of ordinary characters and dots, every method and byte path that no other registration claims", "why_tests_cant": "All byte strings, valid UTF-8 or not.", "anchors": ["static.go:Server.StaticFile", "static_embed.go:Server.StaticFileFS", "server.go:Server.AddReg", "reg_tree.go:RegTree.Find"]}
{"id": "C138", "title": "Loggers and configurations behave as values", "statement": "Every history of configuration and logger calls panics, or prints its records, exactly as the same calls on plain values without any sharing: a configuration is a level, a writer and the names of the four standard keys; a logger is a copy of a configuration, the texts of its errors and its fields; Clone, Config and SetConfig copy. Every record printed has the fields of its logger at the time of the call, the level and the joined errors under the names then in force.", "quantifier": "every finite history of calls on any number of configurations and loggers, every JSON encoder and every order of map iteration", "why_tests_cant": "Histories of any length over any number of aliased objects.", "anchors": ["logger/logger.go:Logger", "logger/config/config.go:Config"]}
{"id": "C139", "title": "The complete response of ServeContent", "statement": "For every request, response so far, file name, modification time and seekable content, status, body and every single header field of the response are determined by: the conditional headers (412, 304 with the content headers removed), If-Range, and the Range header (200 whole, 206 one range, 206 multipart, 416 no overlap, 416 malformed); Last-Modified is sent iff the modification time is known, Content-Type is set iff the request has none, Content-Length unless a Content-Encoding was set, Accept-Ranges with every 200 and 206; all other header fields stay as they were. A content that cannot be sized gives 500 unless a precondition answers first.", "quantifier": "every request, response so far, name, modification time and content", "why_tests_cant": "All combinations of conditional, range and type headers; every header field.", "anchors": ["static/fs.go:ServeContent", "static/fs.go:serveContent", "static/fs.go:checkPreconditions", "static/fs.go:writeNotModified", "static/fs_utils.go:Error"]}
{"id": "C140", "title": "When Run returns nil, nothing is being served any more", "statement": "If Run returned nil, no connection is open and none will be. (Refuted: with a call of Shutdown still waiting and no shutdown timeout, Run returns nil at once when its context is cancelled; and when the context is cancelled before the listener is known. Proved in all other cases; with a shutdown timeout only the second is excluded.)", "quantifier": "every reachable state of a server with any number of Shutdown calls, signals, cancellations, listener failures", "why_tests_cant": "All interleavings of Run's two goroutines, callers of Shutdown and the environment.", "anchors": ["server_run.go:Server.Run", "server_run.go:Server.Shutdown"]}
{"id": "C141", "title": "When Shutdown returns nil, nothing is being served any more", "statement": "If a call of Shutdown returned nil, no connection is open and none will be. (Refuted: a second call returns nil at once while the first one waits. Proved for the call that reaches the underlying server, unless that came before the listener was known or Run's own shutdown ended with an error.)", "quantifier": "every reachable state of a server with any number of Shutdown calls, signals, cancellations, listener failures", "why_tests_cant": "All interleavings of Run's two goroutines, callers of Shutdown and the environment.", "anchors": ["server_run.go:Server.Run", "server_run.go:Server.Shutdown"]}
{"id": "C142", "title": "The error Run returns names its cause", "statement": "As long as closing the listener does not fail, an error returned by Run is that of its serving goroutine unchanged, or the text 'context canceled: context deadline exceeded' - only with a shutdown timeout -, or 'server shutdown: SIGNAL: context canceled' - only if the context is cancelled. The serving goroutine fails before listening only if certificate files are configured, and never ends without error before listening.", "quantifier": "every reachable state of a server", "why_tests_cant": "All interleavings of Run's two goroutines, callers of Shutdown and the environment.", "anchors": ["server_run.go:Server.Run"]}
{"id": "C143", "title": "Log levels belong to loggers, the names of called handlers to contexts", "statement": "LoggerLevel answers the level last set on the context's logger through whatever context had it then (debug for a fresh request); CalledHandles answers, when that level is debug or above, exactly the names added to that very context while its logger was at debug level, in order, and otherwise the fixed text 'available in debug mode only'.", "quantifier": "every history of calls on the contexts of a request, their clones and loggers shared between them", "why_tests_cant": "Histories of any length with any sharing of loggers.", "anchors": ["ctx.go:Context.SetLoggerLevel", "ctx.go:Context.LoggerLevel", "ctx.go:Context.AddDebugHandleName", "ctx.go:Context.CalledHandles", "ctx.go:Context.Clone"]}
{"id": "C144", "title": "The complete response of a static mount", "statement": "A GET or HEAD request below a StaticFile or StaticFileFS mount point (and a GET or POST request of a FixStaticFileFS route) that no other registration claims is routed to the mount and answered completely as follows, adding to the response so far: a name ending in index.html gets a 301 to './' with the request URI, opening nothing; otherwise exactly the thing named by the decoded rest of the path is opened; a regular file is answered with the status, body and every header field of ServeContent for its contents, base name and date (C139); a directory 403; what cannot be opened or examined 404, 403 or 500 by kind of error, with the plain-text error fields and no others. There is exactly one such answer.", "quantifier": "every server setup, request, response so far, file system and regular file below 2^63 bytes; mount points of ordinary characters and dots", "why_tests_cant": "Unbounded paths, escapes, headers, ranges and file systems, composed with routing.", "anchors": ["static.go:StaticFile", "static_embed.go:StaticFileFS", "static_embed.go:FixStaticFileFS", "static/fs.go:serveFile", "static/fs.go:ServeContent", "server_run.go:Server.runHTTP"]}
{"id": "C145", "title": "Handlers and goroutines do what they were written to do and are told what happened", "statement": "In every execution of a request the calls made by the handlers and by each function given to EGGo or EGTryGo are a run of that very function in which Stopped/Aborted, Ctx().Err(), EGTryGo and EGWait return what the execution shows: EGTryGo true exactly when it started a goroutine, EGWait only after all goroutines have gone and with the error of the first that failed. The i-th goroutine runs the function given to the i-th start, and nothing else happens on its behalf.", "quantifier": "every execution of a request with any handlers and goroutines", "why_tests_cant": "All interleavings of any number of goroutines.", "anchors": ["ctx.go:Context.EGGo", "ctx.go:Context.EGTryGo", "ctx.go:Context.EGWait", "ctx.go:Context.Stopped", "ctx.go:Context.Aborted", "server_run.go:Server.runHTTP"]}
{"id": "C146", "title": "Handlers of concurrently served requests do what they were written to do", "statement": "What is observed of an answered request, whatever other requests, route changes and pool losses happen around it, is a sequence of runs of SesInit and of the parts of the set it was routed to - Init, before handlers, main, after handlers, and the last handler given exactly the error it is reported to be given - each making exactly the calls its code makes when it is told what the observation says, where Stopped, Aborted, main-skipped, Ctx().Err(), LoggerLevel, CalledHandles and the goroutine results are those determined by what happened before in that same request, and of waiting for the goroutines. Nothing else is observed.", "quantifier": "every server, route table history, number of requests and schedule", "why_tests_cant": "All interleavings of any number of requests.", "anchors": ["server_run.go:Server.ServeHTTP", "server_run.go:Server.runHTTP", "top_handler.go:HandlerSet.Run", "top_handler.go:HandlerSet.RunLast", "ctx.go:Context"]}
{"id": "C147", "title": "Exactly which calls panic, and what whole histories of a server do", "statement": "For every history of building calls, authentication settings, SesInit, level changes and requests, one after the other: a building call returns exactly if the router or handler set it is made on exists, an expression is registered for one of the eleven known methods and a set is given where one is needed; an authentication setting returns exactly if there is an authentication object; the first call that does not panics and ends the history; every request in between does exactly what the plan of that moment says (C131), or panics with it. A history whose calls are all in order, with a main handler on every route and code that does not panic, runs to its end.", "quantifier": "every history in which the caller keeps no slices and appends to clones are safe (C127), routes are well formed, for every map iteration order", "why_tests_cant": "Histories of any length.", "anchors": ["gorouter.go:Router", "top_handler.go:HandlerSet", "server.go:Server", "reg_tree.go:RegTree.Add", "server_run.go:Server.ServeHTTP"]}
{"id": "C148", "title": "Authentication follows the settings last made and the map shared with the caller", "statement": "For every sequence of SetUse, SetMessage, SetLogFunc, SetCheckAccessFunc, SetRoles and changes the caller makes to maps - including the map handed to SetRoles and the one Roles returns, before or after handing it over - a request is served by the settings last made: with authentication off, or the access function saying no, as without it; a nil access or log function or one that panics panics; otherwise it is served exactly if the user it shows (lower-cased, non-empty) has that password in the map in use at that moment, or has no entry and shows no password, and is refused with 401 and the configured challenge if not, after one log call with user, password and decision exactly if a log function was ever set. Use, Message and Roles return what was last set. Of these operations only a write to a nil map panics.", "quantifier": "every sequence of settings and map changes, one after the other, and every request", "why_tests_cant": "Histories of any length with aliased maps.", "anchors": ["baseauth.go:NewBaseAuth", "baseauth.go:BaseAuth.SetRoles", "baseauth.go:BaseAuth.Roles", "baseauth.go:BaseAuth.SetLogFunc", "baseauth.go:BaseAuth.SetMessage", "baseauth.go:BaseAuth.SetUse", "baseauth.go:BaseAuth.SetCheckAccessFunc", "baseauth.go:BaseAuth.Check", "server_run.go:Server.ServeHTTP"]}
{"id": "C149", "title": "Which requests are reported in the standard log, and how", "statement": "A request that is refused by authentication or panics adds nothing to the standard log. Any other adds exactly one report, '[remote address] text', if it ends with an error, and nothing if it does not, where the error is: \"path 'P' not found\" without a route; \"path 'P': text\" if SesInit fails; else what the last handler returns; without one the error of the handler that ended the pipeline, preceded by that of the first failed goroutine; for an aborted request the error of the handler that ended it.", "quantifier": "every server, request, handler behaviour and completion order of goroutines", "why_tests_cant": "Unbounded pipelines and error texts.", "anchors": ["server_run.go:printError", "server_run.go:Server.ServeHTTP", "server_run.go:Server.runHTTP", "top_handler.go:HandlerSet.RunLast"]}
{"id": "C150", "title": "Every line of the standard log starts with the address of a client", "statement": "Whatever is requested, every line a request adds to the standard log starts with the time and the address it came from.", "quantifier": "every request target without raw line breaks, server and handler behaviour", "why_tests_cant": "A statement about all request targets, including escapes.", "anchors": ["server_run.go:printError", "server_run.go:Server.runHTTP"]}
{"id": "C151", "title": "Directory listings of package static", "statement": "With directory display switched on (serveFile's showDir; the exported functions leave it off, C47) a directory asked for with its slash and without index.html is answered with a page that lists every entry exactly once in byte order of the names, directories with a slash, each as a link whose text is the HTML-escaped name (no raw <, >, quotes; unambiguous); an unreadable directory is a 500. A directory asked for without its slash is redirected to its last element with a slash, and with canonical redirects a file asked for with a slash to ../ and its last element.", "quantifier": "every directory with distinct names, path, response so far and file system", "why_tests_cant": "Unbounded sets of names and paths.", "anchors": ["static/fs.go:dirList", "static/fs.go:serveFile", "static/fs_utils.go:htmlReplacer"]}
{"id": "C152", "title": "What brings the process down and what can wait, in a request with goroutines", "statement": "While a request runs, the process goes down exactly when a handler's panic ends the request, a goroutine's function panics, or a limit is set over another one while goroutines are active; nothing happens after that. A handler or goroutine waits only for: Ctx() when it waits for it; an active goroutine to leave when it calls EGGo with the limit reached; all goroutines when a handler calls EGWait; for ever when a goroutine calls EGWait. Everything else it calls goes on at once (limits set only while no goroutine is active).", "quantifier": "every request, all programs of handlers and goroutines, every interleaving", "why_tests_cant": "Statement about all schedules and reachable states.", "anchors": ["ctx.go:Context.EGGo", "ctx.go:Context.EGTryGo", "ctx.go:Context.EGSetLimit", "ctx.go:Context.EGWait", "server_run.go:Server.runHTTP"]}
{"id": "C153", "title": "Directories of an fs.FS read through static.FS", "statement": "Readdir(count) on a directory opened through static.FS returns for every file system that keeps to fs.ReadDirFile: with count <= 0 all remaining entries, with count > 0 exactly the next count entries, or what is left and io.EOF - never more; entries whose Info fails are left out without shortening the page; a failing read returns what was read before it, with the error. Reading page by page gives every entry exactly once in its order, all pages but the last full, and ends with io.EOF. A file that is no directory gives an error.", "quantifier": "every directory, count, behaviour of ReadDir within its contract (pages of any size, failures) and set of entries without information", "why_tests_cant": "Directories of any size and every way ReadDir may split them.", "anchors": ["static/fs.go:ioFile.Readdir"]}
{"id": "C154", "title": "What the server itself logs", "statement": "A server's log level and writer are what SetLogLevel and SetLoggerWriter last set (debug and standard output before that), whatever SesInit, handlers and other code do with the loggers and configurations they have. Server.Debugf, which also announces static mounts, writes nothing below level debug, and else exactly one record, to that writer, with exactly the time, the message, the level and an empty error under the standard names; with a nil writer it panics. All that is logged by the server, its requests and user code is what the same calls give when every logger and configuration is a value of its own.", "quantifier": "every sequence of calls of the server's and the contexts' logging functions, package logger's functions, and starts of requests; every marshaller and map order", "why_tests_cant": "Histories of any length, aliased configurations.", "anchors": ["server.go:Server.SetLogLevel", "server.go:Server.SetLoggerWriter", "server.go:Server.Debugf", "server_run.go:Server.runHTTP", "ctx.go:NewContext"]}
{"id": "C155", "title": "The logger of a request", "statement": "The handlers of a request log with what SesInit added to the request's logger. (False: between SesInit and the handlers the request gets a new logger, with the server's level and writer, the standard names, no errors and no field but its time; what was added before stays in the old one. What holds: every request has a logger of its own unless SetLogger gives it another; a call on one Context changes no other logger; ctx.Debugf writes at level debug exactly one record, with the configuration of the Context's logger but none of its fields or errors, to its writer, and panics if that is nil.)", "quantifier": "every history of calls on the server, contexts and loggers; every request", "why_tests_cant": "Histories of any length.", "anchors": ["server_run.go:Server.runHTTP", "ctx.go:Context.SetLogger", "ctx.go:Context.Debugf", "ctx.go:Context.SetLoggerLevel"]}
{"id": "C156", "title": "index.html of a directory", "statement": "With directory display switched on (serveFile's showDir; the exported functions leave it off, C47) a directory that has an index.html is answered with that file's content. (False: the file is closed before it is read. What holds, for files that cannot be read once closed: the answer never depends on what the file contains; it has the status and length of the file and no body, or is a 500 if the type has to be found from the content or index.html is itself a directory.)", "quantifier": "every directory, index.html, path, request without conditions or range, response so far and file system", "why_tests_cant": "All file systems and contents.", "anchors": ["static/fs.go:serveFile"]}
{"id": "C157", "title": "Mount points with dots and stars", "statement": "After StaticFile or StaticFileFS, with no other route registered for the request, GET and HEAD requests are routed to the mount exactly if the regular expression ^url/.* matches the path; in particular for a mount point of ordinary characters and dots, some followed by a star, exactly if the path is some spelling of the mount point (a starred character any number of times, a dot any character but a newline), a slash and anything.", "quantifier": "every mount point of that form (or whose expression compiles), other registrations before and after, request method and path, regexp iteration order", "why_tests_cant": "All mount points, histories and paths; repetition is unbounded.", "anchors": ["static.go:Server.StaticFile", "static_embed.go:Server.StaticFileFS", "server.go:Server.AddReg", "server.go:Server.Find", "reg_tree.go"]}
{"id": "C158", "title": "Static mounts among the handlers of their set", "statement": "A request routed to a static mount runs through its HandlerSet like any other: each call (SesInit, before, static handler, after, last) is given the request, path and response the one before it left, and the client gets what the last one left. Only the static handler opens files. It runs if every handler before it returns without error and without Stop, Abort or SkipMain, and does not, with no file opened, if one of them fails or does one of these. When it runs on the request as it came in, response, error and opened files are those of the mount (C144), on top of the response it finds; the path it leaves is the one it found unless that has escapes left. A request that is not found is answered with exactly 404, 'not found', whatever was in the response before.", "quantifier": "every server set up with routes and mounts, HandlerSets with any handlers that read and change request, path and response, every request, response so far, scheduling of the errgroup and regexp iteration order", "why_tests_cant": "All handlers and all requests.", "anchors": ["top_handler.go:HandlerSet.Run", "server_run.go:Server.runHTTP", "static.go", "static_embed.go", "static_embed_fix.go"]}
{"id": "C159", "title": "Authentication in front of everything", "statement": "ServeHTTP answers a request that needs credentials (authentication on, the access function says so) and does not carry accepted ones with status 401 and the WWW-Authenticate header, leaving the rest of the response; no handler, SesInit or static handler is called and no file opened. A request that needs none, or carries accepted ones, is answered exactly as without authentication. So anything is called or opened for a request that needs credentials only if it carries accepted ones.", "quantifier": "every site, authentication settings, access function, request and response so far", "why_tests_cant": "All requests and settings.", "anchors": ["server_run.go:Server.ServeHTTP", "baseauth.go:BaseAuth.Check", "server_run.go:Server.runHTTP"]}
{"id": "C160", "title": "Files whose paths need credentials", "statement": "If every mount of a directory that contains a private one, or is in it, is at paths for which the access function demands credentials, no file of the private directory is opened for a request without accepted credentials. (False: a path with a doubly escaped '..' below an unprotected mount of the same embedded file system opens it; every file of the file system can be had this way through any unprotected mount. What holds: it is so for request paths without percent escapes left after decoding.)", "quantifier": "every setup of user routes and embedded mounts, authentication settings, request, and handlers that leave the path alone", "why_tests_cant": "All setups and paths.", "anchors": ["static_embed.go:StaticFileFSHandler.Run", "static/fs.go:ServeFileHTTP", "server_run.go:Server.ServeHTTP", "baseauth.go"]}
{"id": "C161", "title": "The text of a routing table", "statement": "Tree.String gives one line per node, each node before its children and indented by one tab per level, with segment, parameter name and every method and ID registered there, in whatever order the maps are iterated, and every text of that form is printed for some order; it panics exactly if a nil handler set was registered. The table can be read off it: two tables with the same text have the same nodes in the same order, with the same methods and IDs, if names do not contain the text's punctuation. A set that has just been registered is listed with each of its methods, and so is any set that answers a request, with the request's method.", "quantifier": "every table, registration, request, IDs and map iteration order at every node", "why_tests_cant": "Tables of any shape and every iteration order.", "anchors": ["tree.go:Tree.String", "tree.go:Node.print", "server.go:Server.Tree"]}
{"id": "C162", "title": "The Last-Modified date", "statement": "The Last-Modified field of a file of known date is an HTTP date in the preferred format (RFC 9110 IMF-fixdate): the day of the week, day, month and year of the Gregorian calendar and the hour, minute and second, in UTC, that the file's modification time falls in, for years 0 to 9999.", "quantifier": "every modification time of these years and response so far", "why_tests_cant": "All dates; the calendar's rules interact over 400 years.", "anchors": ["static/fs.go:setLastModified", "static/fs_utils.go:TimeFormat"]}
{"id": "C163", "title": "Dates in requests", "statement": "ParseTime reads a date in any of the three HTTP formats (IMF-fixdate, RFC 850, asctime) as the second it names, whatever its day of the week, and does not read it if there is no such day or second, or (first and third format) if anything follows; the two-digit years of RFC 850 dates are 1969 to 2068. A date the server has written for a time of the years 0 to 9999 is read back as the second it was in; of other years it is not read.", "quantifier": "every date and time of day in each format, every modification time", "why_tests_cant": "All dates in three formats.", "anchors": ["static/fs_utils.go:ParseTime", "static/fs_utils.go:timeFormats", "static/fs_utils.go:TimeFormat"]}
{"id": "C164", "title": "Revalidating with the date that was sent", "statement": "A client that sends back the Last-Modified date it was sent, as If-Modified-Since, hears 304 only if the file has not been changed since. (False: a change within the same second, or one that gives the file an older date, is not seen. What holds: 304 exactly if the file has a known date that is not in a later second; otherwise the whole file. With If-Unmodified-Since the answer is 412 exactly if the date is in a later second. With If-Range a part is sent only if the dates are of the same second, else the whole file. A date outside the years 0 to 9999 never gives 304.)", "quantifier": "every pair of contents and modification times of a file, requests, responses so far", "why_tests_cant": "All pairs of times and contents.", "anchors": ["static/fs.go:serveContent", "static/fs.go:checkIfModifiedSince", "static/fs.go:checkIfUnmodifiedSince", "static/fs.go:checkIfRange", "static/fs_utils.go:ParseTime"]}
{"id": "C165", "title": "The time in a log record", "statement": "The @timestamp of a log record is the time it was written. (False: it is the time its logger was made, for a clone the time its original was made, however much later it is written, unless the program itself writes or renames the field. For the records of Server.Debugf and Context.Debugf, which make a logger of their own, see C154 and C155.)", "quantifier": "every history of calls on any number of loggers and configurations, with the times they are made, every further log call", "why_tests_cant": "All histories and times.", "anchors": ["logger/logger.go:New", "logger/logger.go:Logger.Clone", "logger/out.go:Logger.Log"]}
{"id": "C166", "title": "Time stamps are in UTC", "statement": "The @timestamp of a logger is an RFC 3339 time ('Z', so UTC) that names the millisecond it was made in. (False unless the program's location is level with UTC: the text is the local clock's reading. It always is an RFC 3339 text, it names exactly one millisecond, that of the local clock read as if it were UTC, and so the right one exactly if the location's offset is 0.)", "quantifier": "every time and offset (years 0 to 9999)", "why_tests_cant": "All times and locations.", "anchors": ["logger/logger.go:New", "logger/config/config.go:DefaultTimestampFormat"]}
{"id": "C167", "title": "Time stamps sort like times", "statement": "Sorted as texts, time stamps made in different milliseconds come in the order of their times. (False within a second: zeros at the end of the fraction are left out, so 05Z comes after 05.5Z and 05.5Z after 05.51Z. It holds for different seconds of the local clock, and stamps of different milliseconds are different.)", "quantifier": "every two times and offsets (years 0 to 9999)", "why_tests_cant": "All pairs of times.", "anchors": ["logger/logger.go:New", "logger/config/config.go:DefaultTimestampFormat"]}
{"id": "C168", "title": "Unchanged files are not sent again", "statement": "A file that has not been modified after the date a client sends as If-Modified-Since is answered 304, without a body. (False for files whose modification time is the zero time or the Unix epoch, such as every file of an embed.FS: they are sent again each time. What holds: with a date that can be read and no other condition, 304 exactly if the file has a known modification time not in a later second. For files without one no Last-Modified is added, and a mount of a file system of such files gives the same answer, call for call, to any two requests that differ only in If-Modified-Since and If-Unmodified-Since.)", "quantifier": "every file, modification time, request, response so far, readable date; every mount and file system without modification times", "why_tests_cant": "All times, requests and file systems.", "anchors": ["static/fs.go:checkIfModifiedSince", "static/fs.go:isZeroTime", "static/fs.go:setLastModified", "static/fs.go:serveFile", "static_embed.go:StaticHandler.Run"]}
{"id": "C169", "title": "The example programs serve their pages", "statement": "The programs examples/server.go and examples/example_1 get to Run without a panic, and a request then runs, in this order, Init of the main handler of its page, the handlers before, the main handler and the handlers after that the program set for it, each with the ids in the request's path, and is answered without an error; a request for a page the program does not have, or with a method it was not registered for, is answered 404 and no handler runs.", "quantifier": "every request (method, path), every growth policy of append, every handler code that answers nil and neither stops, skips nor starts anything", "why_tests_cant": "All requests and handlers.", "anchors": ["examples/server.go:main", "examples/example_1/main.go:main", "server.go:Server.Add", "server.go:Server.Router", "gorouter.go:Router.Use", "gorouter.go:Router.Before", "gorouter.go:Router.After"]}
{"id": "C170", "title": "The example file servers serve their pages and files", "statement": "The set-ups of examples/example_2 and example_3 register what they mean to: the pages / and /cookie answer GET and POST, /html/... answers GET and HEAD from the data directory (embedded, or on disk), in example_2 /favicon.ico answers GET and POST with the embedded icon, and every other request is answered by no handler. A plain GET of /favicon.ico downloads data/favicons/favicon.ico, and one of /html/NAME the file data/NAME, whole, with status 200, unless it is called index.html (or the decoded path still contains a percent escape, see C88).", "quantifier": "every method and path, every order of the runtime's maps, every file system and every regular file in it", "why_tests_cant": "All requests, file systems and schedules.", "anchors": ["examples/example_2/main.go:main", "examples/example_3/main.go:main", "static_embed.go:Server.StaticFileFS", "static_embed_fix.go:Server.FixStaticFileFS", "static.go:Server.StaticFile"]}
{"id": "C171", "title": "The video example plays", "statement": "The program examples/static_video answers GET and POST of / and /file from its two routers, GET and HEAD below /html from the data directory, and nothing else; a plain GET of /file sends the whole video with status 200, the cache policy and the content type video/mp4 that the handler sets, and if the file cannot be opened the error is returned. (False: ServeContent replaces the content type by what the content looks like, the file name having no extension; everything else holds.)", "quantifier": "every method and path, every order of the runtime's maps, every content, time and response so far", "why_tests_cant": "All requests and contents.", "anchors": ["examples/static_video/main.go:main", "examples/static_video/main.go:TestStaticHandler.Run", "examples/static_video/fileouter/fileouter.go:New", "static/fs.go:ServeContent"]}
