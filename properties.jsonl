{"id": "C01", "title": "Event message round trip", "statement": "Encoding any event message whose header names and values are within the format's limits succeeds, and decoding the produced bytes yields exactly the same headers (names, types, values, order) and the same payload, leaving whatever bytes follow the message unread.", "quantifier": "every header list (all ten value types, any order, any length within limits), every payload within limits, every suffix of the byte source", "why_tests_cant": "the space of messages is unbounded and a byte-order, length or tag slip may show for one length only", "anchors": ["packages/smithy-aws-event-stream/src/smithy_aws_event_stream/events.py:EventMessage.encode", "packages/smithy-aws-event-stream/src/smithy_aws_event_stream/events.py:EventHeaderEncoder", "packages/smithy-aws-event-stream/src/smithy_aws_event_stream/events.py:EventHeaderDecoder", "packages/smithy-aws-event-stream/src/smithy_aws_event_stream/events.py:Event.decode"]}
{"id": "C02", "title": "Concatenated messages decode in order and end cleanly", "statement": "Decoding repeatedly from a source holding the concatenation of encoded messages returns exactly those messages in order, and then reports end of stream (None) rather than an error or an extra message.", "quantifier": "every finite sequence of valid messages", "why_tests_cant": "needs induction over stream histories of any length", "anchors": ["packages/smithy-aws-event-stream/src/smithy_aws_event_stream/events.py:Event.decode", "packages/smithy-aws-event-stream/src/smithy_aws_event_stream/aio/__init__.py:AWSEventReceiver"]}
{"id": "C03", "title": "Event decoding does not depend on chunking", "statement": "Decoding from an asynchronous byte source gives the same events as decoding the concatenated bytes, however the transport cuts them into chunks (including empty ones).", "quantifier": "every byte string and every way of cutting it into chunks", "why_tests_cant": "the number of chunkings is exponential; a wrong remainder shows only for particular cuts", "anchors": ["packages/smithy-aws-event-stream/src/smithy_aws_event_stream/events.py:Event.decode_async", "packages/smithy-core/src/smithy_core/aio/types.py:AsyncBytesReader"]}
{"id": "C04", "title": "Corrupted event frames are rejected", "statement": "If any run of up to four consecutive bytes of an encoded message is altered, decoding raises an error; it never returns a message. (The one kind of run for which this fails, four bytes of which exactly the last two belong to the final checksum, is exhibited separately.)", "quantifier": "every valid message, every position, every alteration of at most four adjacent bytes", "why_tests_cant": "the claim is about every corruption, 2^32 per position; CRC properties are algebraic", "anchors": ["packages/smithy-aws-event-stream/src/smithy_aws_event_stream/events.py:Event.decode", "packages/smithy-aws-event-stream/src/smithy_aws_event_stream/events.py:_EventEncoder", "packages/smithy-aws-event-stream/src/smithy_aws_event_stream/events.py:_validate_checksum"]}
{"id": "C05", "title": "Event size limits hold on both sides", "statement": "Encoding never emits a message whose headers exceed 128 KiB or whose payload exceeds 16 MiB, and decoding never accepts a prelude declaring such sizes; both report errors.", "quantifier": "every message and every byte string", "why_tests_cant": "boundary sizes for every combination of headers", "anchors": ["packages/smithy-aws-event-stream/src/smithy_aws_event_stream/events.py:MAX_HEADERS_LENGTH", "packages/smithy-aws-event-stream/src/smithy_aws_event_stream/events.py:MAX_PAYLOAD_LENGTH", "packages/smithy-aws-event-stream/src/smithy_aws_event_stream/events.py:_EventEncoder", "packages/smithy-aws-event-stream/src/smithy_aws_event_stream/events.py:EventPrelude"]}
{"id": "C06", "title": "Event header names are unique", "statement": "Neither encoding nor decoding ever produces a message with two headers of the same name: encoding a header sequence succeeds only when names are distinct and decoding duplicates raises an error.", "quantifier": "every header sequence and every byte string", "why_tests_cant": "depends on every position of the duplicate", "anchors": ["packages/smithy-aws-event-stream/src/smithy_aws_event_stream/events.py:EventHeaderEncoder.encode_header", "packages/smithy-aws-event-stream/src/smithy_aws_event_stream/events.py:EventHeaderDecoder"]}
{"id": "C07", "title": "A truncated event stream never yields a partial event", "statement": "For every proper prefix of an encoded message, decoding raises an error (or reports end of stream when the prefix is empty); for a truncated sequence the complete messages are returned first.", "quantifier": "every message sequence and every truncation point (crash point)", "why_tests_cant": "every crash point of every stream", "anchors": ["packages/smithy-aws-event-stream/src/smithy_aws_event_stream/events.py:Event.decode"]}
{"id": "C08", "title": "Event publisher lifecycle", "statement": "For every sequence of sends and closes, the bytes handed to the transport are exactly the encoded (signed, when signing) frames of the accepted events in order, followed by at most one end frame; a send after close raises and writes nothing; close is idempotent and always closes the transport, even when a write fails.", "quantifier": "every sequence of send/close calls with arbitrary write failures", "why_tests_cant": "unbounded histories of calls and failures", "anchors": ["packages/smithy-aws-event-stream/src/smithy_aws_event_stream/aio/__init__.py:AWSEventPublisher"]}
{"id": "C09", "title": "Event receiver lifecycle", "statement": "For every byte stream, receive returns events in stream order, returns None from the end of the stream or after close on, and after a framing error the receiver is closed so that no later call returns an event.", "quantifier": "every byte stream and every sequence of receive/close calls", "why_tests_cant": "unbounded histories", "anchors": ["packages/smithy-aws-event-stream/src/smithy_aws_event_stream/aio/__init__.py:AWSEventReceiver"]}
{"id": "C10", "title": "Event signatures form one chain", "statement": "For every schedule of concurrent sign calls and an end-of-stream call, the signatures form a single chain starting at the seed signature: each frame is signed with the signature of the frame signed before it, and no frame is signed after the end frame.", "quantifier": "every interleaving of concurrent signing calls", "why_tests_cant": "schedules cannot be enumerated by tests", "anchors": ["packages/aws-sdk-signers/src/aws_sdk_signers/signers.py:AsyncEventSigner"]}
{"id": "C11", "title": "Retry quota stays within bounds under concurrency", "statement": "For every interleaving of acquire and release calls from any number of clients sharing a quota, available capacity stays between zero and the maximum, an acquire fails only if capacity is below its cost, and a failed acquire changes nothing.", "quantifier": "every interleaving of acquire/release calls at lock granularity, including the unlocked early-exit read", "why_tests_cant": "races", "anchors": ["packages/smithy-core/src/smithy_core/retries.py:StandardRetryQuota"]}
{"id": "C12", "title": "Attempts are bounded by max_attempts", "statement": "Whatever the service answers, one operation makes at least one and at most max_attempts attempts, each retry follows a failure marked retry safe, and a failure not marked safe to retry (or with unknown safety) ends the operation.", "quantifier": "every sequence of service outcomes, every max_attempts of at least one, both strategies", "why_tests_cant": "unbounded failure histories", "anchors": ["packages/smithy-core/src/smithy_core/retries.py:SimpleRetryStrategy", "packages/smithy-core/src/smithy_core/retries.py:StandardRetryStrategy", "packages/smithy-core/src/smithy_core/aio/client.py:RequestPipeline._retry"]}
{"id": "C13", "title": "Backoff delays are bounded", "statement": "Every computed delay is non-negative and at most the configured maximum for every attempt number, jitter mode and random draw; the first attempt has no delay; a server supplied retry-after moves the delay into [computed, computed + 5s].", "quantifier": "every attempt number, random draw in [0,1], configuration and history of calls", "why_tests_cant": "real valued draws and unbounded attempts", "anchors": ["packages/smithy-core/src/smithy_core/retries.py:ExponentialRetryBackoffStrategy", "packages/smithy-core/src/smithy_core/retries.py:StandardRetryStrategy.refresh_retry_token_for_retry"]}
{"id": "C14", "title": "Retry quota is conserved", "statement": "Over any history of operations on a shared standard strategy, capacity never exceeds the start value, each retry costs 14 (or 5 when throttled), and success gives back what the last retry took (or 1 if there was none); a failed operation gives back nothing.", "quantifier": "every history of operations and outcomes", "why_tests_cant": "unbounded histories", "anchors": ["packages/smithy-core/src/smithy_core/retries.py:StandardRetryStrategy", "packages/smithy-core/src/smithy_core/retries.py:StandardRetryQuota"]}
{"id": "C15", "title": "The retry loop reports the last attempt and starts each attempt afresh", "statement": "The outcome of an operation is the outcome of its last attempt; between attempts the delay requested by the retry token is slept and the request body is rewound to its start; success is recorded exactly once and only on success.", "quantifier": "every sequence of attempt outcomes and every retry strategy", "why_tests_cant": "unbounded failure histories", "anchors": ["packages/smithy-core/src/smithy_core/aio/client.py:RequestPipeline._retry"]}
{"id": "C16", "title": "Interceptor hooks run in the documented order", "statement": "For every pattern of hook failures, the sequence of hook points visited is the documented one: execution hooks once, attempt hooks once per attempt in order, and both completion phases always, with the transport called at most once per attempt and only after signing hooks succeeded.", "quantifier": "every failure pattern of hooks, serialization, signing, transport and every number of retries", "why_tests_cant": "2^n failure patterns times unbounded retries", "anchors": ["packages/smithy-core/src/smithy_core/aio/client.py:RequestPipeline", "packages/smithy-core/src/smithy_core/interceptors.py:InterceptorChain"]}
{"id": "C17", "title": "Modify hooks compose", "statement": "With several interceptors, each modify hook receives the value returned by the previous interceptor's hook, and the value used afterwards is the one returned by the last.", "quantifier": "every list of interceptors", "why_tests_cant": "every list of interceptors and every modification", "anchors": ["packages/smithy-core/src/smithy_core/interceptors.py:InterceptorChain"]}
{"id": "C18", "title": "Completion hooks are all invoked", "statement": "Every interceptor's modify_before_completion and read_after_execution hook is invoked exactly once per execution whatever fails; the last exception raised by read_after_execution wins.", "quantifier": "every list of interceptors and every failure pattern", "why_tests_cant": "exponential failure patterns", "anchors": ["packages/smithy-core/src/smithy_core/interceptors.py:InterceptorChain.modify_before_completion", "packages/smithy-core/src/smithy_core/interceptors.py:InterceptorChain.read_after_execution"]}
{"id": "C19", "title": "Input modifications reach the wire", "statement": "The transport request sent is the serialization of the input as modified by modify_before_serialization hooks.", "quantifier": "every input and every interceptor", "why_tests_cant": "every modification", "anchors": ["packages/smithy-core/src/smithy_core/aio/client.py:RequestPipeline._handle_execution"]}
{"id": "C20", "title": "Streaming calls terminate when the request fails early", "statement": "A streaming-input call returns or raises whenever its execution has ended, whatever stage fails.", "quantifier": "every failing stage", "why_tests_cant": "schedules", "anchors": ["packages/smithy-core/src/smithy_core/aio/client.py:RequestPipeline.input_stream", "packages/smithy-core/src/smithy_core/aio/client.py:RequestPipeline.duplex_stream"]}
{"id": "C21", "title": "Header list values round trip", "statement": "Writing a list of at least two header values as one header line and splitting that line gives back the list, for values that are non-blank and carry no outer white space or that need quoting; splitting never invents or reorders values, and malformed quoting raises an error.", "quantifier": "every list of header values over all Unicode strings", "why_tests_cant": "unbounded strings with quotes, commas and backslashes", "anchors": ["packages/smithy-http/src/smithy_http/__init__.py:Field.as_string", "packages/smithy-http/src/smithy_http/utils.py:split_header"]}
{"id": "C22", "title": "Header collection is a case-insensitive ordered map", "statement": "For every sequence of operations, a header collection holds at most one field per case-folded name, keeps first-insertion order, looks names up regardless of case, and rejects duplicate initial fields and mismatching keys.", "quantifier": "every sequence of set/get/delete/extend/remove operations", "why_tests_cant": "unbounded histories", "anchors": ["packages/smithy-http/src/smithy_http/__init__.py:Fields"]}
{"id": "C23", "title": "Query strings round trip", "statement": "Joining query parameters and then splitting on '&' and '=' and percent-decoding gives back exactly the parameters in order, whatever characters they hold, provided the first is not an empty key without a value; parameters already in the operation's URI come first.", "quantifier": "every list of key/value pairs over all byte strings", "why_tests_cant": "unbounded strings", "anchors": ["packages/smithy-http/src/smithy_http/utils.py:join_query_params"]}
{"id": "C24", "title": "URI labels cannot escape their segment", "statement": "Formatting a path pattern with label values either raises or yields a path in which every non-greedy label occupies exactly its own segment; no empty segment is ever introduced.", "quantifier": "every pattern and every label assignment", "why_tests_cant": "unbounded strings", "anchors": ["packages/smithy-core/src/smithy_core/types.py:PathPattern.format"]}
{"id": "C25", "title": "Endpoint resolution preserves request path and query", "statement": "Applying a resolved endpoint to a request takes scheme and host from the endpoint, and yields a path that is absolute and is the endpoint path followed by the request path, and a query that contains both queries, endpoint first.", "quantifier": "every endpoint URI and request destination", "why_tests_cant": "unbounded strings and optional parts", "anchors": ["packages/smithy-http/src/smithy_http/aio/protocols.py:HttpClientProtocol.set_service_endpoint"]}
{"id": "C26", "title": "API key signing only adds the key", "statement": "Signing a request with an API key changes nothing but the query (query location) or the named header (header location).", "quantifier": "every request, every key", "why_tests_cant": "every optional URI part", "anchors": ["packages/smithy-http/src/smithy_http/aio/auth/apikey.py:APIKeySigner.sign"]}
{"id": "C27", "title": "User-agent components are sanitised", "statement": "Whatever strings platform or configuration provide, the rendered user agent consists of allowed characters only, with one component per space-separated word, so it cannot break the header.", "quantifier": "every component list", "why_tests_cant": "all Unicode strings", "anchors": ["packages/smithy-http/src/smithy_http/user_agent.py:UserAgent", "packages/smithy-http/src/smithy_http/user_agent.py:sanitize_user_agent_string_component"]}
{"id": "C28", "title": "Asynchronous byte readers lose nothing", "statement": "Reading an async reader over any bytes or any one-shot chunk iterator with any sequence of read sizes returns the source bytes in order without loss or duplication, exactly the requested number while data remains.", "quantifier": "every chunk sequence and every sequence of read sizes", "why_tests_cant": "unbounded histories", "anchors": ["packages/smithy-core/src/smithy_core/aio/types.py:AsyncBytesReader"]}
{"id": "C29", "title": "Seekable reader behaves like an in-memory file", "statement": "For every sequence of read/seek/tell on a seekable async reader over a chunk source, results equal those of an in-memory byte file holding the same bytes.", "quantifier": "every chunk sequence and every operation sequence", "why_tests_cant": "unbounded histories", "anchors": ["packages/smithy-core/src/smithy_core/aio/types.py:SeekableAsyncBytesReader"]}
{"id": "C30", "title": "Byte provider is a bounded FIFO", "statement": "For every interleaving of writers, a consumer, flushes and closes, chunks are delivered in the order the writes were accepted, never more than the configured number are buffered, none is lost unless closed without flushing, nothing is delivered after closing without flush, and no write is accepted after close.", "quantifier": "every schedule of concurrent tasks", "why_tests_cant": "schedules", "anchors": ["packages/smithy-core/src/smithy_core/aio/types.py:AsyncBytesProvider"]}
{"id": "C31", "title": "Byte provider makes progress", "statement": "A blocked write, flush or close of a byte provider eventually completes when a consumer keeps reading.", "quantifier": "every schedule with a live consumer", "why_tests_cant": "schedules and liveness", "anchors": ["packages/smithy-core/src/smithy_core/aio/types.py:AsyncBytesProvider"]}
{"id": "C32", "title": "SigV4 signing leaves the caller's request untouched and is independent of header order", "statement": "The canonical request, and hence the signature, depends only on the method, path, set of query parameters, header names case-insensitively with their values, and payload: permuting headers or query parameters, or changing the case of header names, changes nothing, and excluded headers never matter.", "quantifier": "every request and every permutation", "why_tests_cant": "permutations of unbounded sets", "anchors": ["packages/aws-sdk-signers/src/aws_sdk_signers/signers.py:SigV4Signer.canonical_request"]}
{"id": "C33", "title": "Canonical paths are normalised", "statement": "Normalising a path removes every dot segment, keeps it absolute, keeps the trailing slash, and applying it twice equals applying it once.", "quantifier": "every path string", "why_tests_cant": "unbounded strings", "anchors": ["packages/aws-sdk-signers/src/aws_sdk_signers/signers.py:SigV4Signer._format_canonical_path", "packages/smithy-core/src/smithy_core/utils.py:remove_dot_segments"]}
{"id": "C34", "title": "Config file parsing reconstructs profiles", "statement": "Parsing a shared config text rendered from a set of sections and properties (with comments, blank lines and continuation lines) gives back exactly those sections and properties, and every malformed line raises an error with its line number rather than being silently attached to another section.", "quantifier": "every well-formed configuration and every text", "why_tests_cant": "unbounded line histories", "anchors": ["packages/smithy-aws-core/src/smithy_aws_core/config/file_parser.py:_parse_content"]}
{"id": "C35", "title": "Credentials file wins over config file per property", "statement": "The merged view of a profile has, for every property, the credentials file's value when present there and otherwise the config file's; sso-session and services sections come only from the config file; [profile default] beats [default].", "quantifier": "every pair of parsed files", "why_tests_cant": "unbounded maps", "anchors": ["packages/smithy-aws-core/src/smithy_aws_core/config/merged_config.py", "packages/smithy-aws-core/src/smithy_aws_core/config/file_parser.py:standardize"]}
{"id": "C36", "title": "Configuration precedence and provenance", "statement": "Every resolved field has the value of the first source that supplies one in the order explicit override, environment, profile, default, and reports that source.", "quantifier": "every combination of sources for every field", "why_tests_cant": "product of sources over all fields", "anchors": ["packages/smithy-aws-core/src/smithy_aws_core/config/aws_config.py", "packages/smithy-aws-core/src/smithy_aws_core/config/resolvers.py"]}
{"id": "C37", "title": "Resolved configuration is always valid", "statement": "After resolution and any sequence of assignments, each field satisfies its validator, and a rejected assignment changes neither value nor provenance.", "quantifier": "every assignment sequence", "why_tests_cant": "unbounded histories", "anchors": ["packages/smithy-aws-core/src/smithy_aws_core/config/aws_config.py:__setattr__", "packages/smithy-aws-core/src/smithy_aws_core/config/validators.py"]}
{"id": "C38", "title": "Cached identities are never served expired", "statement": "A caching identity resolver returns the cached identity exactly while it is unexpired and not invalidated, otherwise it refetches; with concurrent calls every returned identity was unexpired at the check or freshly fetched.", "quantifier": "every history of get/invalidate calls and clock values", "why_tests_cant": "unbounded histories and clocks", "anchors": ["packages/smithy-core/src/smithy_core/aio/identity.py:CachingIdentityResolver"]}
{"id": "C39", "title": "Chained identity resolution returns the first success", "statement": "A chained resolver returns the identity of the first resolver that succeeds, tries none after it, skips only identity errors, and raises an identity error only when all have failed.", "quantifier": "every list of resolvers and outcomes", "why_tests_cant": "unbounded lists", "anchors": ["packages/smithy-core/src/smithy_core/aio/identity.py:ChainedIdentityResolver", "packages/smithy-aws-core/src/smithy_aws_core/identity/chain/"]}
{"id": "C40", "title": "Credential provider order is deterministic", "statement": "The AWS identity chain orders providers by documented slot, 'before' entries first and 'after' entries last, keeping discovery order among equals; duplicates are rejected; no provider after a terminal one is set up.", "quantifier": "every multiset of providers in every discovery order", "why_tests_cant": "permutations", "anchors": ["packages/smithy-aws-core/src/smithy_aws_core/identity/chain/"]}
{"id": "C41", "title": "IMDS token is refreshed once for concurrent callers", "statement": "For every interleaving of callers, a token is fetched only when none is cached or the cached one is due, and callers waiting for a refresh reuse its result.", "quantifier": "every schedule", "why_tests_cant": "schedules", "anchors": ["packages/smithy-aws-core/src/smithy_aws_core/identity/imds.py:TokenCache"]}
{"id": "C42", "title": "Container credentials only go to permitted hosts", "statement": "No request is sent to a container metadata URL whose host is neither loopback nor on the allow list; at most the configured number of attempts is made; and cached credentials are reused exactly until they expire.", "quantifier": "every URL, every failure history", "why_tests_cant": "unbounded", "anchors": ["packages/smithy-aws-core/src/smithy_aws_core/identity/container.py"]}
{"id": "C43", "title": "JSON string escaping round trips", "statement": "Any string written by the JSON serializer is read back by a conforming JSON string reader as the same string, and the literal contains no raw control character or unescaped quote.", "quantifier": "every Unicode string", "why_tests_cant": "unbounded strings", "anchors": ["packages/smithy-json/src/smithy_json/_private/serializers.py"]}
{"id": "C44", "title": "JSON output is well-formed and faithful", "statement": "The bytes produced for any tree of values (structures, lists, maps, strings, booleans, integers, nulls) parse, with a JSON parser written from the grammar, to that tree.", "quantifier": "every value tree", "why_tests_cant": "unbounded trees; comma state", "anchors": ["packages/smithy-json/src/smithy_json/_private/serializers.py"]}
{"id": "C45", "title": "Skipping an unknown JSON member consumes exactly that member", "statement": "When a structure reader meets an unknown member or reads a document, exactly the events of that value are consumed, whatever its nesting, its key and what its objects contain; so too for a whole text read as a document, unless it is an object with a member of empty name that is an object.", "quantifier": "every JSON value and every surrounding position", "why_tests_cant": "unbounded nesting", "anchors": ["packages/smithy-json/src/smithy_json/_private/deserializers.py"]}
{"id": "C46", "title": "Query protocol bodies are unambiguous", "statement": "Every form body produced splits on '&' and '=' and percent-decodes to the flat parameter list: Action and Version first, then one parameter per leaf with 1-based indices, distinct leaves having distinct names.", "quantifier": "every input tree", "why_tests_cant": "unbounded trees and strings", "anchors": ["packages/smithy-aws-core/src/smithy_aws_core/_private/query/serializers.py"]}
{"id": "C47", "title": "Error classification", "statement": "Every failing response yields an error whose throttling, timeout, fault and retry-safety flags follow its status (429, 408, below 500) when unmodeled, and the modeled error when its code resolves to a registered shape; parse_retry_after yields a non-negative number of seconds or nothing.", "quantifier": "every status, code and registry", "why_tests_cant": "product of inputs", "anchors": ["packages/smithy-aws-core/src/smithy_aws_core/_private/query/errors.py", "packages/smithy-aws-core/src/smithy_aws_core/utils.py", "packages/smithy-http/src/smithy_http/aio/protocols.py:HttpBindingClientProtocol._create_error"]}
{"id": "C48", "title": "Shape identifiers round trip", "statement": "Parsing a shape ID and rebuilding it from namespace, name and member gives the same ID; equality is equality of text; malformed IDs raise.", "quantifier": "every string", "why_tests_cant": "unbounded strings", "anchors": ["packages/smithy-core/src/smithy_core/shapes.py:ShapeID"]}
{"id": "C49", "title": "Schema members inherit and override traits", "statement": "A member's effective traits are the target's overridden by its own, members are ordered by index, lookups by name agree with that order, and inconsistent member declarations are rejected.", "quantifier": "every schema", "why_tests_cant": "unbounded maps", "anchors": ["packages/smithy-core/src/smithy_core/schemas.py:Schema"]}
{"id": "C50", "title": "Documents reflect mutations", "statement": "After any sequence of item assignments, insertions and deletions on a document, reading it back (as a plain value) gives the value obtained by the same operations on a plain value.", "quantifier": "every operation sequence, nested", "why_tests_cant": "unbounded histories", "anchors": ["packages/smithy-core/src/smithy_core/documents.py:Document"]}
{"id": "C51", "title": "Unknown XML elements are skipped whole", "statement": "The XML reader skips exactly one element with all its descendants, whatever its nesting, so members after it are read correctly; map entries and wrapped lists consume exactly their own elements.", "quantifier": "every XML tree", "why_tests_cant": "unbounded nesting", "anchors": ["packages/smithy-xml/src/smithy_xml/_private/readers.py", "packages/smithy-xml/src/smithy_xml/_private/deserializers.py"]}
{"id": "C52", "title": "Flattened XML members are regrouped", "statement": "Interleaved elements of flattened lists and maps are delivered to their member in document order, each member exactly once after the other members.", "quantifier": "every interleaving of elements", "why_tests_cant": "unbounded interleavings", "anchors": ["packages/smithy-xml/src/smithy_xml/_private/deserializers.py"]}
{"id": "C53", "title": "Timestamps round trip", "statement": "Formatting an instant as RFC 3339 or epoch seconds and parsing it returns the same instant.", "quantifier": "every instant of the supported calendar", "why_tests_cant": "unbounded dates, leap years", "anchors": ["packages/smithy-core/src/smithy_core/utils.py", "packages/smithy-core/src/smithy_core/types.py:TimestampFormat"]}
{"id": "C54", "title": "Splitting on every n-th delimiter loses nothing", "statement": "split_every(s, d, n) returns pieces that joined with the delimiter give s, each with at most n fields, and rejects n below one.", "quantifier": "every string and n", "why_tests_cant": "unbounded strings", "anchors": ["packages/smithy-core/src/smithy_core/utils.py:split_every"]}
{"id": "C55", "title": "Connection reuse is keyed by origin", "statement": "A request is sent on an open connection to exactly its own scheme, host and port; a closed connection is never reused.", "quantifier": "every history of requests and connection closures", "why_tests_cant": "unbounded histories", "anchors": ["packages/smithy-http/src/smithy_http/aio/crt.py:AWSCRTHTTPClient._get_connection"]}
{"id": "C56", "title": "Auth scheme selection", "statement": "The signer used is that of the first option, in priority order, that the service model lists and the client supports; with none the request is sent unsigned; options' properties are delivered to the component they are meant for. Without a resolver of the user's own the options are the operation's schemes in order, with no properties, so that every attempt signs with the same scheme; the resolver for no auth signs nothing.", "quantifier": "every list of options and schemes", "why_tests_cant": "unbounded lists", "anchors": ["packages/smithy-core/src/smithy_core/aio/client.py:RequestPipeline._resolve_auth", "packages/smithy-core/src/smithy_core/auth.py:DefaultAuthResolver", "packages/smithy-core/src/smithy_core/auth.py:NoAuthResolver"]}
{"id": "C57", "title": "Duplex stream closing", "statement": "Closing a duplex event stream always closes its input stream and its output stream, whatever the state of the output.", "quantifier": "every state of the pending output", "why_tests_cant": "schedules", "anchors": ["packages/smithy-core/src/smithy_core/aio/eventstream.py:DuplexEventStream.close"]}
{"id": "C58", "title": "Typed property lookups", "statement": "A typed property map behaves like a map keyed by key text: a value set under a key is returned for it until replaced or deleted, other keys are unaffected, and iteration order is insertion order.", "quantifier": "every operation sequence", "why_tests_cant": "unbounded histories", "anchors": ["packages/smithy-core/src/smithy_core/types.py:TypedProperties"]}
{"id": "C59", "title": "Members go to their places in HTTP messages", "statement": "Members bound to a header, a query parameter, a path label, a map of headers or query parameters, the host, the status or the payload go each to exactly that place, every other member is written to the body and only those are, and content-type and content-length describe the body unless a member is bound to these headers itself. A value that fits its place is always sent.", "quantifier": "every schema with at most one binding per member, every set of values and every order of writing", "why_tests_cant": "combinatorial schemas and unbounded values", "anchors": ["packages/smithy-http/src/smithy_http/bindings.py", "packages/smithy-http/src/smithy_http/serializers.py:HTTPRequestSerializer", "packages/smithy-http/src/smithy_http/serializers.py:HTTPResponseSerializer"]}
{"id": "C60", "title": "Header values are read back", "statement": "Numbers, booleans, strings and timestamps written to headers are read back as the same value: decimals by value, timestamps as the same instant at the precision of the format. Numbers have the same text in headers, query parameters and path labels, and that text is a number in the sense of JSON or one of NaN, Infinity and -Infinity. In query parameters strings and booleans are plain and timestamps name their instant.", "quantifier": "every value, timestamp format and member", "why_tests_cant": "numbers, texts and instants are unbounded", "anchors": ["packages/smithy-http/src/smithy_http/serializers.py:HTTPHeaderSerializer", "packages/smithy-http/src/smithy_http/deserializers.py:HTTPHeaderDeserializer", "packages/smithy-core/src/smithy_core/utils.py:serialize_float, strict_parse_float"]}
{"id": "C61", "title": "Accepted event frames are self-consistent", "statement": "A decoded message's declared header length fits in the frame, and every header value has its declared length.", "quantifier": "every byte string", "why_tests_cant": "malformed frames with valid checksums are never in test corpora", "anchors": ["packages/smithy-aws-event-stream/src/smithy_aws_event_stream/events.py:Event.decode", "packages/smithy-aws-event-stream/src/smithy_aws_event_stream/events.py:DecodeUtils.unpack_byte_array"]}
{"id": "C62", "title": "Event frames follow the documented format", "statement": "What the encoder emits for a message is exactly the byte sequence the event stream format documents (lengths, big-endian values, type codes, UTF-8 and CRC-32 checksums), and a frame so written by any conforming peer is read back as the message.", "quantifier": "every message within the format's limits", "why_tests_cant": "interoperability must hold for every message, tests compare a few literals", "anchors": ["packages/smithy-aws-event-stream/src/smithy_aws_event_stream/events.py:EventMessage.encode", "packages/smithy-aws-event-stream/src/smithy_aws_event_stream/events.py:EventHeaderEncoder", "packages/smithy-aws-event-stream/src/smithy_aws_event_stream/events.py:Event.decode"]}
{"id": "C63", "title": "Reading hooks of all interceptors run", "statement": "An exception raised by read_before_execution, read_before_attempt or read_after_attempt is kept until every interceptor had that hook invoked, and the last one wins.", "quantifier": "every list of interceptors and every failure pattern", "why_tests_cant": "unbounded lists and failure patterns", "anchors": ["packages/smithy-core/src/smithy_core/interceptors.py:InterceptorChain"]}
{"id": "C64", "title": "Completion hooks see the transport response", "statement": "The attempt completion hooks are given the transport response whenever one was received in that attempt.", "quantifier": "every failing stage", "why_tests_cant": "product of failing stages", "anchors": ["packages/smithy-core/src/smithy_core/aio/client.py:RequestPipeline._handle_attempt"]}
{"id": "C65", "title": "Merging header collections", "statement": "Merging one header collection into another always completes, appends the values of names both hold, adds the other fields at the end, leaves the merged-in collection as it was, and leaves the two independent of each other.", "quantifier": "every pair of collections reached by any history", "why_tests_cant": "unbounded histories and object sharing", "anchors": ["packages/smithy-http/src/smithy_http/__init__.py:Fields.extend"]}
{"id": "C66", "title": "Endpoint host prefixes and endpoint headers reach the wire", "statement": "The host prefix an operation declares is put in front of the resolved endpoint's host, with its labels filled in, and headers attached to a resolved endpoint are added to the request.", "quantifier": "every operation, endpoint and label value", "why_tests_cant": "unbounded strings", "anchors": ["packages/smithy-http/src/smithy_http/serializers.py:HostPrefixSerializer", "packages/smithy-http/src/smithy_http/aio/protocols.py:HttpClientProtocol.set_service_endpoint", "packages/smithy-http/src/smithy_http/endpoints.py:HTTPEndpoint"]}
{"id": "C67", "title": "A signed request can be verified from what it carries", "statement": "The request returned by the signer carries the date it was signed with and the session token of the identity, its Authorization header names exactly the signable headers it has plus the host, and the signature in it is the documented key derivation applied to the request's own canonical form.", "quantifier": "every request, identity and signing date", "why_tests_cant": "unbounded requests; preset headers", "anchors": ["packages/aws-sdk-signers/src/aws_sdk_signers/signers.py:SigV4Signer.sign", "packages/aws-sdk-signers/src/aws_sdk_signers/signers.py:AsyncSigV4Signer.sign"]}
{"id": "C68", "title": "What is signed is what is sent", "statement": "For every signed header line the transport sends header lines with the same content, including the host line it adds itself.", "quantifier": "every destination and header collection", "why_tests_cant": "unbounded collections; two modules must agree", "anchors": ["packages/aws-sdk-signers/src/aws_sdk_signers/signers.py:SigV4Signer._normalize_signing_fields", "packages/smithy-http/src/smithy_http/aio/crt.py:AWSCRTHTTPClient._marshal_request"]}
{"id": "C69", "title": "Default credentials", "statement": "With the credential providers of this package, discovered in any order, credentials come from the environment if it has an access key and a secret, else from the selected profile (session keys before static keys), else an error is raised; the selected profile is the given one, else AWS_PROFILE, else default.", "quantifier": "every discovery order, environment and configuration", "why_tests_cant": "permutations and unbounded configurations", "anchors": ["packages/smithy-aws-core/src/smithy_aws_core/identity/chain/"]}
{"id": "C70", "title": "Unclaimed credential sources are reported", "statement": "The error raised when no credentials are found names, in documented order, exactly the credential sources that are present in the environment, that no installed provider claims and that a package is known for.", "quantifier": "every environment and set of providers", "why_tests_cant": "unbounded provider sets", "anchors": ["packages/smithy-aws-core/src/smithy_aws_core/identity/chain/__init__.py", "packages/smithy-aws-core/src/smithy_aws_core/identity/chain/ordering.py"]}
{"id": "C71", "title": "A refused token request is not used as a token", "statement": "The text used as a session token comes from a successful response.", "quantifier": "every response status", "why_tests_cant": "every status must be handled", "anchors": ["packages/smithy-aws-core/src/smithy_aws_core/identity/imds.py:TokenCache"]}
{"id": "C72", "title": "The JSON codec round trips", "statement": "Any value of a schema that the codec writes is read back, by the same schema and settings, as an equal value, and reading takes exactly the events of the text. Excluded: NaN, infinite decimals and decimals of more than 28 digits, null documents as elements of collections.", "quantifier": "every schema, every value of it, every setting of names and timestamp formats", "why_tests_cant": "unbounded nesting and all values", "anchors": ["packages/smithy-json/src/smithy_json/_private/serializers.py", "packages/smithy-json/src/smithy_json/_private/deserializers.py"]}
{"id": "C73", "title": "HTTP dates name their second", "statement": "An instant formatted as an HTTP date is the IMF-fixdate of its second (right weekday, right calendar date), and parsing it gives that second in UTC.", "quantifier": "every instant of the supported calendar from the year 100 on", "why_tests_cant": "unbounded dates, leap years, weekdays", "anchors": ["packages/smithy-core/src/smithy_core/types.py:TimestampFormat"]}
{"id": "C74", "title": "Shapes survive conversion to a document", "statement": "Converting a value of a shape to a document succeeds whatever was converted before, the document reads as the value's members and entries, and reading it as that shape, or as any other shape the value fits, gives the value back.", "quantifier": "every schema, every value of it with at most sparse nulls", "why_tests_cant": "unbounded nesting, all schemas", "anchors": ["packages/smithy-core/src/smithy_core/documents.py:Document.from_shape", "packages/smithy-core/src/smithy_core/documents.py:Document.as_shape", "packages/smithy-core/src/smithy_core/documents.py:_DocumentSerializer"]}
{"id": "C75", "title": "Documents made in different threads are independent", "statement": "A document made from a shape in one thread holds that shape's values, whatever other threads convert at the same time.", "quantifier": "every schedule of two threads", "why_tests_cant": "schedules", "anchors": ["packages/smithy-core/src/smithy_core/documents.py:_DocumentStructSerializer"]}
{"id": "C76", "title": "Bodies are consumed whole", "statement": "Consuming a body asynchronously gives its whole remaining content, whatever kind of body it is; consuming it synchronously does so for bytes and synchronous readers and raises an error for asynchronous bodies.", "quantifier": "every body: bytes, byte arrays, synchronous and asynchronous readers at any position, async iterables of any chunks", "why_tests_cant": "unbounded contents and kinds", "anchors": ["packages/smithy-core/src/smithy_core/aio/utils.py:read_streaming_blob_async", "packages/smithy-core/src/smithy_core/aio/utils.py:read_streaming_blob", "packages/smithy-http/src/smithy_http/aio/__init__.py:HTTPResponse.consume_body_async", "packages/smithy-http/src/smithy_http/aio/crt.py:AWSCRTHTTPResponse.chunks"]}
{"id": "C77", "title": "Bodies are sent whole", "statement": "The bytes a client sends for a request are exactly the remaining content of its body, and sending ends, whatever the kind of the body, the sizes its reads return and the version of HTTP.", "quantifier": "every body, every sequence of read sizes, every buffer size", "why_tests_cant": "unbounded contents and short reads", "anchors": ["packages/smithy-http/src/smithy_http/aio/crt.py:AWSCRTHTTPClient._create_body_stream", "packages/smithy-http/src/smithy_http/aio/crt.py:AWSCRTHTTPClient._create_body_generator", "packages/smithy-http/src/smithy_http/aio/aiohttp.py:AIOHTTPClient._prepare_body"]}
{"id": "C78", "title": "Headers and queries are sent as given", "statement": "Each header of a request is sent with all its values, in order and under its own name, and none is added but the host and accept that are missing; the host sent is that of the destination; the query sent has the parameters of the destination's query.", "quantifier": "every field collection, every query string, every retry", "why_tests_cant": "unbounded collections and strings", "anchors": ["packages/smithy-http/src/smithy_http/aio/crt.py:AWSCRTHTTPClient._marshal_request", "packages/smithy-http/src/smithy_http/aio/crt.py:AWSCRTHTTPClient._render_path", "packages/smithy-http/src/smithy_http/aio/aiohttp.py:AIOHTTPClient.send"]}
{"id": "C79", "title": "Events survive the event stream", "statement": "An event, exception or initial message sent on an event stream is made into a message that names its type, has one header per member bound to a header, typed as the member, and the rest as payload labelled with its media type; encoded, cut into chunks in any way and received, it gives the same event with the same members, an exception being raised, each in its turn.", "quantifier": "every event structure, every assignment of its members, every sequence of events and every chunking", "why_tests_cant": "unbounded structures, values and chunkings", "anchors": ["packages/smithy-aws-event-stream/src/smithy_aws_event_stream/_private/serializers.py:EventSerializer", "packages/smithy-aws-event-stream/src/smithy_aws_event_stream/_private/deserializers.py:EventDeserializer", "packages/smithy-aws-event-stream/src/smithy_aws_event_stream/aio/__init__.py"]}
{"id": "C80", "title": "Timestamps in event headers", "statement": "A timestamp header is read as exactly the millisecond it holds; an instant written to a header comes back as a whole millisecond at most one millisecond (plus the rounding of a float) away, and an instant with whole milliseconds of the years 2005 to 2037 comes back unchanged.", "quantifier": "every instant of the supported calendar, every header value", "why_tests_cant": "unbounded dates, floating point rounding", "anchors": ["packages/smithy-aws-event-stream/src/smithy_aws_event_stream/events.py:EventHeaderEncoder", "packages/smithy-aws-event-stream/src/smithy_aws_event_stream/events.py:DecodeUtils.unpack_timestamp"]}
{"id": "C81", "title": "Messages outside the model are told apart", "statement": "A received message is given as a variant only if it names that variant; an event of an unknown type is given as the unknown variant with its type; an error without a model is raised with its code and message; everything else raises an error of the event stream.", "quantifier": "every message and every union", "why_tests_cant": "unbounded messages; unknown types are sent by newer services only", "anchors": ["packages/smithy-aws-event-stream/src/smithy_aws_event_stream/_private/deserializers.py:EventDeserializer.read_struct"]}
{"id": "C82", "title": "Responses come back as they were", "statement": "A response made from an output is read by the client as that output: every member that was set, whether bound to a header, to prefixed headers, to the status code or to the payload or left in the body, is read exactly once with the value it had, and a member that was not set is read only as an empty map, an empty payload or the status code.", "quantifier": "every output shape a service model may have, every assignment of its members, every codec that reads back what it writes", "why_tests_cant": "unbounded shapes, values and codecs", "anchors": ["packages/smithy-http/src/smithy_http/serializers.py:HTTPResponseSerializer", "packages/smithy-http/src/smithy_http/deserializers.py:HTTPResponseDeserializer", "packages/smithy-http/src/smithy_http/deserializers.py:HTTPHeaderDeserializer", "packages/smithy-http/src/smithy_http/deserializers.py:HTTPHeaderMapDeserializer"]}
{"id": "C83", "title": "Documents convert to the shape their JSON says", "statement": "Reading a JSON value as a shape gives what the JSON says under the schema, and reading it as a document first and converting the document to the shape afterwards gives the same shape: member order, unknown members, nulls in sparse and dense collections and numbers are handled alike on both ways.", "quantifier": "every JSON value, every schema (recursive ones too), every setting of the codec", "why_tests_cant": "unbounded JSON values and schemas", "anchors": ["packages/smithy-json/src/smithy_json/_private/documents.py:JSONDocument", "packages/smithy-json/src/smithy_json/_private/deserializers.py:JSONShapeDeserializer", "packages/smithy-core/src/smithy_core/documents.py:_DocumentDeserializer", "packages/smithy-core/src/smithy_core/documents.py:Document.as_shape"]}
{"id": "C84", "title": "Hosts are checked", "statement": "A URI can be made just for hosts of RFC 3986 (names, IPv4 addresses, bracketed literals) and for IPv6 addresses without brackets, each zone included: every host of the RFC is accepted, and no accepted host has a character that could end it or start another part of the URI. The kind of host reported is the kind of the text.", "quantifier": "every text given as a host", "why_tests_cant": "unbounded texts against nested regular expressions", "anchors": ["packages/smithy-core/src/smithy_core/rfc3986.py:HOST_MATCHER", "packages/smithy-core/src/smithy_core/rfc3986.py:IPv6_MATCHER", "packages/smithy-core/src/smithy_core/__init__.py:URI.__post_init__", "packages/smithy-core/src/smithy_core/__init__.py:URI.host_type"]}
{"id": "C85", "title": "A URI's text has the URI's parts", "statement": "The text built from a URI, read by RFC 3986, has exactly the scheme, user, host, port, path, query and fragment of the URI (an IPv6 host in brackets, an absolute path, empty parts left out), and can be read in no other way: two URIs with the same text have the same parts.", "quantifier": "every URI whose parts need no encoding", "why_tests_cant": "unbounded texts; every combination of parts", "anchors": ["packages/smithy-core/src/smithy_core/__init__.py:URI.netloc", "packages/smithy-core/src/smithy_core/__init__.py:URI.build"]}
{"id": "C86", "title": "Endpoints resolve to what was configured", "statement": "An endpoint configured as text resolves to the URI with the scheme, host, port, path and query of the text, the host having been checked; a text whose brackets are not a pair is refused; one configured as a URI is used as it is; without one the regional resolver uses the region's host and nothing else, whatever the region's text, and the static resolver raises an endpoint resolution error.", "quantifier": "every endpoint text, URI, prefix and region", "why_tests_cant": "unbounded texts, injection through configuration", "anchors": ["packages/smithy-core/src/smithy_core/endpoints.py:resolve_static_uri", "packages/smithy-core/src/smithy_core/aio/endpoints.py:StaticEndpointResolver", "packages/smithy-aws-core/src/smithy_aws_core/endpoints/standard_regional.py:StandardRegionalEndpointsResolver"]}
{"id": "C87", "title": "The signers' readers read like files", "statement": "Reads of any sizes from a reader of the signing package over bytes or chunks return what the same reads of the concatenated bytes return; its seekable reader does under every script of reads, seeks and tells what an in-memory file does; hashing a seekable body hashes what was left to read and leaves the body as it was; a read takes no more of its source than it needs; a closed reader raises and closes its source.", "quantifier": "every division into chunks, every sequence of operations before and after", "why_tests_cant": "unbounded sequences and chunkings", "anchors": ["packages/aws-sdk-signers/src/aws_sdk_signers/_io.py:AsyncBytesReader", "packages/aws-sdk-signers/src/aws_sdk_signers/_io.py:SeekableAsyncBytesReader", "packages/aws-sdk-signers/src/aws_sdk_signers/signers.py:AsyncSigV4Signer"]}
{"id": "C88", "title": "A cancelled read loses nothing", "statement": "A read that is cancelled while it waits for its source leaves the reader as it was: later reads return the bytes it would have returned, and the position is unchanged.", "quantifier": "every read size, every chunk at which the read is cancelled, every state of the reader", "why_tests_cant": "every cancellation point", "anchors": ["packages/smithy-core/src/smithy_core/aio/types.py:AsyncBytesReader", "packages/smithy-core/src/smithy_core/aio/types.py:SeekableAsyncBytesReader", "packages/aws-sdk-signers/src/aws_sdk_signers/_io.py:AsyncBytesReader"]}
{"id": "C89", "title": "A signature covers the whole request", "statement": "Two signed requests with the same Authorization header, signed by the same identity for the same date, region and service, have the same method, the same normalised path, the same query parameters up to order, the same signed headers with the same words in their values, and bodies with the same digest, unless a hash function collides on what was signed.", "quantifier": "every pair of requests that HTTP can carry", "why_tests_cant": "pairs of unbounded requests; injectivity of a text format", "anchors": ["packages/aws-sdk-signers/src/aws_sdk_signers/signers.py:SigV4Signer.canonical_request", "packages/aws-sdk-signers/src/aws_sdk_signers/signers.py:SigV4Signer.string_to_sign", "packages/aws-sdk-signers/src/aws_sdk_signers/signers.py:SigV4Signer.sign", "packages/aws-sdk-signers/src/aws_sdk_signers/signers.py:AsyncSigV4Signer.sign"]}
{"id": "C90", "title": "Instance credentials come from the configured metadata service", "statement": "Every request for instance credentials goes to the configured endpoint, metadata is only asked for with a token younger than its life time, a call makes at most four requests, returns credentials exactly as a successful answer says them or reuses the ones returned last while they have not expired and were not discarded, and otherwise raises.", "quantifier": "every history of calls and invalidations, every sequence of clock readings and answers", "why_tests_cant": "unbounded histories, clocks and answers", "anchors": ["packages/smithy-aws-core/src/smithy_aws_core/identity/imds.py:IMDSCredentialsResolver", "packages/smithy-aws-core/src/smithy_aws_core/identity/imds.py:EC2Metadata", "packages/smithy-aws-core/src/smithy_aws_core/identity/imds.py:Config"]}
{"id": "C91", "title": "Signing and retrying leave the prepared request alone", "statement": "Signing returns a new request with new headers and leaves every object its caller holds as it was; every attempt of a call starts with the method, destination, body and headers of the request the call prepared, whatever the attempts before did to theirs.", "quantifier": "every request, identity and signing options, every heap of shared objects, every list of attempts and of actions in them", "why_tests_cant": "sharing through references, unbounded attempts and actions", "anchors": ["packages/aws-sdk-signers/src/aws_sdk_signers/signers.py:AsyncSigV4Signer.sign", "packages/aws-sdk-signers/src/aws_sdk_signers/_http.py:AWSRequest.__deepcopy__", "packages/smithy-core/src/smithy_core/aio/client.py:RequestPipeline._retry", "packages/smithy-http/src/smithy_http/aio/__init__.py:HTTPRequest"]}
{"id": "C92", "title": "Resolving a retry strategy gives what is configured, shared by the calls of a client and by nothing else", "statement": "Resolving returns the configured strategy object itself, or one of the configured mode and number of attempts (standard with three attempts if nothing is configured, five for simple), or raises: TypeError for something that is neither, ValueError for an unknown mode or a negative number of attempts in standard mode. Calls of one client with the same options get the same strategy, so they share one retry quota; a strategy made for one client or one set of options is never given for another.", "quantifier": "every number of clients, every list of calls in every order, every configuration", "why_tests_cant": "unbounded histories and an eviction that depends on them", "anchors": ["packages/smithy-core/src/smithy_core/aio/retries.py:RetryStrategyResolver", "packages/smithy-core/src/smithy_core/retries.py:RetryStrategyOptions"]}
{"id": "C93", "title": "The signatures of an event stream continue the request's signature", "statement": "For every signed request, the one Authorization header ends with the request's signature, and the publisher made for that request starts its chain of event signatures with exactly that signature, whatever access key, header names or region the header names before it: every frame on the wire is signed over the one before it and the first over the request. A publisher is never made with a signer from a request without an Authorization header.", "quantifier": "every request, identity and signing configuration; every hash and HMAC; every list of concurrent sends and closes and every schedule", "why_tests_cant": "unbounded header contents, concurrent calls and interleavings", "anchors": ["packages/smithy-aws-core/src/smithy_aws_core/auth/sigv4.py:SigV4AuthScheme.event_signer", "packages/smithy-aws-core/src/smithy_aws_core/aio/protocols.py:RestJsonClientProtocol.create_event_publisher", "packages/aws-sdk-signers/src/aws_sdk_signers/signers.py:AsyncEventSigner"]}
{"id": "C94", "title": "A response's output arrives however the transport brings it", "statement": "For every output a service writes as a successful response, the client returns that output when the response comes as header lines and a body in chunks of any sizes from the CRT or in one piece from aiohttp; the lines may change case, order and neighbours if no member takes headers by prefix. A streamed payload member is the unread body of the response itself and the other members are as written. Any status outside 200 to 299 gives no output but an error made of all header values and the whole body.", "quantifier": "every schema and output that C82 covers, every number and size of chunks, every list of header lines that says the same, every status", "why_tests_cant": "unbounded outputs, schemas, splits of the body and arrangements of headers", "anchors": ["packages/smithy-http/src/smithy_http/aio/crt.py:AWSCRTHTTPClient._await_response", "packages/smithy-http/src/smithy_http/aio/aiohttp.py:AIOHTTPClient._marshal_response", "packages/smithy-http/src/smithy_http/aio/protocols.py:HttpBindingClientProtocol.deserialize_response"]}
{"id": "C95", "title": "An awsQuery call returns what is in the result element, or raises the error in the error element", "statement": "For every successful awsQuery response whose first element is the operation's result, in whatever chunks it comes, the call returns exactly what that element holds for the output's members, whatever follows it; operations without output members need no result element. For every other status the call raises an error: the modeled one its code stands for, made of what the error element holds, if that element comes first, and otherwise a generic one with the flags of the status. A successful response without a body is an output without members, unless a header says there was a body.", "quantifier": "every operation, schema and registry of errors; every document, chunking and list of header lines; every status", "why_tests_cant": "unbounded documents, schemas, splits of the body and header lists", "anchors": ["packages/smithy-aws-core/src/smithy_aws_core/aio/protocols.py:AwsQueryClientProtocol.deserialize_response", "packages/smithy-aws-core/src/smithy_aws_core/_private/query/errors.py:create_aws_query_error", "packages/smithy-xml/src/smithy_xml/_private/deserializers.py:XMLShapeDeserializer"]}
{"id": "C96", "title": "An operation's input reaches the service through either HTTP client", "statement": "For every input, operation and endpoint, the request that a client is given to send is addressed to the endpoint; before the first question mark its target is the endpoint's path followed by the operation's path, in which every label is the percent-encoded text of its member and, unless it is greedy, stays one segment; after it come the parameters of the endpoint, of the operation and of the members, in this order. For every header name, the lines sent are those of the members and those that describe the body, and only host and accept are filled in. The body that is read or received in chunks is that of the input, and a length that is announced is the length of what follows. aiohttp is given the same, with the parameters that have a value grouped by name. Streams that can be iterated again from their start are excepted.", "quantifier": "every schema, input, path pattern, endpoint URI, body and size of reads", "why_tests_cant": "unbounded schemas, values, paths, queries and bodies", "anchors": ["packages/smithy-http/src/smithy_http/serializers.py:HTTPRequestSerializer", "packages/smithy-http/src/smithy_http/aio/protocols.py:HttpClientProtocol.set_service_endpoint", "packages/smithy-http/src/smithy_http/aio/crt.py:AWSCRTHTTPClient", "packages/smithy-http/src/smithy_http/aio/aiohttp.py:AIOHTTPClient"]}
{"id": "C97", "title": "A trait reads the same however it is given", "statement": "For every trait class of the library and every document value: a trait made by its class, by its Smithy name or from its dynamic form has the same value and the same attributes, or fails the same way; a dynamic trait of another name is refused, and a name without a class gives a dynamic trait with that name and value. A value of the shape Smithy gives the trait is always taken, with every attribute of the type it is declared with; of an http trait, the path and the query are what is before and after the first question mark of the URI and the code is 200 unless given. The stream of an operation is found in the first member with the streaming trait.", "quantifier": "every class, document value, trait name, order in which classes are defined, and list of members", "why_tests_cant": "unbounded nested values, names and histories of definitions", "anchors": ["packages/smithy-core/src/smithy_core/traits.py:Trait", "packages/smithy-core/src/smithy_core/traits.py:HTTPTrait", "packages/smithy-core/src/smithy_core/schemas.py:Schema.get_trait", "packages/smithy-core/src/smithy_core/schemas.py:APIOperation", "packages/smithy-aws-core/src/smithy_aws_core/traits.py:RestJson1Trait"]}
{"id": "C98", "title": "The information of a REST JSON error comes from the documented places", "statement": "For every response: the code is that of the first x-amzn-errortype field, whatever its case, or else the first text that is not empty under __type or code in the body, without a namespace and a URI; the message is the first text that is not empty under one of its names; what is not there is Unknown. An empty body or one that is not JSON is ignored.", "quantifier": "every list of fields, body, result of the JSON parser and case mapping", "why_tests_cant": "unbounded fields, entries and texts", "anchors": ["packages/smithy-http/src/smithy_http/aio/restjson.py:parse_rest_json_error_info", "packages/smithy-http/src/smithy_http/restjson.py:RestJsonErrorInfo"]}
{"id": "C99", "title": "Enumerations keep unknown values and tell placeholders apart", "statement": "For every program: calling a generated enumeration with a declared value gives the declared member, the same one each time; with another value of its type a new value that carries it and says that it is unknown; with a value of another type it is refused. Values compare and hash as the text or number they are, except placeholders for missing members, which are equal to themselves only; equality is an equivalence and agrees with hashes. Pickling gives back an equal value.", "quantifier": "every history of defining enumerations, calling them, making placeholders and unpickling, all values and all pairs and triples of objects", "why_tests_cant": "unbounded histories, enumerations and values", "anchors": ["packages/smithy-core/src/smithy_core/types.py:UnknownEnumMixin"]}
{"id": "C100", "title": "A cancelled call stops where it is and is never taken for anything else", "statement": "For every call, whatever its interceptors, protocol, transport and retry strategy do and wherever a cancellation (or another BaseException) arrives: the caller gets the cancellation, not an output or a SmithyError; what was called is what would have been called up to the interrupted callee, and nothing is called after it; a call that ends otherwise ends exactly as if nobody had tried to cancel it. Each execution and attempt that interceptors were told of is also reported to have ended, and quota that was taken is not lost.", "quantifier": "every environment of a call, every function that decides at each callee whether to interrupt it and what it leaves, all inputs and numbers of attempts", "why_tests_cant": "cancellations can arrive at any await of any attempt", "anchors": ["packages/smithy-core/src/smithy_core/aio/client.py:RequestPipeline"]}
{"id": "C101", "title": "Blobs are base64, and only base64 is read as a blob", "statement": "Every blob in a JSON body or a form, and every string with a media type in a header, is written as the one RFC 4648 base64 text of its bytes, with padding and without line breaks. Reading such a text gives the bytes back; every text that is not base64 is refused.", "quantifier": "all byte sequences of any length, all texts; JSON bodies, documents, forms, headers and XML", "why_tests_cant": "there are infinitely many texts that are nearly base64, and encoders differ in alphabet, padding and line breaks for particular lengths and bytes only", "anchors": ["packages/smithy-json/src/smithy_json/_private/serializers.py:write_blob", "packages/smithy-json/src/smithy_json/_private/deserializers.py:read_blob", "packages/smithy-json/src/smithy_json/_private/documents.py:as_blob", "packages/smithy-http/src/smithy_http/serializers.py:HTTPHeaderSerializer.write_string", "packages/smithy-http/src/smithy_http/deserializers.py:HTTPHeaderDeserializer.read_string", "packages/smithy-aws-core/src/smithy_aws_core/_private/query/serializers.py:write_blob", "packages/smithy-xml/src/smithy_xml/_private/deserializers.py:read_blob"]}
{"id": "C102", "title": "The tasks of a streaming call do not get in each other's way", "statement": "For every schedule of the caller of an operation with an input stream, the task that executes it, the transport and any number of tasks that wait for its output, with cancellations of any of them at any time: whoever is given a stream has its one request with the transport; everybody who waits for the output gets what the call ended with; nobody waits for ever; cancelling the caller gives the call up, and cancelling one who waits concerns only that one.", "quantifier": "all sequences of steps of all tasks, all outcomes of the callees, any number of waiting tasks, cancellations between any two steps", "why_tests_cant": "the number of schedules is unbounded and tests see the one the event loop happens to choose", "anchors": ["packages/smithy-core/src/smithy_core/aio/client.py:RequestPipeline.input_stream", "packages/smithy-core/src/smithy_core/aio/client.py:RequestPipeline._handle_attempt", "packages/smithy-core/src/smithy_core/aio/eventstream.py:InputEventStream.await_output"]}
{"id": "C103", "title": "Text on the wire is encoded as the standards say", "statement": "Text that is sent or signed is UTF-8 as RFC 3629 defines it, and received octets are taken as text exactly if they are; query parameters and path labels are percent encoded as RFC 3986 defines it, with upper case digits and nothing escaped that need not be; digests and signatures are lower case hexadecimal; numbers are decimal digits without leading zeros.", "quantifier": "all texts, including characters outside the BMP and lone surrogates, all octet sequences, all parameter lists and labels, all numbers", "why_tests_cant": "the encodings are shared by both directions of every round trip test, which cannot tell a standard encoding from a private one", "anchors": ["packages/smithy-http/src/smithy_http/utils.py:join_query_params", "packages/smithy-http/src/smithy_http/serializers.py:HTTPPathSerializer.write_string", "packages/aws-sdk-signers/src/aws_sdk_signers/signers.py:SigV4Signer._format_canonical_query", "packages/aws-sdk-signers/src/aws_sdk_signers/signers.py:SigV4Signer.string_to_sign", "packages/smithy-aws-event-stream/src/smithy_aws_event_stream/events.py:EventHeaderEncoder"]}
{"id": "C104", "title": "A service that follows the published rules computes the signature that was sent", "statement": "From any signed request as it is sent, the published rules of Signature Version 4, which give every message one signature, compute exactly the list of signed headers and the signature in its Authorization header, from the date, region, service and secret; the path is normalised and encoded, or signed as it is when path encoding is switched off.", "quantifier": "all requests (paths, queries, headers in any order, bodies of every kind), both signers, all credentials, regions, services and dates, all digest functions", "why_tests_cant": "tests compare with a few stored signatures; a rule that is broken for one order of parameters, one port or one character is not among them", "anchors": ["packages/aws-sdk-signers/src/aws_sdk_signers/signers.py:SigV4Signer.sign", "packages/aws-sdk-signers/src/aws_sdk_signers/signers.py:AsyncSigV4Signer.sign", "packages/aws-sdk-signers/src/aws_sdk_signers/signers.py:SigV4Signer.canonical_request", "packages/aws-sdk-signers/src/aws_sdk_signers/signers.py:SigV4Signer._format_canonical_path", "packages/aws-sdk-signers/src/aws_sdk_signers/_http.py:URI.netloc"]}
{"id": "C105", "title": "A JSON document is complete exactly if writing it succeeded", "statement": "Whatever calls a shape makes to the JSON serializer: if they all return, the octets written are those of the value the calls make; if any call raises, at any point, that exception reaches the caller, what has been written is exactly what precedes that point, and it is not a JSON document, so that a truncated body can never be taken for a whole one.", "quantifier": "all trees of calls to a JSON serializer (every writing method, nested structures, lists and maps), every point at which one of them raises, all schemas and settings", "why_tests_cant": "the property is about every crash point of every tree of calls; tests write complete values", "anchors": ["packages/smithy-json/src/smithy_json/_private/serializers.py:JSONShapeSerializer", "packages/smithy-json/src/smithy_json/_private/serializers.py:JSONStructSerializer", "packages/smithy-json/src/smithy_json/_private/serializers.py:JSONListSerializer", "packages/smithy-json/src/smithy_json/_private/serializers.py:JSONMapSerializer", "packages/smithy-core/src/smithy_core/serializers.py:InterceptingSerializer", "packages/smithy-core/src/smithy_core/serializers.py:ShapeSerializer.write_data_stream"]}
{"id": "C106", "title": "The tasks of a duplex streaming call do not get in each other's way", "statement": "For every schedule of the caller of an operation with event streams in both directions, the tasks that execute it, the transport and any number of tasks that await its output or close the stream, with cancellations of any of them at any time: whoever is given a stream has its one request with the transport; all who await the output get the same, namely what the call ended with; nobody waits for ever; a close closes the input stream and then the output stream, whether or not the service has answered and whether or not the call failed; and cancelling a task that waits concerns only that task.", "quantifier": "all sequences of steps of all tasks, all outcomes of the callees, any number of tasks using the stream, cancellations between any two steps", "why_tests_cant": "the number of schedules is unbounded and tests see the one the event loop happens to choose", "anchors": ["packages/smithy-core/src/smithy_core/aio/client.py:RequestPipeline.duplex_stream", "packages/smithy-core/src/smithy_core/aio/client.py:RequestPipeline._await_output_stream", "packages/smithy-core/src/smithy_core/aio/eventstream.py:DuplexEventStream.await_output", "packages/smithy-core/src/smithy_core/aio/eventstream.py:DuplexEventStream.close"]}
{"id": "C107", "title": "A string or blob that holds JSON and its value agree", "statement": "Making a JSON string or blob from a value gives a JSON text that says that value; asking it for its value, however often and whether it was made from a value or from a text, gives the value its text says, and what is done with a value that was returned does not change what the string says.", "quantifier": "all JSON values of any depth, all texts, any number of calls", "why_tests_cant": "the values and texts are unbounded; a cache makes the result depend on the history of calls", "anchors": ["packages/smithy-core/src/smithy_core/types.py:JsonString.as_json", "packages/smithy-core/src/smithy_core/types.py:JsonString.from_json", "packages/smithy-core/src/smithy_core/types.py:JsonBlob.as_json", "packages/smithy-core/src/smithy_core/types.py:JsonBlob.from_json"]}
{"id": "C108", "title": "Equal objects can stand for each other", "statement": "Two header fields, header collections, URIs, shape identifiers, event messages or documents compare equal exactly if they have the same contents: the same parts in the documented order, the same text, the same bytes on the wire, the same value. Comparing never raises and changes nothing, equal objects have equal hashes, and names of fields that differ in case only are treated as equivalent.", "quantifier": "all fields, collections, URIs, identifiers, messages and documents of any size", "why_tests_cant": "pairs of unbounded objects; the comparison of one kind goes through the encoder, of another through a cache", "anchors": ["packages/smithy-http/src/smithy_http/__init__.py:Field.__eq__", "packages/smithy-http/src/smithy_http/__init__.py:Fields.__eq__", "packages/smithy-core/src/smithy_core/__init__.py:URI.__eq__", "packages/smithy-core/src/smithy_core/shapes.py:ShapeID.__eq__", "packages/smithy-aws-event-stream/src/smithy_aws_event_stream/events.py:EventMessage.__eq__", "packages/smithy-core/src/smithy_core/documents.py:Document.__eq__"]}
{"id": "C109", "title": "After invalidate() every source is read again", "statement": "However chains of identity resolvers are nested, a resolution asks the sources from left to right until one has an identity. After any history of calls, invalidate() discards every identity kept anywhere below the resolver, so that the next resolution reads the sources again and whatever is returned later was given by a source since then. An identity that is kept is never returned after it has expired.", "quantifier": "all trees of resolvers of any depth and width, all histories of resolutions and invalidations, all answers of the sources at each time", "why_tests_cant": "unbounded nesting and unbounded histories; each resolver keeps a copy of its own, and a test covers one chain", "anchors": ["packages/smithy-core/src/smithy_core/aio/identity.py:CachingIdentityResolver.invalidate", "packages/smithy-core/src/smithy_core/aio/identity.py:ChainedIdentityResolver.invalidate", "packages/smithy-aws-core/src/smithy_aws_core/identity/chain/__init__.py:IdentityChain.invalidate", "packages/smithy-aws-core/src/smithy_aws_core/identity/environment.py:EnvironmentCredentialsResolver", "packages/smithy-aws-core/src/smithy_aws_core/identity/imds.py:IMDSCredentialsResolver.invalidate", "packages/smithy-aws-core/src/smithy_aws_core/identity/container.py:ContainerCredentialsResolver.invalidate"]}
{"id": "C110", "title": "The test client answers in order and records what was sent", "statement": "Whatever calls a test and its client make in whatever order, the mock HTTP client gives the queued responses first in, first out, each once, with the status, headers and body they were queued with; it raises exactly if none is left; and it records every request in order, as it was when it was sent. So a client under test that tries again gets the n-th response at its n-th attempt to transmit, and every attempt is recorded.", "quantifier": "all interleavings of queueing, sending and changing requests, headers and lists", "why_tests_cant": "every test suite of every generated client rests on it; the orders of calls are unbounded and objects are shared", "anchors": ["packages/smithy-http/src/smithy_http/testing/mockhttp.py:MockHTTPClient.add_response", "packages/smithy-http/src/smithy_http/testing/mockhttp.py:MockHTTPClient.send", "packages/smithy-http/src/smithy_http/testing/mockhttp.py:MockHTTPClient.captured_requests", "packages/smithy-core/src/smithy_core/aio/client.py:RequestPipeline._handle_attempt", "packages/smithy-http/src/smithy_http/__init__.py:tuples_to_fields"]}
{"id": "C111", "title": "Tasks that share a tree of identity resolvers", "statement": "In every schedule of any number of tasks that use one tree of identity resolvers, a call asks the sources from left to right and none twice; what it returns was answered by a source during the call, or was kept and had not expired when it was found during the call; it raises SmithyIdentityError only if every source has refused it during the call; it waits for nothing but its sources; what it finds in a resolver was answered by a source below that resolver; and after an invalidation no call returns anything from before.", "quantifier": "all trees, any number of tasks, all interleavings of their steps, answers and invalidations", "why_tests_cant": "unbounded schedules of calls that overlap; each chain and each resolver keeps identities of its own", "anchors": ["packages/smithy-core/src/smithy_core/aio/identity.py:CachingIdentityResolver.get_identity", "packages/smithy-core/src/smithy_core/aio/identity.py:ChainedIdentityResolver._get_identity", "packages/smithy-aws-core/src/smithy_aws_core/identity/chain/__init__.py:IdentityChain.get_identity", "packages/smithy-aws-core/src/smithy_aws_core/identity/imds.py:IMDSCredentialsResolver.get_identity", "packages/smithy-aws-core/src/smithy_aws_core/identity/container.py:ContainerCredentialsResolver.get_identity"]}
