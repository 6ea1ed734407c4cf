import json
P=[]
def p(id,title,statement,quantifier,why,anchors):
    P.append(dict(id=id,title=title,statement=statement,quantifier=quantifier,why_tests_cant=why,anchors=anchors))
ES="packages/smithy-aws-event-stream/src/smithy_aws_event_stream/"
CORE="packages/smithy-core/src/smithy_core/"
HTTP="packages/smithy-http/src/smithy_http/"
SIG="packages/aws-sdk-signers/src/aws_sdk_signers/"
AWS="packages/smithy-aws-core/src/smithy_aws_core/"
JS="packages/smithy-json/src/smithy_json/"
XML="packages/smithy-xml/src/smithy_xml/"
p("C01","Event message round trip","Encoding any event message whose header names and values are within the format's limits succeeds, and decoding the produced bytes yields exactly the same headers (names, types, values, order) and the same payload, leaving whatever bytes follow the message unread.","every header list (all ten value types, any order, any length within limits), every payload within limits, every suffix of the byte source","the space of messages is unbounded and a byte-order, length or tag slip may show for one length only",[ES+"events.py:EventMessage.encode",ES+"events.py:EventHeaderEncoder",ES+"events.py:EventHeaderDecoder",ES+"events.py:Event.decode"])
p("C02","Concatenated messages decode in order and end cleanly","Decoding repeatedly from a source holding the concatenation of encoded messages returns exactly those messages in order, and then reports end of stream (None) rather than an error or an extra message.","every finite sequence of valid messages","needs induction over stream histories of any length",[ES+"events.py:Event.decode",ES+"aio/__init__.py:AWSEventReceiver"])
p("C03","Event decoding does not depend on chunking","Decoding from an asynchronous byte source gives the same events as decoding the concatenated bytes, however the transport cuts them into chunks (including empty ones).","every byte string and every way of cutting it into chunks","the number of chunkings is exponential; a wrong remainder shows only for particular cuts",[ES+"events.py:Event.decode_async",CORE+"aio/types.py:AsyncBytesReader"])
p("C04","Corrupted event frames are rejected","If any run of up to four consecutive bytes of an encoded message is altered, decoding raises an error; it never returns a message. (The one kind of run for which this fails, four bytes of which exactly the last two belong to the final checksum, is exhibited separately.)","every valid message, every position, every alteration of at most four adjacent bytes","the claim is about every corruption, 2^32 per position; CRC properties are algebraic",[ES+"events.py:Event.decode",ES+"events.py:_EventEncoder",ES+"events.py:_validate_checksum"])
p("C05","Event size limits hold on both sides","Encoding never emits a message whose headers exceed 128 KiB or whose payload exceeds 16 MiB, and decoding never accepts a prelude declaring such sizes; both report errors.","every message and every byte string","boundary sizes for every combination of headers",[ES+"events.py:MAX_HEADERS_LENGTH",ES+"events.py:MAX_PAYLOAD_LENGTH",ES+"events.py:_EventEncoder",ES+"events.py:EventPrelude"])
p("C06","Event header names are unique","Neither encoding nor decoding ever produces a message with two headers of the same name: encoding a header sequence succeeds only when names are distinct and decoding duplicates raises an error.","every header sequence and every byte string","depends on every position of the duplicate",[ES+"events.py:EventHeaderEncoder.encode_header" ,ES+"events.py:EventHeaderDecoder"])
p("C07","A truncated event stream never yields a partial event","For every proper prefix of an encoded message, decoding raises an error (or reports end of stream when the prefix is empty); for a truncated sequence the complete messages are returned first.","every message sequence and every truncation point (crash point)","every crash point of every stream",[ES+"events.py:Event.decode"])
p("C08","Event publisher lifecycle","For every sequence of sends and closes, the bytes handed to the transport are exactly the encoded (signed, when signing) frames of the accepted events in order, followed by at most one end frame; a send after close raises and writes nothing; close is idempotent and always closes the transport, even when a write fails.","every sequence of send/close calls with arbitrary write failures","unbounded histories of calls and failures",[ES+"aio/__init__.py:AWSEventPublisher"])
p("C09","Event receiver lifecycle","For every byte stream, receive returns events in stream order, returns None from the end of the stream or after close on, and after a framing error the receiver is closed so that no later call returns an event.","every byte stream and every sequence of receive/close calls","unbounded histories",[ES+"aio/__init__.py:AWSEventReceiver"])
p("C10","Event signatures form one chain","For every schedule of concurrent sign calls and an end-of-stream call, the signatures form a single chain starting at the seed signature: each frame is signed with the signature of the frame signed before it, and no frame is signed after the end frame.","every interleaving of concurrent signing calls","schedules cannot be enumerated by tests",[SIG+"signers.py:AsyncEventSigner"])
p("C11","Retry quota stays within bounds under concurrency","For every interleaving of acquire and release calls from any number of clients sharing a quota, available capacity stays between zero and the maximum, an acquire fails only if capacity is below its cost, and a failed acquire changes nothing.","every interleaving of acquire/release calls at lock granularity, including the unlocked early-exit read","races",[CORE+"retries.py:StandardRetryQuota"])
p("C12","Attempts are bounded by max_attempts","Whatever the service answers, one operation makes at least one and at most max_attempts attempts, each retry follows a failure marked retry safe, and a failure not marked safe to retry (or with unknown safety) ends the operation.","every sequence of service outcomes, every max_attempts of at least one, both strategies","unbounded failure histories",[CORE+"retries.py:SimpleRetryStrategy",CORE+"retries.py:StandardRetryStrategy",CORE+"aio/client.py:RequestPipeline._retry"])
p("C13","Backoff delays are bounded","Every computed delay is non-negative and at most the configured maximum for every attempt number, jitter mode and random draw; the first attempt has no delay; a server supplied retry-after moves the delay into [computed, computed + 5s].","every attempt number, random draw in [0,1], configuration and history of calls","real valued draws and unbounded attempts",[CORE+"retries.py:ExponentialRetryBackoffStrategy",CORE+"retries.py:StandardRetryStrategy.refresh_retry_token_for_retry"])
p("C14","Retry quota is conserved","Over any history of operations on a shared standard strategy, capacity never exceeds the start value, each retry costs 14 (or 5 when throttled), and success gives back what the last retry took (or 1 if there was none); a failed operation gives back nothing.","every history of operations and outcomes","unbounded histories",[CORE+"retries.py:StandardRetryStrategy",CORE+"retries.py:StandardRetryQuota"])
p("C15","The retry loop reports the last attempt and starts each attempt afresh","The outcome of an operation is the outcome of its last attempt; between attempts the delay requested by the retry token is slept and the request body is rewound to its start; success is recorded exactly once and only on success.","every sequence of attempt outcomes and every retry strategy","unbounded failure histories",[CORE+"aio/client.py:RequestPipeline._retry"])
p("C16","Interceptor hooks run in the documented order","For every pattern of hook failures, the sequence of hook points visited is the documented one: execution hooks once, attempt hooks once per attempt in order, and both completion phases always, with the transport called at most once per attempt and only after signing hooks succeeded.","every failure pattern of hooks, serialization, signing, transport and every number of retries","2^n failure patterns times unbounded retries",[CORE+"aio/client.py:RequestPipeline",CORE+"interceptors.py:InterceptorChain"])
p("C17","Modify hooks compose","With several interceptors, each modify hook receives the value returned by the previous interceptor's hook, and the value used afterwards is the one returned by the last.","every list of interceptors","every list of interceptors and every modification",[CORE+"interceptors.py:InterceptorChain"])
p("C18","Completion hooks are all invoked","Every interceptor's modify_before_completion and read_after_execution hook is invoked exactly once per execution whatever fails; the last exception raised by read_after_execution wins.","every list of interceptors and every failure pattern","exponential failure patterns",[CORE+"interceptors.py:InterceptorChain.modify_before_completion",CORE+"interceptors.py:InterceptorChain.read_after_execution"])
p("C19","Input modifications reach the wire","The transport request sent is the serialization of the input as modified by modify_before_serialization hooks.","every input and every interceptor","every modification",[CORE+"aio/client.py:RequestPipeline._handle_execution"])
p("C20","Streaming calls terminate when the request fails early","A streaming-input call returns or raises whenever its execution has ended, whatever stage fails.","every failing stage","schedules",[CORE+"aio/client.py:RequestPipeline.input_stream",CORE+"aio/client.py:RequestPipeline.duplex_stream"])
p("C21","Header list values round trip","Writing a list of at least two header values as one header line and splitting that line gives back the list, for values that are non-blank and carry no outer white space or that need quoting; splitting never invents or reorders values, and malformed quoting raises an error.","every list of header values over all Unicode strings","unbounded strings with quotes, commas and backslashes",[HTTP+"__init__.py:Field.as_string",HTTP+"utils.py:split_header"])
p("C22","Header collection is a case-insensitive ordered map","For every sequence of operations, a header collection holds at most one field per case-folded name, keeps first-insertion order, looks names up regardless of case, and rejects duplicate initial fields and mismatching keys.","every sequence of set/get/delete/extend/remove operations","unbounded histories",[HTTP+"__init__.py:Fields"])
p("C23","Query strings round trip","Joining query parameters and then splitting on '&' and '=' and percent-decoding gives back exactly the parameters in order, whatever characters they hold, provided the first is not an empty key without a value; parameters already in the operation's URI come first.","every list of key/value pairs over all byte strings","unbounded strings",[HTTP+"utils.py:join_query_params"])
p("C24","URI labels cannot escape their segment","Formatting a path pattern with label values either raises or yields a path in which every non-greedy label occupies exactly its own segment; no empty segment is ever introduced.","every pattern and every label assignment","unbounded strings",[CORE+"types.py:PathPattern.format"])
p("C25","Endpoint resolution preserves request path and query","Applying a resolved endpoint to a request takes scheme and host from the endpoint, and yields a path that is absolute and is the endpoint path followed by the request path, and a query that contains both queries, endpoint first.","every endpoint URI and request destination","unbounded strings and optional parts",[HTTP+"aio/protocols.py:HttpClientProtocol.set_service_endpoint"])
p("C26","API key signing only adds the key","Signing a request with an API key changes nothing but the query (query location) or the named header (header location).","every request, every key","every optional URI part",[HTTP+"aio/auth/apikey.py:APIKeySigner.sign"])
p("C27","User-agent components are sanitised","Whatever strings platform or configuration provide, the rendered user agent consists of allowed characters only, with one component per space-separated word, so it cannot break the header.","every component list","all Unicode strings",[HTTP+"user_agent.py:UserAgent",HTTP+"user_agent.py:sanitize_user_agent_string_component"])
p("C28","Asynchronous byte readers lose nothing","Reading an async reader over any bytes or any one-shot chunk iterator with any sequence of read sizes returns the source bytes in order without loss or duplication, exactly the requested number while data remains.","every chunk sequence and every sequence of read sizes","unbounded histories",[CORE+"aio/types.py:AsyncBytesReader"])
p("C29","Seekable reader behaves like an in-memory file","For every sequence of read/seek/tell on a seekable async reader over a chunk source, results equal those of an in-memory byte file holding the same bytes.","every chunk sequence and every operation sequence","unbounded histories",[CORE+"aio/types.py:SeekableAsyncBytesReader"])
p("C30","Byte provider is a bounded FIFO","For every interleaving of writers, a consumer, flushes and closes, chunks are delivered in the order the writes were accepted, never more than the configured number are buffered, none is lost unless closed without flushing, nothing is delivered after closing without flush, and no write is accepted after close.","every schedule of concurrent tasks","schedules",[CORE+"aio/types.py:AsyncBytesProvider"])
p("C31","Byte provider makes progress","A blocked write, flush or close of a byte provider eventually completes when a consumer keeps reading.","every schedule with a live consumer","schedules and liveness",[CORE+"aio/types.py:AsyncBytesProvider"])
p("C32","SigV4 signing leaves the caller's request untouched and is independent of header order","The canonical request, and hence the signature, depends only on the method, path, set of query parameters, header names case-insensitively with their values, and payload: permuting headers or query parameters, or changing the case of header names, changes nothing, and excluded headers never matter.","every request and every permutation","permutations of unbounded sets",[SIG+"signers.py:SigV4Signer.canonical_request"])
p("C33","Canonical paths are normalised","Normalising a path removes every dot segment, keeps it absolute, keeps the trailing slash, and applying it twice equals applying it once.","every path string","unbounded strings",[SIG+"signers.py:SigV4Signer._format_canonical_path",CORE+"utils.py:remove_dot_segments"])
p("C34","Config file parsing reconstructs profiles","Parsing a shared config text rendered from a set of sections and properties (with comments, blank lines and continuation lines) gives back exactly those sections and properties, and every malformed line raises an error with its line number rather than being silently attached to another section.","every well-formed configuration and every text","unbounded line histories",[AWS+"config/file_parser.py:_parse_content"])
p("C35","Credentials file wins over config file per property","The merged view of a profile has, for every property, the credentials file's value when present there and otherwise the config file's; sso-session and services sections come only from the config file; [profile default] beats [default].","every pair of parsed files","unbounded maps",[AWS+"config/merged_config.py",AWS+"config/file_parser.py:standardize"])
p("C36","Configuration precedence and provenance","Every resolved field has the value of the first source that supplies one in the order explicit override, environment, profile, default, and reports that source.","every combination of sources for every field","product of sources over all fields",[AWS+"config/aws_config.py",AWS+"config/resolvers.py"])
p("C37","Resolved configuration is always valid","After resolution and any sequence of assignments, each field satisfies its validator, and a rejected assignment changes neither value nor provenance.","every assignment sequence","unbounded histories",[AWS+"config/aws_config.py:__setattr__",AWS+"config/validators.py"])
p("C38","Cached identities are never served expired","A caching identity resolver returns the cached identity exactly while it is unexpired and not invalidated, otherwise it refetches; with concurrent calls every returned identity was unexpired at the check or freshly fetched.","every history of get/invalidate calls and clock values","unbounded histories and clocks",[CORE+"aio/identity.py:CachingIdentityResolver"])
p("C39","Chained identity resolution returns the first success","A chained resolver returns the identity of the first resolver that succeeds, tries none after it, skips only identity errors, and raises an identity error only when all have failed.","every list of resolvers and outcomes","unbounded lists",[CORE+"aio/identity.py:ChainedIdentityResolver",AWS+"identity/chain/"])
p("C40","Credential provider order is deterministic","The AWS identity chain orders providers by documented slot, 'before' entries first and 'after' entries last, keeping discovery order among equals; duplicates are rejected; no provider after a terminal one is set up.","every multiset of providers in every discovery order","permutations",[AWS+"identity/chain/"])
p("C41","IMDS token is refreshed once for concurrent callers","For every interleaving of callers, a token is fetched only when none is cached or the cached one is due, and callers waiting for a refresh reuse its result.","every schedule","schedules",[AWS+"identity/imds.py:TokenCache"])
p("C42","Container credentials only go to permitted hosts","No request is sent to a container metadata URL whose host is neither loopback nor on the allow list; at most the configured number of attempts is made; and cached credentials are reused exactly until they expire.","every URL, every failure history","unbounded",[AWS+"identity/container.py"])
p("C43","JSON string escaping round trips","Any string written by the JSON serializer is read back by a conforming JSON string reader as the same string, and the literal contains no raw control character or unescaped quote.","every Unicode string","unbounded strings",[JS+"_private/serializers.py"])
p("C44","JSON output is well-formed and faithful","The bytes produced for any tree of values (structures, lists, maps, strings, booleans, integers, nulls) parse, with a JSON parser written from the grammar, to that tree.","every value tree","unbounded trees; comma state",[JS+"_private/serializers.py"])
p("C45","Skipping an unknown JSON member consumes exactly that member","When a structure reader meets an unknown member or reads a document, exactly the events of that value are consumed, whatever its nesting, its key and what its objects contain; so too for a whole text read as a document, unless it is an object with a member of empty name that is an object.","every JSON value and every surrounding position","unbounded nesting",[JS+"_private/deserializers.py"])
p("C46","Query protocol bodies are unambiguous","Every form body produced splits on '&' and '=' and percent-decodes to the flat parameter list: Action and Version first, then one parameter per leaf with 1-based indices, distinct leaves having distinct names.","every input tree","unbounded trees and strings",[AWS+"_private/query/serializers.py"])
p("C47","Error classification","Every failing response yields an error whose throttling, timeout, fault and retry-safety flags follow its status (429, 408, below 500) when unmodeled, and the modeled error when its code resolves to a registered shape; parse_retry_after yields a non-negative number of seconds or nothing.","every status, code and registry","product of inputs",[AWS+"_private/query/errors.py",AWS+"utils.py",HTTP+"aio/protocols.py:HttpBindingClientProtocol._create_error"])
p("C48","Shape identifiers round trip","Parsing a shape ID and rebuilding it from namespace, name and member gives the same ID; equality is equality of text; malformed IDs raise.","every string","unbounded strings",[CORE+"shapes.py:ShapeID"])
p("C49","Schema members inherit and override traits","A member's effective traits are the target's overridden by its own, members are ordered by index, lookups by name agree with that order, and inconsistent member declarations are rejected.","every schema","unbounded maps",[CORE+"schemas.py:Schema"])
p("C50","Documents reflect mutations","After any sequence of item assignments, insertions and deletions on a document, reading it back (as a plain value) gives the value obtained by the same operations on a plain value.","every operation sequence, nested","unbounded histories",[CORE+"documents.py:Document"])
p("C51","Unknown XML elements are skipped whole","The XML reader skips exactly one element with all its descendants, whatever its nesting, so members after it are read correctly; map entries and wrapped lists consume exactly their own elements.","every XML tree","unbounded nesting",[XML+"_private/readers.py",XML+"_private/deserializers.py"])
p("C52","Flattened XML members are regrouped","Interleaved elements of flattened lists and maps are delivered to their member in document order, each member exactly once after the other members.","every interleaving of elements","unbounded interleavings",[XML+"_private/deserializers.py"])
p("C53","Timestamps round trip","Formatting an instant as RFC 3339 or epoch seconds and parsing it returns the same instant.","every instant of the supported calendar","unbounded dates, leap years",[CORE+"utils.py",CORE+"types.py:TimestampFormat"])
p("C54","Splitting on every n-th delimiter loses nothing","split_every(s, d, n) returns pieces that joined with the delimiter give s, each with at most n fields, and rejects n below one.","every string and n","unbounded strings",[CORE+"utils.py:split_every"])
p("C55","Connection reuse is keyed by origin","A request is sent on an open connection to exactly its own scheme, host and port; a closed connection is never reused.","every history of requests and connection closures","unbounded histories",[HTTP+"aio/crt.py:AWSCRTHTTPClient._get_connection"])
p("C56","Auth scheme selection","The signer used is that of the first option, in priority order, that the service model lists and the client supports; with none the request is sent unsigned; options' properties are delivered to the component they are meant for. Without a resolver of the user's own the options are the operation's schemes in order, with no properties, so that every attempt signs with the same scheme; the resolver for no auth signs nothing.","every list of options and schemes","unbounded lists",[CORE+"aio/client.py:RequestPipeline._resolve_auth",CORE+"auth.py:DefaultAuthResolver",CORE+"auth.py:NoAuthResolver"])
p("C57","Duplex stream closing","Closing a duplex event stream always closes its input stream and its output stream, whatever the state of the output.","every state of the pending output","schedules",[CORE+"aio/eventstream.py:DuplexEventStream.close"])
p("C58","Typed property lookups","A typed property map behaves like a map keyed by key text: a value set under a key is returned for it until replaced or deleted, other keys are unaffected, and iteration order is insertion order.","every operation sequence","unbounded histories",[CORE+"types.py:TypedProperties"])
p("C59","Members go to their places in HTTP messages","Members bound to a header, a query parameter, a path label, a map of headers or query parameters, the host, the status or the payload go each to exactly that place, every other member is written to the body and only those are, and content-type and content-length describe the body unless a member is bound to these headers itself. A value that fits its place is always sent.","every schema with at most one binding per member, every set of values and every order of writing","combinatorial schemas and unbounded values",[HTTP+"bindings.py",HTTP+"serializers.py:HTTPRequestSerializer",HTTP+"serializers.py:HTTPResponseSerializer"])
p("C60","Header values are read back","Numbers, booleans, strings and timestamps written to headers are read back as the same value: decimals by value, timestamps as the same instant at the precision of the format. Numbers have the same text in headers, query parameters and path labels, and that text is a number in the sense of JSON or one of NaN, Infinity and -Infinity. In query parameters strings and booleans are plain and timestamps name their instant.","every value, timestamp format and member","numbers, texts and instants are unbounded",[HTTP+"serializers.py:HTTPHeaderSerializer",HTTP+"deserializers.py:HTTPHeaderDeserializer",CORE+"utils.py:serialize_float, strict_parse_float"])
p("C61","Accepted event frames are self-consistent","A decoded message's declared header length fits in the frame, and every header value has its declared length.","every byte string","malformed frames with valid checksums are never in test corpora",[ES+"events.py:Event.decode",ES+"events.py:DecodeUtils.unpack_byte_array"])
p("C62","Event frames follow the documented format","What the encoder emits for a message is exactly the byte sequence the event stream format documents (lengths, big-endian values, type codes, UTF-8 and CRC-32 checksums), and a frame so written by any conforming peer is read back as the message.","every message within the format's limits","interoperability must hold for every message, tests compare a few literals",[ES+"events.py:EventMessage.encode",ES+"events.py:EventHeaderEncoder",ES+"events.py:Event.decode"])
p("C63","Reading hooks of all interceptors run","An exception raised by read_before_execution, read_before_attempt or read_after_attempt is kept until every interceptor had that hook invoked, and the last one wins.","every list of interceptors and every failure pattern","unbounded lists and failure patterns",[CORE+"interceptors.py:InterceptorChain"])
p("C64","Completion hooks see the transport response","The attempt completion hooks are given the transport response whenever one was received in that attempt.","every failing stage","product of failing stages",[CORE+"aio/client.py:RequestPipeline._handle_attempt"])
p("C65","Merging header collections","Merging one header collection into another always completes, appends the values of names both hold, adds the other fields at the end, leaves the merged-in collection as it was, and leaves the two independent of each other.","every pair of collections reached by any history","unbounded histories and object sharing",[HTTP+"__init__.py:Fields.extend"])
p("C66","Endpoint host prefixes and endpoint headers reach the wire","The host prefix an operation declares is put in front of the resolved endpoint's host, with its labels filled in, and headers attached to a resolved endpoint are added to the request.","every operation, endpoint and label value","unbounded strings",[HTTP+"serializers.py:HostPrefixSerializer",HTTP+"aio/protocols.py:HttpClientProtocol.set_service_endpoint",HTTP+"endpoints.py:HTTPEndpoint"])
p("C67","A signed request can be verified from what it carries","The request returned by the signer carries the date it was signed with and the session token of the identity, its Authorization header names exactly the signable headers it has plus the host, and the signature in it is the documented key derivation applied to the request's own canonical form.","every request, identity and signing date","unbounded requests; preset headers",[SIG+"signers.py:SigV4Signer.sign",SIG+"signers.py:AsyncSigV4Signer.sign"])
p("C68","What is signed is what is sent","For every signed header line the transport sends header lines with the same content, including the host line it adds itself.","every destination and header collection","unbounded collections; two modules must agree",[SIG+"signers.py:SigV4Signer._normalize_signing_fields",HTTP+"aio/crt.py:AWSCRTHTTPClient._marshal_request"])
p("C69","Default credentials","With the credential providers of this package, discovered in any order, credentials come from the environment if it has an access key and a secret, else from the selected profile (session keys before static keys), else an error is raised; the selected profile is the given one, else AWS_PROFILE, else default.","every discovery order, environment and configuration","permutations and unbounded configurations",[AWS+"identity/chain/"])
p("C70","Unclaimed credential sources are reported","The error raised when no credentials are found names, in documented order, exactly the credential sources that are present in the environment, that no installed provider claims and that a package is known for.","every environment and set of providers","unbounded provider sets",[AWS+"identity/chain/__init__.py",AWS+"identity/chain/ordering.py"])
p("C71","A refused token request is not used as a token","The text used as a session token comes from a successful response.","every response status","every status must be handled",[AWS+"identity/imds.py:TokenCache"])
p("C72","The JSON codec round trips","Any value of a schema that the codec writes is read back, by the same schema and settings, as an equal value, and reading takes exactly the events of the text. Excluded: NaN, infinite decimals and decimals of more than 28 digits, null documents as elements of collections.","every schema, every value of it, every setting of names and timestamp formats","unbounded nesting and all values",[JS+"_private/serializers.py",JS+"_private/deserializers.py"])
p("C73","HTTP dates name their second","An instant formatted as an HTTP date is the IMF-fixdate of its second (right weekday, right calendar date), and parsing it gives that second in UTC.","every instant of the supported calendar from the year 100 on","unbounded dates, leap years, weekdays",[CORE+"types.py:TimestampFormat"])
p("C74","Shapes survive conversion to a document","Converting a value of a shape to a document succeeds whatever was converted before, the document reads as the value's members and entries, and reading it as that shape, or as any other shape the value fits, gives the value back.","every schema, every value of it with at most sparse nulls","unbounded nesting, all schemas",[CORE+"documents.py:Document.from_shape",CORE+"documents.py:Document.as_shape",CORE+"documents.py:_DocumentSerializer"])
p("C75","Documents made in different threads are independent","A document made from a shape in one thread holds that shape's values, whatever other threads convert at the same time.","every schedule of two threads","schedules",[CORE+"documents.py:_DocumentStructSerializer"])
p("C76","Bodies are consumed whole","Consuming a body asynchronously gives its whole remaining content, whatever kind of body it is; consuming it synchronously does so for bytes and synchronous readers and raises an error for asynchronous bodies.","every body: bytes, byte arrays, synchronous and asynchronous readers at any position, async iterables of any chunks","unbounded contents and kinds",[CORE+"aio/utils.py:read_streaming_blob_async",CORE+"aio/utils.py:read_streaming_blob",HTTP+"aio/__init__.py:HTTPResponse.consume_body_async",HTTP+"aio/crt.py:AWSCRTHTTPResponse.chunks"])
p("C77","Bodies are sent whole","The bytes a client sends for a request are exactly the remaining content of its body, and sending ends, whatever the kind of the body, the sizes its reads return and the version of HTTP.","every body, every sequence of read sizes, every buffer size","unbounded contents and short reads",[HTTP+"aio/crt.py:AWSCRTHTTPClient._create_body_stream",HTTP+"aio/crt.py:AWSCRTHTTPClient._create_body_generator",HTTP+"aio/aiohttp.py:AIOHTTPClient._prepare_body"])
p("C78","Headers and queries are sent as given","Each header of a request is sent with all its values, in order and under its own name, and none is added but the host and accept that are missing; the host sent is that of the destination; the query sent has the parameters of the destination's query.","every field collection, every query string, every retry","unbounded collections and strings",[HTTP+"aio/crt.py:AWSCRTHTTPClient._marshal_request",HTTP+"aio/crt.py:AWSCRTHTTPClient._render_path",HTTP+"aio/aiohttp.py:AIOHTTPClient.send"])
p("C79","Events survive the event stream","An event, exception or initial message sent on an event stream is made into a message that names its type, has one header per member bound to a header, typed as the member, and the rest as payload labelled with its media type; encoded, cut into chunks in any way and received, it gives the same event with the same members, an exception being raised, each in its turn.","every event structure, every assignment of its members, every sequence of events and every chunking","unbounded structures, values and chunkings",[ES+"_private/serializers.py:EventSerializer",ES+"_private/deserializers.py:EventDeserializer",ES+"aio/__init__.py"])
p("C80","Timestamps in event headers","A timestamp header is read as exactly the millisecond it holds; an instant written to a header comes back as a whole millisecond at most one millisecond (plus the rounding of a float) away, and an instant with whole milliseconds of the years 2005 to 2037 comes back unchanged.","every instant of the supported calendar, every header value","unbounded dates, floating point rounding",[ES+"events.py:EventHeaderEncoder",ES+"events.py:DecodeUtils.unpack_timestamp"])
p("C81","Messages outside the model are told apart","A received message is given as a variant only if it names that variant; an event of an unknown type is given as the unknown variant with its type; an error without a model is raised with its code and message; everything else raises an error of the event stream.","every message and every union","unbounded messages; unknown types are sent by newer services only",[ES+"_private/deserializers.py:EventDeserializer.read_struct"])
p("C82","Responses come back as they were","A response made from an output is read by the client as that output: every member that was set, whether bound to a header, to prefixed headers, to the status code or to the payload or left in the body, is read exactly once with the value it had, and a member that was not set is read only as an empty map, an empty payload or the status code.","every output shape a service model may have, every assignment of its members, every codec that reads back what it writes","unbounded shapes, values and codecs",[HTTP+"serializers.py:HTTPResponseSerializer",HTTP+"deserializers.py:HTTPResponseDeserializer",HTTP+"deserializers.py:HTTPHeaderDeserializer",HTTP+"deserializers.py:HTTPHeaderMapDeserializer"])
p("C83","Documents convert to the shape their JSON says","Reading a JSON value as a shape gives what the JSON says under the schema, and reading it as a document first and converting the document to the shape afterwards gives the same shape: member order, unknown members, nulls in sparse and dense collections and numbers are handled alike on both ways.","every JSON value, every schema (recursive ones too), every setting of the codec","unbounded JSON values and schemas",[JS+"_private/documents.py:JSONDocument",JS+"_private/deserializers.py:JSONShapeDeserializer",CORE+"documents.py:_DocumentDeserializer",CORE+"documents.py:Document.as_shape"])
p("C84","Hosts are checked","A URI can be made just for hosts of RFC 3986 (names, IPv4 addresses, bracketed literals) and for IPv6 addresses without brackets, each zone included: every host of the RFC is accepted, and no accepted host has a character that could end it or start another part of the URI. The kind of host reported is the kind of the text.","every text given as a host","unbounded texts against nested regular expressions",[CORE+"rfc3986.py:HOST_MATCHER",CORE+"rfc3986.py:IPv6_MATCHER",CORE+"__init__.py:URI.__post_init__",CORE+"__init__.py:URI.host_type"])
p("C85","A URI's text has the URI's parts","The text built from a URI, read by RFC 3986, has exactly the scheme, user, host, port, path, query and fragment of the URI (an IPv6 host in brackets, an absolute path, empty parts left out), and can be read in no other way: two URIs with the same text have the same parts.","every URI whose parts need no encoding","unbounded texts; every combination of parts",[CORE+"__init__.py:URI.netloc",CORE+"__init__.py:URI.build"])
p("C86","Endpoints resolve to what was configured","An endpoint configured as text resolves to the URI with the scheme, host, port, path and query of the text, the host having been checked; a text whose brackets are not a pair is refused; one configured as a URI is used as it is; without one the regional resolver uses the region's host and nothing else, whatever the region's text, and the static resolver raises an endpoint resolution error.","every endpoint text, URI, prefix and region","unbounded texts, injection through configuration",[CORE+"endpoints.py:resolve_static_uri",CORE+"aio/endpoints.py:StaticEndpointResolver",AWS+"endpoints/standard_regional.py:StandardRegionalEndpointsResolver"])
p("C87","The signers' readers read like files","Reads of any sizes from a reader of the signing package over bytes or chunks return what the same reads of the concatenated bytes return; its seekable reader does under every script of reads, seeks and tells what an in-memory file does; hashing a seekable body hashes what was left to read and leaves the body as it was; a read takes no more of its source than it needs; a closed reader raises and closes its source.","every division into chunks, every sequence of operations before and after","unbounded sequences and chunkings",[SIG+"_io.py:AsyncBytesReader",SIG+"_io.py:SeekableAsyncBytesReader",SIG+"signers.py:AsyncSigV4Signer"])
p("C88","A cancelled read loses nothing","A read that is cancelled while it waits for its source leaves the reader as it was: later reads return the bytes it would have returned, and the position is unchanged.","every read size, every chunk at which the read is cancelled, every state of the reader","every cancellation point",[CORE+"aio/types.py:AsyncBytesReader",CORE+"aio/types.py:SeekableAsyncBytesReader",SIG+"_io.py:AsyncBytesReader"])
p("C89","A signature covers the whole request","Two signed requests with the same Authorization header, signed by the same identity for the same date, region and service, have the same method, the same normalised path, the same query parameters up to order, the same signed headers with the same words in their values, and bodies with the same digest, unless a hash function collides on what was signed.","every pair of requests that HTTP can carry","pairs of unbounded requests; injectivity of a text format",[SIG+"signers.py:SigV4Signer.canonical_request",SIG+"signers.py:SigV4Signer.string_to_sign",SIG+"signers.py:SigV4Signer.sign",SIG+"signers.py:AsyncSigV4Signer.sign"])
p("C90","Instance credentials come from the configured metadata service","Every request for instance credentials goes to the configured endpoint, metadata is only asked for with a token younger than its life time, a call makes at most four requests, returns credentials exactly as a successful answer says them or reuses the ones returned last while they have not expired and were not discarded, and otherwise raises.","every history of calls and invalidations, every sequence of clock readings and answers","unbounded histories, clocks and answers",[AWS+"identity/imds.py:IMDSCredentialsResolver",AWS+"identity/imds.py:EC2Metadata",AWS+"identity/imds.py:Config"])
p("C91","Signing and retrying leave the prepared request alone","Signing returns a new request with new headers and leaves every object its caller holds as it was; every attempt of a call starts with the method, destination, body and headers of the request the call prepared, whatever the attempts before did to theirs.","every request, identity and signing options, every heap of shared objects, every list of attempts and of actions in them","sharing through references, unbounded attempts and actions",[SIG+"signers.py:AsyncSigV4Signer.sign",SIG+"_http.py:AWSRequest.__deepcopy__",CORE+"aio/client.py:RequestPipeline._retry",HTTP+"aio/__init__.py:HTTPRequest"])
p("C92","Resolving a retry strategy gives what is configured, shared by the calls of a client and by nothing else","Resolving returns the configured strategy object itself, or one of the configured mode and number of attempts (standard with three attempts if nothing is configured, five for simple), or raises: TypeError for something that is neither, ValueError for an unknown mode or a negative number of attempts in standard mode. Calls of one client with the same options get the same strategy, so they share one retry quota; a strategy made for one client or one set of options is never given for another.","every number of clients, every list of calls in every order, every configuration","unbounded histories and an eviction that depends on them",[CORE+"aio/retries.py:RetryStrategyResolver",CORE+"retries.py:RetryStrategyOptions"])
p("C93","The signatures of an event stream continue the request's signature","For every signed request, the one Authorization header ends with the request's signature, and the publisher made for that request starts its chain of event signatures with exactly that signature, whatever access key, header names or region the header names before it: every frame on the wire is signed over the one before it and the first over the request. A publisher is never made with a signer from a request without an Authorization header.","every request, identity and signing configuration; every hash and HMAC; every list of concurrent sends and closes and every schedule","unbounded header contents, concurrent calls and interleavings",[AWS+"auth/sigv4.py:SigV4AuthScheme.event_signer",AWS+"aio/protocols.py:RestJsonClientProtocol.create_event_publisher",SIG+"signers.py:AsyncEventSigner"])
p("C94","A response's output arrives however the transport brings it","For every output a service writes as a successful response, the client returns that output when the response comes as header lines and a body in chunks of any sizes from the CRT or in one piece from aiohttp; the lines may change case, order and neighbours if no member takes headers by prefix. A streamed payload member is the unread body of the response itself and the other members are as written. Any status outside 200 to 299 gives no output but an error made of all header values and the whole body.","every schema and output that C82 covers, every number and size of chunks, every list of header lines that says the same, every status","unbounded outputs, schemas, splits of the body and arrangements of headers",[HTTP+"aio/crt.py:AWSCRTHTTPClient._await_response",HTTP+"aio/aiohttp.py:AIOHTTPClient._marshal_response",HTTP+"aio/protocols.py:HttpBindingClientProtocol.deserialize_response"])
p("C95","An awsQuery call returns what is in the result element, or raises the error in the error element","For every successful awsQuery response whose first element is the operation's result, in whatever chunks it comes, the call returns exactly what that element holds for the output's members, whatever follows it; operations without output members need no result element. For every other status the call raises an error: the modeled one its code stands for, made of what the error element holds, if that element comes first, and otherwise a generic one with the flags of the status. A successful response without a body is an output without members, unless a header says there was a body.","every operation, schema and registry of errors; every document, chunking and list of header lines; every status","unbounded documents, schemas, splits of the body and header lists",[AWS+"aio/protocols.py:AwsQueryClientProtocol.deserialize_response",AWS+"_private/query/errors.py:create_aws_query_error",XML+"_private/deserializers.py:XMLShapeDeserializer"])
p("C96","An operation's input reaches the service through either HTTP client","For every input, operation and endpoint, the request that a client is given to send is addressed to the endpoint; before the first question mark its target is the endpoint's path followed by the operation's path, in which every label is the percent-encoded text of its member and, unless it is greedy, stays one segment; after it come the parameters of the endpoint, of the operation and of the members, in this order. For every header name, the lines sent are those of the members and those that describe the body, and only host and accept are filled in. The body that is read or received in chunks is that of the input, and a length that is announced is the length of what follows. aiohttp is given the same, with the parameters that have a value grouped by name. Streams that can be iterated again from their start are excepted.","every schema, input, path pattern, endpoint URI, body and size of reads","unbounded schemas, values, paths, queries and bodies",[HTTP+"serializers.py:HTTPRequestSerializer",HTTP+"aio/protocols.py:HttpClientProtocol.set_service_endpoint",HTTP+"aio/crt.py:AWSCRTHTTPClient",HTTP+"aio/aiohttp.py:AIOHTTPClient"])
p("C97","A trait reads the same however it is given","For every trait class of the library and every document value: a trait made by its class, by its Smithy name or from its dynamic form has the same value and the same attributes, or fails the same way; a dynamic trait of another name is refused, and a name without a class gives a dynamic trait with that name and value. A value of the shape Smithy gives the trait is always taken, with every attribute of the type it is declared with; of an http trait, the path and the query are what is before and after the first question mark of the URI and the code is 200 unless given. The stream of an operation is found in the first member with the streaming trait.","every class, document value, trait name, order in which classes are defined, and list of members","unbounded nested values, names and histories of definitions",[CORE+"traits.py:Trait",CORE+"traits.py:HTTPTrait",CORE+"schemas.py:Schema.get_trait",CORE+"schemas.py:APIOperation",AWS+"traits.py:RestJson1Trait"])
p("C98","The information of a REST JSON error comes from the documented places","For every response: the code is that of the first x-amzn-errortype field, whatever its case, or else the first text that is not empty under __type or code in the body, without a namespace and a URI; the message is the first text that is not empty under one of its names; what is not there is Unknown. An empty body or one that is not JSON is ignored.","every list of fields, body, result of the JSON parser and case mapping","unbounded fields, entries and texts",[HTTP+"aio/restjson.py:parse_rest_json_error_info",HTTP+"restjson.py:RestJsonErrorInfo"])
p("C99","Enumerations keep unknown values and tell placeholders apart","For every program: calling a generated enumeration with a declared value gives the declared member, the same one each time; with another value of its type a new value that carries it and says that it is unknown; with a value of another type it is refused. Values compare and hash as the text or number they are, except placeholders for missing members, which are equal to themselves only; equality is an equivalence and agrees with hashes. Pickling gives back an equal value.","every history of defining enumerations, calling them, making placeholders and unpickling, all values and all pairs and triples of objects","unbounded histories, enumerations and values",[CORE+"types.py:UnknownEnumMixin"])
p("C100","A cancelled call stops where it is and is never taken for anything else","For every call, whatever its interceptors, protocol, transport and retry strategy do and wherever a cancellation (or another BaseException) arrives: the caller gets the cancellation, not an output or a SmithyError; what was called is what would have been called up to the interrupted callee, and nothing is called after it; a call that ends otherwise ends exactly as if nobody had tried to cancel it. Each execution and attempt that interceptors were told of is also reported to have ended, and quota that was taken is not lost.","every environment of a call, every function that decides at each callee whether to interrupt it and what it leaves, all inputs and numbers of attempts","cancellations can arrive at any await of any attempt",[CORE+"aio/client.py:RequestPipeline"])
p("C101","Blobs are base64, and only base64 is read as a blob","Every blob in a JSON body or a form, and every string with a media type in a header, is written as the one RFC 4648 base64 text of its bytes, with padding and without line breaks. Reading such a text gives the bytes back; every text that is not base64 is refused.","all byte sequences of any length, all texts; JSON bodies, documents, forms, headers and XML","there are infinitely many texts that are nearly base64, and encoders differ in alphabet, padding and line breaks for particular lengths and bytes only",[JS+"_private/serializers.py:write_blob",JS+"_private/deserializers.py:read_blob",JS+"_private/documents.py:as_blob",HTTP+"serializers.py:HTTPHeaderSerializer.write_string",HTTP+"deserializers.py:HTTPHeaderDeserializer.read_string",AWS+"_private/query/serializers.py:write_blob",XML+"_private/deserializers.py:read_blob"])
p("C102","The tasks of a streaming call do not get in each other's way","For every schedule of the caller of an operation with an input stream, the task that executes it, the transport and any number of tasks that wait for its output, with cancellations of any of them at any time: whoever is given a stream has its one request with the transport; everybody who waits for the output gets what the call ended with; nobody waits for ever; cancelling the caller gives the call up, and cancelling one who waits concerns only that one.","all sequences of steps of all tasks, all outcomes of the callees, any number of waiting tasks, cancellations between any two steps","the number of schedules is unbounded and tests see the one the event loop happens to choose",[CORE+"aio/client.py:RequestPipeline.input_stream",CORE+"aio/client.py:RequestPipeline._handle_attempt",CORE+"aio/eventstream.py:InputEventStream.await_output"])
p("C103","Text on the wire is encoded as the standards say","Text that is sent or signed is UTF-8 as RFC 3629 defines it, and received octets are taken as text exactly if they are; query parameters and path labels are percent encoded as RFC 3986 defines it, with upper case digits and nothing escaped that need not be; digests and signatures are lower case hexadecimal; numbers are decimal digits without leading zeros.","all texts, including characters outside the BMP and lone surrogates, all octet sequences, all parameter lists and labels, all numbers","the encodings are shared by both directions of every round trip test, which cannot tell a standard encoding from a private one",[HTTP+"utils.py:join_query_params",HTTP+"serializers.py:HTTPPathSerializer.write_string",SIG+"signers.py:SigV4Signer._format_canonical_query",SIG+"signers.py:SigV4Signer.string_to_sign",ES+"events.py:EventHeaderEncoder"])
p("C104","A service that follows the published rules computes the signature that was sent","From any signed request as it is sent, the published rules of Signature Version 4, which give every message one signature, compute exactly the list of signed headers and the signature in its Authorization header, from the date, region, service and secret; the path is normalised and encoded, or signed as it is when path encoding is switched off.","all requests (paths, queries, headers in any order, bodies of every kind), both signers, all credentials, regions, services and dates, all digest functions","tests compare with a few stored signatures; a rule that is broken for one order of parameters, one port or one character is not among them",[SIG+"signers.py:SigV4Signer.sign",SIG+"signers.py:AsyncSigV4Signer.sign",SIG+"signers.py:SigV4Signer.canonical_request",SIG+"signers.py:SigV4Signer._format_canonical_path",SIG+"_http.py:URI.netloc"])
p("C105","A JSON document is complete exactly if writing it succeeded","Whatever calls a shape makes to the JSON serializer: if they all return, the octets written are those of the value the calls make; if any call raises, at any point, that exception reaches the caller, what has been written is exactly what precedes that point, and it is not a JSON document, so that a truncated body can never be taken for a whole one.","all trees of calls to a JSON serializer (every writing method, nested structures, lists and maps), every point at which one of them raises, all schemas and settings","the property is about every crash point of every tree of calls; tests write complete values",[JS+"_private/serializers.py:JSONShapeSerializer",JS+"_private/serializers.py:JSONStructSerializer",JS+"_private/serializers.py:JSONListSerializer",JS+"_private/serializers.py:JSONMapSerializer",CORE+"serializers.py:InterceptingSerializer",CORE+"serializers.py:ShapeSerializer.write_data_stream"])
p("C106","The tasks of a duplex streaming call do not get in each other's way","For every schedule of the caller of an operation with event streams in both directions, the tasks that execute it, the transport and any number of tasks that await its output or close the stream, with cancellations of any of them at any time: whoever is given a stream has its one request with the transport; all who await the output get the same, namely what the call ended with; nobody waits for ever; a close closes the input stream and then the output stream, whether or not the service has answered and whether or not the call failed; and cancelling a task that waits concerns only that task.","all sequences of steps of all tasks, all outcomes of the callees, any number of tasks using the stream, cancellations between any two steps","the number of schedules is unbounded and tests see the one the event loop happens to choose",[CORE+"aio/client.py:RequestPipeline.duplex_stream",CORE+"aio/client.py:RequestPipeline._await_output_stream",CORE+"aio/eventstream.py:DuplexEventStream.await_output",CORE+"aio/eventstream.py:DuplexEventStream.close"])
p("C107","A string or blob that holds JSON and its value agree","Making a JSON string or blob from a value gives a JSON text that says that value; asking it for its value, however often and whether it was made from a value or from a text, gives the value its text says, and what is done with a value that was returned does not change what the string says.","all JSON values of any depth, all texts, any number of calls","the values and texts are unbounded; a cache makes the result depend on the history of calls",[CORE+"types.py:JsonString.as_json",CORE+"types.py:JsonString.from_json",CORE+"types.py:JsonBlob.as_json",CORE+"types.py:JsonBlob.from_json"])
p("C108","Equal objects can stand for each other","Two header fields, header collections, URIs, shape identifiers, event messages or documents compare equal exactly if they have the same contents: the same parts in the documented order, the same text, the same bytes on the wire, the same value. Comparing never raises and changes nothing, equal objects have equal hashes, and names of fields that differ in case only are treated as equivalent.","all fields, collections, URIs, identifiers, messages and documents of any size","pairs of unbounded objects; the comparison of one kind goes through the encoder, of another through a cache",[HTTP+"__init__.py:Field.__eq__",HTTP+"__init__.py:Fields.__eq__",CORE+"__init__.py:URI.__eq__",CORE+"shapes.py:ShapeID.__eq__",ES+"events.py:EventMessage.__eq__",CORE+"documents.py:Document.__eq__"])
p("C109","After invalidate() every source is read again","However chains of identity resolvers are nested, a resolution asks the sources from left to right until one has an identity. After any history of calls, invalidate() discards every identity kept anywhere below the resolver, so that the next resolution reads the sources again and whatever is returned later was given by a source since then. An identity that is kept is never returned after it has expired.","all trees of resolvers of any depth and width, all histories of resolutions and invalidations, all answers of the sources at each time","unbounded nesting and unbounded histories; each resolver keeps a copy of its own, and a test covers one chain",[CORE+"aio/identity.py:CachingIdentityResolver.invalidate",CORE+"aio/identity.py:ChainedIdentityResolver.invalidate",AWS+"identity/chain/__init__.py:IdentityChain.invalidate",AWS+"identity/environment.py:EnvironmentCredentialsResolver",AWS+"identity/imds.py:IMDSCredentialsResolver.invalidate",AWS+"identity/container.py:ContainerCredentialsResolver.invalidate"])
p("C110","The test client answers in order and records what was sent","Whatever calls a test and its client make in whatever order, the mock HTTP client gives the queued responses first in, first out, each once, with the status, headers and body they were queued with; it raises exactly if none is left; and it records every request in order, as it was when it was sent. So a client under test that tries again gets the n-th response at its n-th attempt to transmit, and every attempt is recorded.","all interleavings of queueing, sending and changing requests, headers and lists","every test suite of every generated client rests on it; the orders of calls are unbounded and objects are shared",[HTTP+"testing/mockhttp.py:MockHTTPClient.add_response",HTTP+"testing/mockhttp.py:MockHTTPClient.send",HTTP+"testing/mockhttp.py:MockHTTPClient.captured_requests",CORE+"aio/client.py:RequestPipeline._handle_attempt",HTTP+"__init__.py:tuples_to_fields"])
p("C111","Tasks that share a tree of identity resolvers","In every schedule of any number of tasks that use one tree of identity resolvers, a call asks the sources from left to right and none twice; what it returns was answered by a source during the call, or was kept and had not expired when it was found during the call; it raises SmithyIdentityError only if every source has refused it during the call; it waits for nothing but its sources; what it finds in a resolver was answered by a source below that resolver; and after an invalidation no call returns anything from before.","all trees, any number of tasks, all interleavings of their steps, answers and invalidations","unbounded schedules of calls that overlap; each chain and each resolver keeps identities of its own",[CORE+"aio/identity.py:CachingIdentityResolver.get_identity",CORE+"aio/identity.py:ChainedIdentityResolver._get_identity",AWS+"identity/chain/__init__.py:IdentityChain.get_identity",AWS+"identity/imds.py:IMDSCredentialsResolver.get_identity",AWS+"identity/container.py:ContainerCredentialsResolver.get_identity"])
with open('/verif/properties.jsonl','w') as f:
    for x in P: f.write(json.dumps(x)+"\n")
print(len(P))
