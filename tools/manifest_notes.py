NOTES = {
 'C04': 'Proved for every run of at most four bytes except four-byte runs of which exactly the last two bytes belong to the final checksum; C04_boundary_refuted shows that exception is real.',
 'C61': 'Refuted: the decoder accepts a frame whose header length exceeds its body, and a byte-array value cut short by the end of the header block.',
}
STATUS = {}
NOTES.update({
 'C08': 'All sequential histories are covered. Beside the property, C08_write_after_close_refuted (a concurrent close whose identity resolution failed) and C08_empty_event_resends_refuted (an event that serialises to nothing) record deviations.',
 'C10': 'C10_unsent_frame_refuted: the chain also advances for an event whose signed envelope is then refused by the encoder, so that the following frames do not verify; C10_wire states exactly which frames are sent.',
 'C28': 'Proved for one-shot chunk iterators and bytes; C28_restarting_iterable_refuted shows why the iterator must be one-shot.',
 'C29': 'Proved for scripts that never seek to a negative position, over sources that do not read short; C29_negative_seek_refuted and C29_short_reads_refuted show the two deviations.',
})
STATUS.update({'C08': 'proved', 'C10': 'proved', 'C28': 'proved'})
NOTES.update({
 'C11': 'Proved for non-negative release amounts (the only ones the library passes); C11_negative_release_refuted shows the hypothesis is needed.',
 'C12': 'Proved for both strategies, for the retry loop and (C12_call_standard, C12_call_simple) for whole calls: requests sent, what lies between two sends, and that the call ends. C12_zero_attempts_refuted: max_attempts = 0 still makes one attempt.',
 'C14': 'C14_call: whole calls use their strategy as the histories of C14_accounting suppose.',
 'C13': 'Proved over rational arithmetic for attempt numbers up to 1024 and for every decorrelated delay; C13_every_attempt_refuted: beyond 1024 the computation raises OverflowError. C13_decorrelated_doc_refuted records a mismatch with the docstring.',
})
STATUS.update({'C11': 'proved', 'C12': 'proved'})
NOTES.update({
 'C15': 'The loop and its accounting are proved; C15_body: a body that is a value, or a seekable stream initially at its start, is sent whole by every attempt. C15_body_refuted: a body that cannot seek is retried from where the failed attempt left it, and one not initially at its start is retried from its start.',
 'C17': 'Refuted: InterceptorChain asks every interceptor about the value the chain was given, so that only the last one counts. C17_last_partial states exactly what it does.',
 'C18': 'read_after_execution is proved; modify_before_completion is refuted: the chain invokes modify_before_attempt_completion of its interceptors instead.',
 'C19': 'Refuted: the pipeline serializes call.input and resolves the endpoint for it. C19_flows_partial: the modified input reaches the hooks only, and the request and response flow through the hooks as documented.',
 'C20': 'Refuted: a failure before transmission leaves the caller waiting for ever. C20_ready_partial: the caller gets the stream exactly when an attempt reached transmission.',
 'C56': 'Selection, identity properties and unsigned requests are proved (C56_selection); C56_signer_properties_refuted: the signer gets the option\'s identity properties instead of its signer properties. With the resolvers of the library, the scheme and the properties of every signature of an execution are determined (C56_default, C56_no_auth), and that there is one if a scheme is supported (C56_default_signed).',
 'C57': 'Refuted: if the output failed or never arrives neither stream is closed, and if closing the input raises the output is not closed.',
 'C63': 'Refuted: the first exception ends the hook for all later interceptors (except for read_after_execution, see C18).',
 'C64': 'Refuted: after a failure later in the attempt the hooks get no transport response.',
})
NOTES.update({
 'C21': 'Proved in full: the splitter is exactly the list grammar, and lists of two or more survive. C21_single_refuted and C21_blank_refuted show why the statement excludes single values and blank values.',
 'C22': 'Proved for every program over shared, mutable field objects and for every case folding function. Field.set is modelled as taking a list nobody else holds; reassigning Field.name is not modelled.',
 'C65': 'C65_merge_partial: merging collections that share no field object. Refuted in full: merging the same collection twice never ends, and merged collections share field objects.',
})
STATUS.update({'C21': 'proved'})
NOTES.update({
 'C23': 'Proved for all encodable texts, with and without a prefix; C23_leading_refuted shows that a leading empty key without a value vanishes.',
 'C24': 'Formatting is characterised exactly for patterns of literals, labels and greedy labels. Refuted: an empty label at the end of the pattern introduces an empty last segment, and a label of ".." is written as a dot segment. Patterns with format conversions or attribute access are not modelled.',
 'C25': 'Proved for POSIX os.path.join; on Windows the code would join with backslashes.',
 'C26': 'Proved for the header location. C26_query_partial for the query location; refuted there: the path is replaced by the password (apikey.py line 69) and the key is not percent encoded.',
 'C27': 'Proved for every user agent of standard components, which includes everything the client builds itself. Refuted for the configured suffix, which is written raw.',
 'C66': 'C66_prefix_partial: the declared prefix is formatted. Refuted: set_service_endpoint replaces the host, prefix included, and never looks at the endpoint headers.',
})
STATUS.update({'C23': 'proved'})
NOTES.update({
"C30": "all schedules of writes, flushes, closes, reads, spurious wake-ups and cancellations; order is that of acceptance (an Example shows a later call overtaking an earlier one)",
"C31": "proved with one producer and one consumer: a waiting call is never stuck and returns within 3*max+3 reader-side steps. Refuted beyond that: two writers lose a wake-up, flush does not wake the writers it held up, a writer takes the wake-up of a flush, a cancelled flush blocks writes for ever",
})
NOTES.update({
"C32": "both signers, for every lower/upper-casing, SHA-256, HMAC and replacing UTF-8 decoder (only ASCII lower-casing is assumed). C32_caller_untouched_refuted: a body that can be read only once is drained from the caller's request, so the title's first half holds for the others only",
"C33": "dot-free and idempotent for all paths; RFC 3986 and absoluteness proved except after climbing above the root onto an empty segment (refuted there: '/../' becomes '', '/..//b' becomes '/b'); with slash removal one pass leaves '//' of '///' (refuted)",
"C67": "proved for requests without preset Date, X-Amz-Date and X-Amz-Security-Token; refuted otherwise: preset values are kept though another date and token are used",
"C68": "header fields with one value and the host with a non-default or no port; refuted for an explicit default port (signed without, sent with) and for list values holding a comma (signed quoted, sent bare)",
})
NOTES.update({
"C34": "every text: a document read as the grammar says, or refused at its first bad line. The lines are those of str.splitlines: C34_line_separator_refuted shows a U+2028 inside a value cutting it",
"C35": "all pairs of files; C35_later_wins_refuted only shows that, of two spellings of one section name, the one that occurs first last wins, not the last definition in the file",
})
STATUS.update({'C34': 'proved', 'C35': 'proved'})
NOTES.update({
"C36": "the three fields of AsyncAwsConfig, every environment, file content, path, profile and set of overrides; success is characterised exactly and the files are read at most once",
"C37": "any class of fields and any assignments. The region validator accepts a trailing newline (C37_region_newline_refuted): 'valid' for the region includes that",
})
STATUS.update({'C37': 'proved'})
NOTES.update({
"C38": "both caching resolvers, every interleaving of calls, answers and invalidations. C38_stale_refuted: an identity being fetched while the cache is invalidated is cached and served afterwards",
"C39": "both the generic chained resolver (with concurrent calls) and the AWS chain",
"C40": "every multiset of providers with arbitrary set-up behaviour; for providers that only add resolvers the chain is given in full",
"C41": "every schedule of callers, answers and cancellations, with the asyncio lock modelled from CPython 3.12; also progress. The clock may do anything",
"C42": "host rule, attempts and reuse proved; refuted: expiration with an offset is misread, credentials without an expiration are not reused, a document that is not an object stops the chain. URL parsing and address classification are parameters",
"C69": "with load_config, the merged files and the environment arbitrary",
"C70": "which sources are present is a parameter (C70_unclaimed_ex shows the real test)",
"C71": "refuted: the status of the response is never looked at, so an error page becomes the token until it expires",
})
NOTES.update({
"C43": "every string of Unicode scalar values; the reader of strings is written from RFC 8259",
"C44": "every tree, with floats, decimals, blobs, timestamps and documents too; member names by jsonName. C44_nan_refuted and C44_big_decimal_refuted show that NaN and decimals of more than 28 digits, which the property does not speak of, have to be left out",
"C45": "skip, document, structure, list and map readers, in any position. C45_top_document_refuted: a whole text that is an object with a member of empty name which is an object ends early",
"C72": "timestamp conversion and float() are parameters of which only round trip and dependence on the value are assumed. The refuted theorems show the exclusions to be needed",
})
STATUS.update({'C44': 'proved', 'C45': 'proved', 'C72': 'proved'})

NOTES.update({
 "C48": "C48_parse characterises acceptance both ways against an independent form predicate; C48_parts holds for parts that carry neither separator, and C48_parts_refuted shows that this hypothesis is needed.",
 "C49": "All construction and access histories. C49_expect_trait_refuted is about expect_trait given a class, which returns the raw dynamic trait; the English statement does not promise it.",
 "C58": "Every sequence of mapping operations with text and typed keys against an ordered association list.",
})
STATUS.update({"C48": "proved", "C49": "proved"})
NOTES.update({
"C53": "RFC 3339: every datetime, naive or with an offset, and every offset in what is read; where strftime does not pad the year (Linux) only from the year 1000 on (C53_early_year_refuted). Epoch seconds, with float rounding modelled exactly: whole seconds of any year and microseconds within 2^33 s of the epoch come back exactly; elsewhere within 15 microseconds (C53_epoch_near, C53_epoch_refuted). Not true in full of the code.",
"C54": "n of one or more and n = 0 in full; a negative n is not rejected (C54_negative_refuted): the result is empty.",
"C73": "years before 100 are read as 19xx or 20xx (C73_early_year_refuted), the range of the property excludes them",
})
STATUS.update({'C73': 'proved'})
NOTES.update({
 "C60": "C60_header: every boolean, integer, float, decimal of at most 28 digits, string and timestamp written to a header by header_text is read back as the same value by read_header (the conditions are in HttpVal_Spec.carried: instants at the precision of the format, strings that are text). C60_numbers: the text of a number is the same in headers, queries and labels and is a JSON number or NaN, Infinity, -Infinity. Float parsing and printing are parameters with the stated properties of shortest printing (floats_ok). C60_query: strings, booleans and timestamps in query parameters. The refuted theorems show that the exclusions are needed: longer decimals are rounded, blobs cannot be written to headers, and the default HTTP date drops fractions of a second.",
})
STATUS.update({"C60": "proved"})
NOTES.update({
 "C59": "C59_request and C59_response: for every schema with at most one binding per member (good_schema), every set of written values and every order, the body, headers, query, path, host and status are what the tables of HttpBind_Spec say; C59_request_total: a request whose values fit is made; C59_content: length and type describe the body; C59_label: labels decode to the value's text. The codec is a parameter. The refuted theorems are outside the statement: members bound to content-type or content-length are sent next to the computed value; a member that is a host label and has another binding never reaches the host (the request is refused); streams with a required length are refused even if they can be measured.",
})
STATUS.update({"C59": "proved"})
NOTES.update({
 "C50": "Proved: what a document holds follows every operation sequence, typed or not, nested or not (C50_replay, C50_history), operations raise exactly when they do on plain values (C50_raises), serialization shows it (C50_serialized), as_value shows it when nested changes are assigned back (C50_as_value_partial). Not true in full of the code: as_value, and with it equality, keeps showing the old value after a nested change made in place (C50_nested_refuted), and documents made from unions cannot be serialized (C50_union_refuted).",
 "C74": "C74_round_trip: every value of every schema, any leftovers in the shared serializers. C74_null_refuted: a null for a structure, list or map in a sparse map makes the conversion raise; the hypothesis excludes it, so the claim is partial.",
 "C75": "refuted: the serializers keep the value being converted in an object shared by all threads. C75_alone: without interference the result is right.",
})
STATUS.update({"C74": "partial"})
NOTES.update({
 "C46": "C46_form: every structure that fits (Form_Spec.good: no documents, encodable text, names without dots, different names for members and for the two halves of a map entry) is sent; its body reads as Action, Version and exactly one parameter per leaf, named by the way to it with indices from 1, all with different names. C46_request: method, path, content type and length. C46_values: what the texts say. C46_documents: documents are refused. C46_dots_refuted shows that dots in names have to be excluded (Smithy member names have none; xmlName could).",
})
STATUS.update({"C46": "proved"})
NOTES.update({
 "C74": "C74_round_trip: every value of every schema, any leftovers in the shared serializers. C74_serialized: without unions the document also serializes as the value (with unions it cannot: C50_union_refuted). C74_null_refuted: a null for a structure, list or map in a sparse map makes the conversion raise; the hypothesis excludes it, so the claim is partial.",
})
NOTES.update({
 "C47": "Type registry, parse_retry_after (with the float arithmetic), error codes, restJson1 and awsQuery error creation. Proved: the time to wait is given just for the text of a non-negative integer a float holds, and is the nearest float to n/1000; a response that names an error which resolves yields the modeled error, any other classified one has the flags of its status, and C47_exact/C47_query_exact list every way in which making the error fails. Refuted in full: JSON bodies without a code (or unreadable), and codes that are no identifiers, raise instead of giving a classified error, also for 429. Reading documents, XML and the modeled error itself are inputs of the model.",
})
NOTES.update({
 "C51": "Over trees of elements (Xml_Spec). C51_skip: passing over an element takes exactly its events. C51_read: reading a member gives exactly what its element holds and stops right behind it. C51_exact, C51_root, C51_wrapped, C51_wrapper: whole documents. C51_unknown: unknown elements change neither value nor exception. C51_leaf: the values of texts. The schemas are 'readable': distinct XML names, no flattened trait on members of lists and maps, and flattened members without structures of another name (see C52_structures_refuted). The parser is an event list.",
 "C52": "C52_regrouped: each flattened member is delivered once, after the others, with all its elements in order. C52_interleaved: only the order within a name matters. C52_structures_refuted: flattened lists of structures are always refused when the structure has another name than the element, because the replaying reader checks root names (deserializers.py 150-154, 196-202).",
})
NOTES.update({
 "C55": "Every schedule of calls, connections made or refused, closures at any time, cancellations and bodies read. C55_origin: host, port and TLS of the connection used (and HTTP/2 if demanded). C55_open: a connection that is used again is open when taken, and when the request goes out unless an HTTP/1.1 request waits for an asynchronous body. C55_reused, C55_made, C55_connected: when connections are reused and made. C55_body_refuted: in that waiting case the connection may be closed when the request is put on it.",
 "C76": "C76_async, C76_sync, C76_response. Refuted in two cases: consume_body_async of a synchronous reader raises TypeError for every such reader (utils.py 26 matches any object with a read method and awaits its result), and consume_body of an asynchronous reader returns a coroutine instead of raising AsyncBodyError (48).",
 "C77": "C77_http2, C77_http1, C77_aiohttp: every body, every pattern of short reads. C77_restarting_refuted: an async iterable that can be iterated more than once is restarted for every read by AsyncBytesReader, so aiohttp sends such a body without end.",
 "C78": "C78_crt, C78_crt_seen, C78_aiohttp, C78_target, C78_query. Refuted: the host filled in by the CRT client stays in the fields shared by retries, so a retry to another endpoint names the first host (C78_retry_refuted; only requests that are not signed, since the signer copies the fields); aiohttp drops query parameters without a value (C78_blank_refuted).",
})
NOTES.update({
 "C79": "C79_wire states the whole message, as an equivalence; C79_made that it is made; C79_event, C79_initial and C79_stream that it is read back, through encoding, chunking and the receiver of C09. Hypotheses: the structure satisfies the rules of Smithy's model validation, the payload codec reads back what it writes (C72 for JSON), timestamps are counts of milliseconds (C80). C79_empty_payload_refuted: an empty string or blob payload comes back as not set, because no payload is taken for no value (deserializers.py 99).",
 "C80": "C80_read, C80_written, C80_exact, C80_present, C80_near. The refuted theorems show the limits: whole milliseconds just after 2038-01-19 come back one less (int(timestamp()*1000) truncates, events.py 535), counts outside the years 1 to 9999 raise ValueError. Aware datetimes only; a naive one is written in the machine's zone.",
 "C81": "C81_named, C81_unknown_event, C81_unmodeled, C81_other. Refuted in part: an exception type the union does not have, or a missing type header, raises KeyError instead of an error of the event stream (deserializers.py 47, 59-60, 68), and an empty event type raises SmithyError.",
})
STATUS.update({"C80": "proved"})
NOTES.update({
 "C82": "C82_back: every member that was written is read once with the same value (scalars compared as in C60), anything else read is a status, an empty prefix map or an empty raw payload. C82_made: the response is made. Hypotheses: a schema that passes Smithy's validation with headers that can be told apart, a codec that reads back what it writes (C72 for JSON). Refuted outside them: a header list of one text with a comma or quotes, an empty header list, an enumeration as payload, an empty header prefix, an unset document payload (C82_*_refuted). C82_lines, C82_prefix_lines: for responses of any server, a header sent in several lines is read as their values joined with commas; lists are not (C82_lines_refuted).",
 "C81": "C81_named, C81_unknown_event, C81_unmodeled, C81_raised, C81_given, C81_other. Refuted in part: an exception type the union does not have, or a missing type header, raises KeyError instead of an error of the event stream (deserializers.py 47, 59-60, 68), and an empty event type raises SmithyError.",
})
NOTES.update({
 "C83": "C83_read, C83_exact: direct reading gives what a JSON value says, and raises exactly when it says nothing. C83_document: converting the document succeeds exactly when the JSON says something with jsonName and timestampFormat ignored, floats written with a point and nulls taken as values, and gives that. C83_agree: both ways agree on schemas without the two traits. C83_value: the plain value of a document. The claim in full is false of the code: C83_name_refuted, C83_format_refuted, C83_null_refuted, C83_integer_refuted, C83_infinity_refuted.",
})
NOTES.update({
 "C84": "C84_accepted: exactly which texts are accepted, by an independent grammar. C84_rfc: every RFC host (but future addresses spelt with a capital V). C84_characters: no character of an accepted host ends it. C84_kind. Refuted in part: a newline at the end is accepted because $ matches before it (C84_newline_refuted), numbers up to 999 in IPv4 tails and zones after a bare percent sign are accepted, a capital V is not (C84_lax_refuted).",
 "C85": "C85_build, C85_injective. Refuted without the hypotheses: the user is not checked, so one with a slash makes the text name another host (C85_user_refuted); without a host a path of two slashes becomes the authority (C85_path_refuted).",
 "C86": "C86_static, C86_brackets (one kind of bracket only: refused), C86_given, C86_checked, C86_regional. Hypotheses of C86_static: no characters up to the space, the ipaddress module accepts the literal, no semicolon in the path. Refuted in part: parameters after a semicolon are dropped from the path (C86_params_refuted), user and password are dropped (C86_user_refuted), a bad port raises ValueError and a bad host SmithyError instead of an endpoint resolution error (C86_errors_refuted).",
})

NOTES.update({
 "C87": "C87_chunks, C87_bytes, C87_iteration, C87_like_a_file, C87_hash_pass, C87_takes, C87_closed. Refuted in part: a read that has its bytes already still waits for one more chunk (C87_takes_refuted; smithy_core's reader does not, C28_takes), and a source whose close is a coroutine is not closed (C87_close_source_refuted). A seek before the start is outside, as for C29.",
 "C88": "C88_cancelled says exactly when a read can be cancelled and what is left: what it had collected is lost, so nothing is lost if and only if that is empty. C88_seekable: a seekable reader is then at the end of its buffer. The property itself is refuted: C88_lost_refuted, C88_position_refuted.",
})
STATUS.update({"C87": "proved"})

NOTES.update({
 "C89": "C89_canonical: the canonical request determines all that the property names. C89_signature: so does the Authorization header, for every SHA-256 and HMAC that do not collide on the two canonical requests and strings to sign; body digests for the synchronous signer. C89_exact_values_refuted: values only up to white space and the joining of lists. C89_preset_digest_refuted: the asynchronous signer trusts a digest that is already in the headers. Requests are those without line feeds in the method, or line feeds and colons in header names.",
})
STATUS.update({"C89": "partial"})

NOTES.update({
 "C90": "C90_requests, C90_call, C90_discard, C90_four and C90_config prove all of it for one caller at a time but for two clauses, which are refuted: the status of an answer is not looked at (C90_status_refuted), and an expiration with an offset is read as UTC (C90_offset_refuted). Concurrent callers: C41 for the token, C42_reuse for the credentials.",
})

NOTES.update({
 "C91": "C91_sign and C91_sign_dataclass refine the record model of signing to one with shared objects and prove the frame. C91_attempts: method, destination, body object. C91_headers_partial: the headers too if attempts change only header objects of their own; refuted otherwise, the copy is shallow (C91_headers_refuted). C91_uncopyable_refuted: an HTTPRequest whose body cannot be deep-copied, a generator or a file, cannot be signed.",
})

NOTES.update({
 "C92": "C92_fits, C92_separate: in full. C92_shared_partial: calls share their strategy while fewer than 128 other pairs of client and options are resolved between them; without that bound it is refuted (C92_shared_refuted): the cache is one for all clients and keeps 128 strategies, so a client's quota starts afresh after it.",
})

NOTES.update({
 "C93": "C93_seed, C93_wire (with the model of C10) and C93_unsigned prove all of it. Header collections are well formed (C32_fields_wf) and the HMAC gives bytes.",
})

NOTES.update({
 "C94": "C94_delivered, C94_streamed and C94_failure prove all of it, with the codec, schema and value conditions of C82. C94_prefix_refuted shows that the condition on prefixes is needed: the keys of a prefix map take the case the names arrive in.",
})
STATUS.update({"C94": "proved"})

NOTES.update({
 "C95": "C95_output, C95_after, C95_void, C95_status, C95_error, C95_unmodeled and C95_empty prove all of it for schemas that XML can be read into (readable, as in C51). C95_order_refuted, C95_error_order_refuted and C95_lost_refuted show that the conditions are needed: an element before the result or the error makes the call fail with a parse error, as does a length without a body.",
})
STATUS.update({"C95": "proved"})

NOTES.update({
 "C96": "C96_total, C96_target, C96_segments, C96_lines, C96_http2, C96_http1, C96_framing and C96_aiohttp prove all of it for schemas and patterns that fit (serialized), and paths of endpoints without a question mark; signing (C91) and the hooks between the steps are left out. C96_restarting_refuted shows that the exception is needed; C96_blank_refuted that aiohttp gets no parameters with an empty value; C96_user_refuted that user and password of an endpoint are sent in the host line.",
})
STATUS.update({"C96": "proved"})

NOTES.update({
 "C97": "C97_accepts, C97_views, C97_dynamic, C97_new, C97_new_unknown, C97_names, C97_typed, C97_get, C97_stream and C97_long_poll prove it for all classes but five. C97_dynamic_refuted: the classes for restJson1 and awsQuery take no dynamic form. C97_names_refuted and C97_token_refuted: the classes for default, idempotencyToken and unitType are declared under other names, so the token of an operation is never found. C97_undeclared_refuted: values of other shapes are taken too, as the checks of most classes are never run.",
})

NOTES.update({
 "C98": "C98_total, C98_code, C98_message and C98_body prove it where the code has no number sign after its first colon or begins with a namespace, and the places that are looked at hold texts. C98_uri_refuted: of a code without namespace, a number sign in the URI makes the fragment the code. C98_body_refuted: a body that is not an object, or is not in the encoding it seems to have, is an error even if the header has the code.",
})

NOTES.update({
 "C99": "Proved for enumerations that declare at least one value and for str, int and values of enumerations with the mixin. C99_empty_refuted: an enumeration that declares nothing takes no value. C99_subclass_refuted: with an instance of another subclass of str or int on the left, a placeholder is equal to what it is not equal to from its own side. C99_other_enum_refuted: a placeholder of another enumeration becomes an unknown value although its value is declared. C99_unpickled_refuted: an unpickled placeholder is no placeholder and may be a declared member.",
})

NOTES.update({
 "C100": "Everything but the last sentence is proved; that is refuted: C100_hooks_refuted (read_after_attempt and read_after_execution are not called for a cancelled call, although they are documented to be always called) and C100_quota_refuted (the quota of a cancelled retry is lost). The background task of a streaming call is part of the exchange with the transport; cancelling the caller of input_stream while it waits for the request is not modelled.",
})

NOTES.update({
 "C101": "Writing and reading back are proved; the last sentence is refuted, and the texts that are read are given exactly (base64_read in Base64_Spec.v): characters outside the alphabet are left out (C101_junk_refuted), everything after the padding is dropped (C101_tail_refuted) and the unused bits may be anything (C101_bits_refuted). C44_json, C46_values and C51_leaf use the same specification.",
})

NOTES.update({
 "C102": "The first two claims, and that nobody waits in vain for the output, are proved; the others are refuted, each for every state in which it matters: the caller of a call that fails before transmission waits until it is cancelled (C102_caller_waits_refuted), a call whose caller is cancelled is sent all the same and nobody can stop it (C102_given_up_refuted), and cancelling one who waits cancels the call for everybody (C102_apart_refuted). duplex_stream is C106.",
})

NOTES.update({
 "C103": "Each encoder and decoder of the model against a relation written from the standard (Encode_Spec.v), as an equivalence; str.encode, bytes.decode, urllib.parse.quote, hexlify and str(int) are Python's own, so what is proved is that the code's use of them gives these encodings.",
})

NOTES.update({
 "C104": "The rules are stated on the received message, without the model's functions (SigRules_Spec.v, Encode_Spec.v, the RFC 3986 steps of SignPath_Spec.v). Partial: paths with empty segments, hosts with user information, lists of values that need quotes, characters outside printable ASCII in header values, and dates, tokens or digests set by the caller are left out, because there the code departs from the rules (C33, C67 and C68 have the counterexamples). With path encoding off the rules sign the path as it is, but the code still removes dot segments (C104_unencoded_refuted).",
})

NOTES.update({
 "C105": "The value of a tree of calls and the calls that agree up to a point are in JsonCalls_Spec.v; a JSON document is what the RFC 8259 reader of Json_Spec.v accepts. Partial: bytes given to write_data_stream as the whole document are written in full and then refused (C105_stream_refuted).",
})

NOTES.update({
 "C106": "Proved: one request, one output for all, a close that returns has closed both streams in that order, nobody waits for ever. Refuted: until the service answers close closes nothing (C106_close_waits_refuted); after a failed call it raises and the input stream is never closed (C106_close_failed_refuted); cancelling one who waits cancels all of them (C106_apart_refuted) and, if it comes before the output task first runs, leaves the execution and the transport running with nobody to stop them (C106_given_up_refuted).",
})

NOTES.update({
 "C107": "The text, and what any number of calls return, are proved for all values with finite floats, distinct keys and no surrogate pairs; the texts are read by the RFC 8259 reader of Json_Spec.v. Refuted: the value is shared with whoever was given it, so that changing it changes what the next call returns, but not if it was made empty (C107_shared_refuted); floats that are not finite give no JSON (C107_nan_refuted) and two surrogates become one character (C107_pair_refuted).",
})

NOTES.update({
 "C108": "Proved for every pair of objects: fields, ordered collections, URIs with their hashes, identifiers and texts, messages within the limits (equal exactly if the same on the wire) and documents whose plain values are up to date. Refuted: names that differ in case only make different fields (C108_case_refuted); URIs with the same text can differ (C108_uri_text_refuted); an identifier equals any object that is shown as its text (C108_object_refuted); comparing a message that cannot be encoded raises (C108_raises_refuted); a truth value and a number make equal documents (C108_kind_refuted) and a document changed below its top level equals its old value (C108_stale_refuted). Timestamps of headers are whole milliseconds here and NaNs in documents are left out.",
})

NOTES.update({
 "C109": "Proved by induction on trees and histories for chains of chains of caching and direct resolvers, with calls one after the other. Refuted for the resolver of environment variables, which keeps what it has found for good (C109_environment_refuted), and for a chain with a resolver whose invalidate raises: those after it keep what they have (C109_raises_refuted). One object in two places of a tree is modelled as two.",
})

NOTES.update({
 "C110": "Proved for every history of calls: order, single use, exhaustion, attributes of the captured requests, and headers whose list is left alone; and for a whole call of a client with retries (C110_call). Refuted: a captured request shares its headers with the one that was sent, so later changes show (C110_shared_refuted), and a queued response shares its list of headers with the caller (C110_queued_refuted).",
})

NOTES.update({
 "C111": "Proved by invariants of a small-step machine in which tasks may change places after every step, which allows more schedules than asyncio does. The last part holds for invalidations while no call is going on (C111_since); refuted otherwise: a call that is going on keeps the answer to a question from before the invalidation, and the next call returns it (C111_in_flight_refuted). A call during an invalidation that suspends can undo it as well (C111_partway_refuted). Environment variables are never invalidated (C111_environment_refuted).",
})
