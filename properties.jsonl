{"id": "C01", "title": "A created card is always one 80-column record", "statement": "card::create_card(key,value,comment) either leaves a raw card of exactly 80 characters laid out as key padded to 8, \"= \", value[, \" /\" comment], blanks - or throws invalid_card and leaves the card exactly as it was; it throws exactly when the key exceeds 8 characters or the value (plus comment) does not fit.", "quantifier": "every prior card state, every key, every serialized value text and every comment text", "why_tests_cant": "the inputs are unbounded strings; the boundary is a combination of three lengths", "anchors": ["include/boost/astronomy/io/card.hpp:create_card_impl", "include/boost/astronomy/io/default_card_policy.hpp:is_card_valid"]}
{"id": "C02", "title": "Keyword round-trip", "statement": "After a successful create_card the keyword() of the card is the key with surrounding blanks trimmed and keyword(true) is the key padded to 8; two different keys without surrounding blanks never produce cards with the same keyword.", "quantifier": "every key, value and comment that create_card accepts", "why_tests_cant": "must hold for every key text, including keys with embedded blanks", "anchors": ["include/boost/astronomy/io/card.hpp:keyword", "include/boost/astronomy/io/default_card_policy.hpp:extract_keyword,format_keyword"]}
{"id": "C03", "title": "String value round-trip", "statement": "A card created with a string value that contains no '/' and has no blanks at its ends reads the very same string back with value<string>(), with or without a comment. A value containing '/' does not: everything from the '/' on is lost, and with it the character before it and the last non-blank character of what remains; if nothing remains but one character stood before the '/', reading is undefined behaviour.", "quantifier": "every key, every string value, every comment that create_card accepts", "why_tests_cant": "any string content may be stored; tests only try a few words", "anchors": ["include/boost/astronomy/io/card.hpp:create_card,value,value_imp", "include/boost/astronomy/io/default_card_policy.hpp:serialize_to_fits_format,extract_value"]}
{"id": "C04", "title": "Integer value round-trip", "statement": "A card created with an int, long long or size_t value reads back exactly that number with value<T>() for the same T, for any accepted comment.", "quantifier": "every representable integer of each of the three types, every key and comment accepted", "why_tests_cant": "2^64 values times every comment", "anchors": ["include/boost/astronomy/io/card.hpp:create_card,value", "include/boost/astronomy/io/default_card_policy.hpp:serialize_to_fits_format,parse_to"]}
{"id": "C05", "title": "Boolean value round-trip", "statement": "A card created with a bool reads back that bool; the value field is T or F in column 30, and no other field text is ever accepted as a bool.", "quantifier": "both booleans, every key and comment accepted, every value field text", "why_tests_cant": "every other field text has to be rejected", "anchors": ["include/boost/astronomy/io/default_card_policy.hpp:parse_to<bool>,serialize_to_fits_format(bool)"]}
{"id": "C06", "title": "Complex values written into a card cannot be read back", "statement": "A complex<int> value stored with create_card is never returned by value<complex<int>>(): for every value, reading the card throws invalid_cast (the writer pads the imaginary part with blanks, the reader splits at the first blank).", "quantifier": "every pair of ints, every key and comment accepted", "why_tests_cant": "a claim about every value; a test can only show one failure", "anchors": ["include/boost/astronomy/io/default_card_policy.hpp:parse_to(complex),serialize_to_fits_format(complex)"]}
{"id": "C07", "title": "The value cache of a card", "statement": "The first successful value<T>() fixes type and value: afterwards value<T>() returns that same value and value<U>() throws bad_get for every other type, until set_value; create_card does not reset this, so a card that was read and then recreated keeps returning the old value although raw_card() shows the new one.", "quantifier": "every sequence of card operations after a successful read", "why_tests_cant": "quantifies over histories of operations", "anchors": ["include/boost/astronomy/io/card.hpp:value,create_card_impl,set_value,value_cached"]}
{"id": "C08", "title": "set_value updates the in-memory value but not the record layout", "statement": "After set_value(v) with a fitting v, value<T>() returns v and the keyword is unchanged; but raw_card() is keyword+value without \"= \" and without padding, so a right-justified value yields a record that is not 80 columns and that the card constructor rejects. A value that does not fit is silently ignored; a number whose text had more than twenty characters would be refused with length_error and leave the card as it was, which never happens with the texts the library writes.", "quantifier": "every card, every value", "why_tests_cant": "holds for every keyword and value, and the damage is only visible after writing and re-reading", "anchors": ["include/boost/astronomy/io/card.hpp:set_value"]}
{"id": "C09", "title": "Reading a well-formed fixed card", "statement": "For an 80-column record consisting of keyword, \"= \", a value text without '/', at least one blank, '/', and any comment, the text handed to the value parser is the value text with blanks trimmed - the comment never leaks into it. If the '/' directly follows the value, the last value character is dropped.", "quantifier": "every keyword, value text and comment text", "why_tests_cant": "the comment may contain any characters, including quotes and slashes", "anchors": ["include/boost/astronomy/io/default_card_policy.hpp:extract_value"]}
{"id": "C10", "title": "Which records the card constructor accepts", "statement": "card(str) succeeds exactly for strings of 8 to 80 characters that carry \"= \" in columns 9-10, or whose keyword is COMMENT/HISTORY/END in the first seven columns, or that are blank in columns 1-8; it throws invalid_card for other strings of at least 8 characters and out_of_range (not invalid_card) for shorter ones; accepted strings are stored verbatim.", "quantifier": "every string", "why_tests_cant": "every possible 80-byte record", "anchors": ["include/boost/astronomy/io/card.hpp:card(std::string const&)", "include/boost/astronomy/io/default_card_policy.hpp:is_card_valid"]}
{"id": "C11", "title": "Commentary cards", "statement": "create_commentary_card(key,value) yields an 80-column card exactly when |key|<=8 and |key|+2+|value|<=80, whose raw text is key, two blanks, value, blanks. With a 7-character key (COMMENT, HISTORY) and a value without '/' the value reads back trimmed; when the text is too long, length_error is thrown after the card has already been overwritten with the over-long text.", "quantifier": "every key and value, every prior card state", "why_tests_cant": "boundary over all lengths; failure leaves a damaged object", "anchors": ["include/boost/astronomy/io/card.hpp:create_commentary_card"]}
{"id": "C12", "title": "Header write/read round-trip", "statement": "Writing the header obtained from any successful read_header to a fresh stream and reading it back yields an equal header (same cards in the same order, same BITPIX, axes and HDU name), and the bytes written are the 80-column records in order followed by blanks up to the next block boundary.", "quantifier": "every byte stream from which a header can be read", "why_tests_cant": "arbitrary number and contents of cards", "anchors": ["include/boost/astronomy/io/header.hpp:read_header,write_header,operator=="]}
{"id": "C13", "title": "Header reading consumes exactly the records up to END", "statement": "A successful read_header on a fresh header consumes exactly 80 bytes per card, the cards are the consecutive 80-byte records of the stream, the last card and no earlier one is END.", "quantifier": "every byte stream and start position", "why_tests_cant": "arbitrary number of records", "anchors": ["include/boost/astronomy/io/header.hpp:read_header"]}
{"id": "C14", "title": "Keyword lookup after reading", "statement": "bitpix() and the axes of a freshly read header are the values of the last records carrying BITPIX, NAXIS, NAXISn; value_of<T>(key) for any other key yields the value of the last record carrying it and out_of_range if there is none; contains_keyword(key) is true exactly if some card carries it. Conversely a header with a valid BITPIX, NAXIS and NAXIS1..n record is accepted.", "quantifier": "every readable header and every key", "why_tests_cant": "quantifies over all headers with repeated keywords", "anchors": ["include/boost/astronomy/io/header.hpp:value_of,contains_keyword,read_header"]}
{"id": "C15", "title": "Missing mandatory keywords silently use the first card", "statement": "A header that lacks BITPIX (or NAXIS or a NAXISn) is not rejected for that reason: the lookup falls back to the first card of the header, so the header is accepted with the number stored in the first card (and value_of then finds the keyword although contains_keyword does not), or rejected with whatever error the first card's value causes.", "quantifier": "every header without the keyword", "why_tests_cant": "describes the behaviour for a whole class of malformed files", "anchors": ["include/boost/astronomy/io/header.hpp:read_header"]}
{"id": "C16", "title": "A header without END is read forever", "statement": "If the stream from the current position contains only acceptable records and no END record, read_header never returns: after the end of the file it keeps appending blank cards.", "quantifier": "every stream without END record, every number of loop iterations", "why_tests_cant": "non-termination cannot be observed by a test", "anchors": ["include/boost/astronomy/io/header.hpp:read_header", "include/boost/astronomy/io/fits_stream.hpp:read"]}
{"id": "C17", "title": "Data size is the product of the axes", "statement": "data_size() is 0 for a header without axes and otherwise the product of NAXIS1..NAXISn modulo 2^64; it equals the mathematical product whenever that fits, and it is 0 if any axis is 0.", "quantifier": "every header with any number of axes", "why_tests_cant": "unbounded number of axes; wrap-around", "anchors": ["include/boost/astronomy/io/header.hpp:data_size"]}
{"id": "C18", "title": "End-of-unit computation", "statement": "find_unit_end() is always a multiple of 2880, strictly greater than the current position and at most 2880 beyond it; consequently, at an aligned position it is one whole block further than the FITS padding rule requires.", "quantifier": "every stream position", "why_tests_cant": "every position", "anchors": ["include/boost/astronomy/io/fits_stream.hpp:find_unit_end"]}
{"id": "C19", "title": "Stream read returns exactly the requested number of characters", "statement": "read(n) returns exactly n characters: the next bytes of the file, completed with blanks if the file ends early; within the file the position advances by n and no byte is lost or altered.", "quantifier": "every file content, position and n", "why_tests_cant": "all sizes incl. reads across end of file", "anchors": ["include/boost/astronomy/io/fits_stream.hpp:read"]}
{"id": "C20", "title": "HDU round-trip through a file", "statement": "Writing a sequence of (header, data) units the way the library does and scanning the file with the reader yields exactly the same sequence of headers and data buffers, for any number of units, provided each header is readable, its data_size matches its data and is not zero.", "quantifier": "every list of HDUs", "why_tests_cant": "arbitrary number of HDUs, arbitrary sizes relative to the 2880 block", "anchors": ["include/boost/astronomy/io/fits_reader.hpp:read_entire_hdus,extract_header,extract_data_buffer", "include/boost/astronomy/io/header.hpp:write_header", "include/boost/astronomy/io/fits_stream.hpp"]}
{"id": "C21", "title": "Extensions of the same type collide in the control block", "statement": "After scanning a file, the number of HDUs reported equals the number of distinct XTENSION names (plus primary), so two extensions of the same type are counted once and only the last is reachable by name.", "quantifier": "every sequence of HDUs", "why_tests_cant": "quantifies over all files", "anchors": ["include/boost/astronomy/io/fits_reader.hpp:control_block"]}
{"id": "C22", "title": "A truncated data unit makes the reader loop forever", "statement": "If the file ends inside a data unit so that the read fails, the scanning loop of the reader never reaches its end condition.", "quantifier": "every truncated file of the given shape, every number of iterations", "why_tests_cant": "non-termination cannot be observed by a test", "anchors": ["include/boost/astronomy/io/fits_reader.hpp:read_entire_hdus", "include/boost/astronomy/io/fits_stream.hpp:at_end,read,seek"]}
{"id": "C23", "title": "Big-endian number round-trip", "statement": "For every 16/32-bit integer and every 32/64-bit floating-point bit pattern (NaNs and signed zeros included) deserialize(serialize(v)) = v bit for bit, the serialization has exactly the element size and is the big-endian byte sequence of the value.", "quantifier": "every bit pattern of each type", "why_tests_cant": "2^64 bit patterns", "anchors": ["include/boost/astronomy/io/binary_data_converter.hpp:serialize,deserialize_to,element_to_numeric"]}
{"id": "C24", "title": "Vector round-trip of numeric columns", "statement": "For vectors of any length of each numeric type and of bools, deserialize(serialize(v), length) = v and the serialized size is length times element size; elements do not influence one another.", "quantifier": "every vector of every length", "why_tests_cant": "unbounded lengths", "anchors": ["include/boost/astronomy/io/binary_data_converter.hpp:elements_to_numeric_collection,serialize(vector)"]}
{"id": "C25", "title": "Complex and pair round-trip", "statement": "Single complex numbers, single descriptor pairs and vectors of complex numbers survive serialize/deserialize unchanged; vectors of descriptor pairs survive exactly when they have fewer than two elements or neighbouring words coincide in the way the reader's overlapping indices require.", "quantifier": "every value and every length", "why_tests_cant": "unbounded lengths; the failure needs length >= 2", "anchors": ["include/boost/astronomy/io/binary_data_converter.hpp:deserialize_to(pair),deserialize_to(vector<pair>),serialize"]}
{"id": "C26", "title": "8-bit images are read as zeros", "statement": "Reading an image of 8-bit pixels yields an image whose pixels are all zero, whatever the data; hence writing it back does not reproduce the data unless it was all zero.", "quantifier": "every data buffer", "why_tests_cant": "must hold for every buffer", "anchors": ["include/boost/astronomy/io/image.hpp:read_image", "include/boost/astronomy/io/bitpix.hpp", "include/boost/astronomy/io/binary_data_converter.hpp:deserialize_to"]}
{"id": "C27", "title": "Image pixel round-trip", "statement": "For BITPIX 16, 32, -32 and -64, write_image(read_image(buffer)) = buffer for every buffer whose size is a multiple of the element size, and every pixel is the big-endian number at its position.", "quantifier": "every buffer", "why_tests_cant": "all sizes and contents", "anchors": ["include/boost/astronomy/io/image.hpp:read_image,write_image"]}
{"id": "C28", "title": "Image statistics", "statement": "On a non-empty integer image max()/min() are elements bounding all others; median() is an element such that the sorted position size/2 holds it, it does not depend on the pixel order; mean() lies between min and max; std_dev() (n-1 in the denominator) of two or more pixels is 0 exactly for constant images and is NaN for a single pixel; on an empty image mean and std_dev are 0 while max, min and median are undefined.", "quantifier": "every list of pixel values", "why_tests_cant": "all sizes, ties, permutations", "anchors": ["include/boost/astronomy/io/image.hpp:max,min,mean,median,std_dev"]}
{"id": "C29", "title": "Binary table field slicing", "statement": "Reading a binary table of R rows puts into cell (r,c) the trimmed bytes of row r at the offset that is the sum of the widths of the preceding columns - rows are laid out with the sum of all column widths, independent of NAXIS1.", "quantifier": "every table shape and buffer long enough", "why_tests_cant": "arbitrary rows, columns, widths", "anchors": ["include/boost/astronomy/io/binary_table.hpp:set_table_data,column_size,type_size,element_count"]}
{"id": "C30", "title": "Binary table write-back", "statement": "Writing a binary table just read reproduces the data bytes exactly if no field begins or ends with a whitespace byte; a field that does is shortened, and every later field moves forward.", "quantifier": "every table shape and buffer", "why_tests_cant": "needs particular byte values (9-13, 32) at field ends", "anchors": ["include/boost/astronomy/io/binary_table.hpp:write_to,set_table_data"]}
{"id": "C31", "title": "ASCII table field slicing", "statement": "Reading an ASCII table puts into cell (r,c) the trimmed text at row*NAXIS1 + TBCOL - 1 of width given by TFORM.", "quantifier": "every table shape and buffer long enough", "why_tests_cant": "arbitrary rows, columns, widths and gaps", "anchors": ["include/boost/astronomy/io/ascii_table.hpp:set_table_data"]}
{"id": "C32", "title": "ASCII table write/read round-trip", "statement": "For a table whose columns are contiguous (TBCOL of each column directly after the previous one, NAXIS1 the total width) and whose cells are trimmed texts no wider than their column, writing and reading back yields the same cells; an over-wide cell raises length_error; with gaps between columns the written data is not readable at the same TBCOLs.", "quantifier": "every contiguous table shape and cell contents", "why_tests_cant": "arbitrary shapes and texts", "anchors": ["include/boost/astronomy/io/ascii_table.hpp:write_to,set_table_data"]}
{"id": "C33", "title": "Column view behaves as the column array", "statement": "Through one column view, any sequence of reads and writes behaves like an array: reading row i returns the last value written to i, or the decoded cell if none was; a write changes the table cell (i,col) to the encoding of the value and changes no other cell.", "quantifier": "every table, column, and every sequence of view operations", "why_tests_cant": "quantifies over operation histories", "anchors": ["include/boost/astronomy/io/column_data.hpp:operator[],update_value"]}
{"id": "C34", "title": "A column view goes stale when the table is changed behind it", "statement": "After a row was read through a view, changing that cell via get_data()/set_data() is not visible through the view: it keeps returning the value first read.", "quantifier": "every view, row and new cell content", "why_tests_cant": "depends on the history", "anchors": ["include/boost/astronomy/io/column_data.hpp:operator[]", "include/boost/astronomy/io/table_extension.hpp:get_data"]}
{"id": "C35", "title": "Julian date advances by one per day", "statement": "For all consecutive calendar days after 1582-10-01 julian_date increases by exactly 1, and it equals the count of days (proleptic Gregorian) such that 2000-01-01 has 2451544.5; time of day does not change it. Up to 1582-10-01 it is off by the days by which the two calendars differ. It decreases by 9 from 1582-10-01 to 1582-10-02.", "quantifier": "every date after 1582-10-01, every time of day", "why_tests_cant": "millions of dates incl. all leap rules and month ends", "anchors": ["include/boost/astronomy/time/time_conversions.hpp:julian_date"]}
{"id": "C36", "title": "Sidereal times lie in [0,24)", "statement": "GST and LST (for non-zero longitude as well as zero) are in [0,24) for every time and longitude and differ from the unreduced formula by a multiple of 24.", "quantifier": "every time, real longitude and direction", "why_tests_cant": "continuum of inputs", "anchors": ["include/boost/astronomy/time/time_conversions.hpp:GST,LST"]}
{"id": "C37", "title": "Longitude laws of LST", "statement": "LST is 360-degree periodic in longitude, LST(l,WEST)=LST(-l,EAST), and LST(l,EAST) and LST(l,WEST) average modulo 12 to GST.", "quantifier": "every longitude and time", "why_tests_cant": "continuum of inputs", "anchors": ["include/boost/astronomy/time/time_conversions.hpp:LST"]}
{"id": "C38", "title": "Decimal hour decomposition", "statement": "For a decimal_hour built from a number d, hours + minutes/60 + seconds/3600 = d, and for d >= 0 minutes is in 0..59 and seconds in [0,60); all components have the sign of d. One built from (h,m,s) has get()=h+m/60+s/3600 but reports zero hours, minutes and seconds.", "quantifier": "every real d; every triple", "why_tests_cant": "continuum of inputs", "anchors": ["include/boost/astronomy/time/parser.hpp:decimal_hour"]}
{"id": "C39", "title": "Cartesian -> spherical -> cartesian is the identity", "statement": "Rounding aside, converting a cartesian representation to spherical (or spherical equatorial) of any units and back gives the same x,y,z, for every vector including the zero vector.", "quantifier": "every real x,y,z", "why_tests_cant": "continuum incl. all quadrants and poles", "anchors": ["include/boost/astronomy/coordinate/rep/spherical_representation.hpp", "include/boost/astronomy/coordinate/rep/spherical_equatorial_representation.hpp", "include/boost/astronomy/coordinate/rep/base_representation.hpp:to_representation"]}
{"id": "C40", "title": "Spherical -> cartesian -> spherical", "statement": "Rounding aside, converting to cartesian and back preserves all three components when distance > 0, the first angle is in (-pi,pi] and the second strictly inside its range; on the polar axis the distance and the second angle come back but the first angle is lost; in all other cases of non-zero distance the result is the principal representative of the same point, its distance being the absolute value.", "quantifier": "every distance and angle pair", "why_tests_cant": "continuum; range boundaries", "anchors": ["include/boost/astronomy/coordinate/rep/cartesian_representation.hpp", "include/boost/astronomy/coordinate/rep/spherical_representation.hpp"]}
{"id": "C41", "title": "\"Latitude\" is the azimuth", "statement": "The component set by the first argument/set_lat is used by every conversion as the azimuth and the second (set_lon) as the polar angle (resp. elevation): adding to the first component rotates the point about the polar axis; a spherical point of longitude 0 is on the polar axis whatever its latitude, so that two such points have separation 0, and a point of latitude 90 degrees and longitude 90 degrees (equatorial: longitude 0) is on the equator.", "quantifier": "every latitude pair and distance", "why_tests_cant": "requires all latitudes", "anchors": ["include/boost/astronomy/coordinate/rep/spherical_representation.hpp:get_lat,get_lon", "include/boost/astronomy/coordinate/sky_point.hpp:separation"]}
{"id": "C42", "title": "Cross product laws", "statement": "cross of representations, also with mixed length units, is orthogonal to both arguments, anticommutative up to unit, and satisfies |a x b|^2 + (a.b)^2 = |a|^2|b|^2 in physical quantities.", "quantifier": "every pair of vectors and every choice of positive unit factors", "why_tests_cant": "continuum; six unit factors", "anchors": ["include/boost/astronomy/coordinate/arithmetic.hpp:cross,dot,magnitude"]}
{"id": "C43", "title": "Dot product and magnitude laws", "statement": "dot is symmetric and bilinear in physical quantities whatever the units; magnitude^2 = dot with itself; magnitude of a spherical representation equals the magnitude of its cartesian form exactly if the stored distance is non-negative.", "quantifier": "every vector, every unit choice", "why_tests_cant": "continuum", "anchors": ["include/boost/astronomy/coordinate/arithmetic.hpp:dot,magnitude"]}
{"id": "C44", "title": "Unit vector", "statement": "unit_vector of a non-zero cartesian vector whose components have one unit has magnitude 1 and the same direction; for spherical representations it keeps both angles and has distance 1. For components in different units the numbers are the direction cosines, which read in their units do not have the direction of the vector.", "quantifier": "every non-zero vector", "why_tests_cant": "continuum", "anchors": ["include/boost/astronomy/coordinate/arithmetic.hpp:unit_vector"]}
{"id": "C45", "title": "Sum and mean", "statement": "sum (and operator+) of representations of any kinds and units is the vector sum in the type of the left operand: commutative and associative as a vector; mean is the midpoint.", "quantifier": "every pair/triple of vectors and mixed representations", "why_tests_cant": "continuum", "anchors": ["include/boost/astronomy/coordinate/arithmetic.hpp:sum,mean", "include/boost/astronomy/coordinate/rep/cartesian_representation.hpp:operator+"]}
{"id": "C46", "title": "Equality ignores units", "statement": "operator== on representations compares numbers only: 1 m equals 1 km; on equal units it is an equivalence relation identifying exactly the same points.", "quantifier": "every pair of representations and units", "why_tests_cant": "quantifies over unit systems", "anchors": ["include/boost/astronomy/coordinate/rep/base_representation.hpp:operator=="]}
{"id": "C47", "title": "Angular separation", "statement": "separation is the angle between the directions given by the two angles: it lies in [0,pi], is symmetric, is 0 exactly for equal directions and pi exactly for opposite ones, satisfies the triangle inequality and does not depend on the distances as long as they are not zero (not even on their signs).", "quantifier": "every pair of directions and distances", "why_tests_cant": "continuum", "anchors": ["include/boost/astronomy/coordinate/ref_frame/base_frame.hpp:get_angular_separation", "include/boost/astronomy/coordinate/sky_point.hpp:separation"]}
{"id": "C48", "title": "Horizon and hour-angle matrices are involutions", "statement": "The HA/Dec<->horizon and HA<->RA matrices are orthogonal and their own inverses for every latitude / sidereal time; the ecliptic matrices are mutually inverse for every obliquity.", "quantifier": "every angle", "why_tests_cant": "continuum", "anchors": ["include/boost/astronomy/coordinate/utility/utility.hpp:ha_dec_horizon,ha_dec_ra_dec,ecliptic_to_ra_dec,ra_dec_to_ecliptic"]}
{"id": "C49", "title": "Coordinate round-trip through the utility matrices", "statement": "Converting angles to a column vector, applying a conversion matrix and its inverse and extracting the angles gives back the angles, for every pair with azimuth in (-pi,pi] and elevation in (-pi/2,pi/2).", "quantifier": "every angle pair in the open principal range", "why_tests_cant": "continuum", "anchors": ["include/boost/astronomy/coordinate/utility/utility.hpp:column_vector,extract_coordinates"]}
{"id": "C50", "title": "Galactic matrices are not inverse to each other", "statement": "galactic_to_ra_dec is not the inverse of ra_dec_to_galactic: there are coordinates off by tens of degrees after the round-trip; the transpose of ra_dec_to_galactic would be the inverse up to 1e-6.", "quantifier": "all matrix entries; all unit vectors for the bound", "why_tests_cant": "the test-suite has no galactic_to_ra_dec test", "anchors": ["include/boost/astronomy/coordinate/utility/utility.hpp:galactic_to_ra_dec,ra_dec_to_galactic"]}
{"id": "C51", "title": "Obliquity of the ecliptic", "statement": "obliquity_of_ecliptic is, in degrees, 23.439292 - (46.815 T + 0.0006 T^2 - 0.00181 T^3)/3600 with T the days since 2000-01-01 over 36525, for every calendar date; it is strictly decreasing over all representable dates and stays between 22 and 25 degrees.", "quantifier": "every date of the supported range", "why_tests_cant": "millions of dates / continuum", "anchors": ["include/boost/astronomy/coordinate/utility/utility.hpp:obliquity_of_ecliptic"]}
{"id": "C52", "title": "Cos-lat differential conversion", "statement": "Converting a cartesian differential to spherical_coslat and back returns the same velocity when dx > 0 or dx = dy = 0, (-dx,-dy,dz) when dx < 0, and a velocity of the same length along the polar axis when dx = 0 and dy is not 0.", "quantifier": "every cartesian differential", "why_tests_cant": "continuum; sign cases", "anchors": ["include/boost/astronomy/coordinate/diff/spherical_coslat_differential.hpp:make_spherical_coslat_differential", "include/boost/astronomy/coordinate/diff/cartesian_differential.hpp"]}
{"id": "C53", "title": "Scaling a differential by a time", "statement": "For cartesian and spherical differentials, (diff * dt) corresponds to the cartesian differential scaled by dt; for coslat differentials this holds when the stored numbers are normalised, otherwise multiplication by 1 may change components and velocity.", "quantifier": "every differential and dt", "why_tests_cant": "continuum", "anchors": ["include/boost/astronomy/coordinate/diff/cartesian_differential.hpp:operator*", "include/boost/astronomy/coordinate/diff/spherical_differential.hpp:operator*", "include/boost/astronomy/coordinate/diff/spherical_coslat_differential.hpp:operator*"]}
{"id": "C54", "title": "Proper motion ignores the angle unit", "statement": "Frame proper motion components equal the stored ones only if the angle unit is radian: for a unit of k radians the reported value is k times too small/large.", "quantifier": "every stored motion and unit", "why_tests_cant": "quantifies over unit systems", "anchors": ["include/boost/astronomy/coordinate/ref_frame/base_frame.hpp:get_proper_motion"]}
{"id": "C55", "title": "Frame and coordinate accessors", "statement": "For every frame/coordinate type and after every sequence of setter calls, each getter returns the value last written to its component (in its unit) or the initial one, including the frame parameters (equinox, location, pressure, temperature, observation time, humidity); copies carry all of it.", "quantifier": "every value, unit factor and prior state, every sequence of setters", "why_tests_cant": "histories of setter calls", "anchors": ["include/boost/astronomy/coordinate/ref_frame/base_equatorial_frame.hpp", "include/boost/astronomy/coordinate/coord_sys/horizon_coord.hpp", "include/boost/astronomy/coordinate/coord_sys/equatorial_ra_coord.hpp"]}
{"id": "C56", "title": "After reading, mandatory keywords have a fixed type", "statement": "After a successful read_header, value_of<int>(\"BITPIX\") and value_of<size_t>(\"NAXIS\"/\"NAXISn\") return what bitpix()/naxis() report, while value_of with any other type (for instance value_of<int>(\"NAXIS1\")) throws bad_get.", "quantifier": "every readable header, every requested type, every axis", "why_tests_cant": "a claim about every header and every type", "anchors": ["include/boost/astronomy/io/header.hpp:read_header,value_of", "include/boost/astronomy/io/card.hpp:value"]}
{"id": "C57", "title": "Pixel access by position", "statement": "operator()(x,y) of an image_buffer(w,h) is defined for all x < w, y < h exactly if w <= h or w = 1, and gives every position its own pixel exactly if w = h or w = 1; for an image read from a file it always uses an uninitialised width.", "quantifier": "every image size and position", "why_tests_cant": "a claim about all sizes; the wrong stride is invisible on square test images", "anchors": ["include/boost/astronomy/io/image.hpp:operator(),image_buffer,read_image"]}
{"id": "C58", "title": "Numbers in binary table fields survive trimming only without whitespace bytes", "statement": "The cell of a numeric binary table column decodes to the number in the file exactly if the bytes of that number neither begin nor end with a whitespace byte (the field is trimmed before it is decoded): otherwise the value is different, an exception, or - if two or more bytes are trimmed - undefined behaviour. The 32-bit integer 32 is read as 0.", "quantifier": "every field content, every element type and vector length", "why_tests_cant": "2^32 and more field values; the values that fail look random", "anchors": ["include/boost/astronomy/io/binary_table.hpp:set_binary_table_info", "include/boost/astronomy/io/binary_data_converter.hpp:deserialize_to"]}
{"id": "C59", "title": "Column metadata", "statement": "After construction of a table, the i-th column metadata carries index i, TFORMi, and TTYPEi, TUNITi, TSCALi, TZEROi of the header (blank or unset if absent), for binary tables the repeat count and the packed start offset, for ASCII tables TBCOLi; lookup by name gives the first column of that name or column_not_found. A column named like a keyword already looked up as another type makes construction throw bad_get.", "quantifier": "every header, every number of columns, every name", "why_tests_cant": "all headers; name clashes are not in the samples", "anchors": ["include/boost/astronomy/io/table_extension.hpp:get_column_metadata", "include/boost/astronomy/io/binary_table.hpp:populate_column_data", "include/boost/astronomy/io/ascii_table.hpp:populate_column_data"]}
{"id": "C60", "title": "The first request fixes the type of a column", "statement": "Once get_column<T>(name) has succeeded on a table, get_column<U>(name) throws bad_get for every other type U and get_column<T>(name) keeps working, whatever is done to the table (set_data included) for as long as it lives; a request for a name without a column throws column_not_found and changes nothing; in a table used on its own, assigning through one column never changes what is read through a column of another name.", "quantifier": "every table, column, pair of types and every sequence of uses", "why_tests_cant": "quantifies over histories of the object", "anchors": ["include/boost/astronomy/io/binary_table.hpp:get_column", "include/boost/astronomy/io/ascii_table.hpp:get_column", "include/boost/astronomy/io/table_extension.hpp:make_column_view"]}
{"id": "C61", "title": "Copies of a table share cells through their column views", "statement": "Copying a table is deep only before any column was requested: if get_column<T>(name) was called on the original, then assigning through get_column<T>(name) of the copy changes the cells of the original and not those of the copy, and once the original is destroyed any such access is undefined behaviour.", "quantifier": "every table, column, row, value", "why_tests_cant": "needs object lifetimes and histories; undefined behaviour", "anchors": ["include/boost/astronomy/io/table_extension.hpp:make_column_view", "include/boost/astronomy/io/column_data.hpp:column_view", "include/boost/astronomy/io/binary_table.hpp:cached_columns"]}
{"id": "C62", "title": "An HDU without data cannot be written and read back", "statement": "write_to pads an HDU without data by a full extra block of blanks that the reader does not skip: a file whose last HDU has no data is read forever, and a header that follows such an HDU is read with 36 blank cards put before it (36 more in every cycle of reading and writing).", "quantifier": "every sequence of HDUs ending in, or followed after, an HDU without data", "why_tests_cant": "non-termination and growth over repeated cycles cannot be observed by a test", "anchors": ["include/boost/astronomy/io/fits_reader.hpp:read_entire_hdus,write_to", "include/boost/astronomy/io/primary_hdu.hpp:write_to", "include/boost/astronomy/io/fits_stream.hpp:write"]}
{"id": "C63", "title": "Reading only the headers finds the same HDUs", "statement": "read_only_headers records exactly the names, header and data locations and positions that read_entire_hdus records, for every file, and also terminates on files whose data is cut short.", "quantifier": "every file of readable units", "why_tests_cant": "arbitrary number and size of units", "anchors": ["include/boost/astronomy/io/fits_reader.hpp:read_only_headers,read_entire_hdus"]}
{"id": "C64", "title": "Writing after reading only the headers loses all data", "statement": "write_to of an object filled by read_only_headers succeeds and produces the headers with no data at all (although they announce it).", "quantifier": "every file of readable units", "why_tests_cant": "a claim about all files", "anchors": ["include/boost/astronomy/io/fits_reader.hpp:read_only_headers,write_to"]}
{"id": "C65", "title": "Unsupported extensions are dropped", "statement": "Every extension that is neither TABLE nor BINTABLE (IMAGE included) is read as an empty HDU whatever its data, and write_to writes exactly what it would write without it.", "quantifier": "every extension header and data, every HDU list", "why_tests_cant": "quantifies over all files", "anchors": ["include/boost/astronomy/io/default_hdus.hpp:generate_extension_hdu,fits_writer_visitor", "include/boost/astronomy/io/fits_reader.hpp:write_to"]}
{"id": "C66", "title": "8-bit primary data is zeroed by reading and writing", "statement": "For a primary HDU with BITPIX 8 and any data, the bytes written by write_to after reading are all zero, as many as there were; re-reading yields the same object.", "quantifier": "every header with BITPIX 8 and every data", "why_tests_cant": "all contents", "anchors": ["include/boost/astronomy/io/primary_hdu.hpp:init_primary_hdu,write_to", "include/boost/astronomy/io/image.hpp:read_image,write_image"]}
{"id": "C67", "title": "A primary HDU needs EXTEND", "statement": "A primary header without an EXTEND record (a valid minimal FITS file) makes read_entire_hdus throw out_of_range, whatever the data.", "quantifier": "every readable primary header without EXTEND, every data", "why_tests_cant": "quantifies over headers", "anchors": ["include/boost/astronomy/io/primary_hdu.hpp:basic_primary_hdu", "include/boost/astronomy/io/header.hpp:value_of"]}
{"id": "C68", "title": "Re-initialising a reader keeps the old HDUs", "statement": "After initialize(file) on an object that was used before and read_entire_hdus, the HDU list is the old list followed by the HDUs of the new file: positions refer to the old HDUs first, names to the new ones, and total_hdus counts only distinct new names.", "quantifier": "every earlier state of the object, every file", "why_tests_cant": "histories of the object", "anchors": ["include/boost/astronomy/io/fits_reader.hpp:initialize,read_entire_hdus,operator[]"]}
{"id": "C69", "title": "Sidereal time runs at the sidereal rate", "statement": "Between any two times after 1582-10-01, GST advances (modulo 24 h) by the elapsed solar hours times 1.002737909, with an error of at most 0.0000002 h per day elapsed.", "quantifier": "every pair of dates Boost can hold after 1582-10-01, every time of day", "why_tests_cant": "all pairs of times", "anchors": ["include/boost/astronomy/time/time_conversions.hpp:GST,julian_date"]}
{"id": "C70", "title": "Conversions keep the position", "statement": "Rounding aside, the converting constructors, make_*_representation and changes of units preserve the physical position for every kind of representation and all units; to_representation instead relabels the numbers: its result compares equal by operator== but stands for another point as soon as the units differ.", "quantifier": "every representation, every target kind and units", "why_tests_cant": "continuum; unit systems", "anchors": ["include/boost/astronomy/coordinate/rep/base_representation.hpp:to_representation", "include/boost/astronomy/coordinate/rep/cartesian_representation.hpp:cartesian_representation,make_cartesian_representation", "include/boost/astronomy/coordinate/rep/spherical_representation.hpp"]}
{"id": "C71", "title": "The conversion matrices implement the textbook formulas", "statement": "Through column_vector, the matrix and extract_coordinates: right ascension is sidereal time minus hour angle (modulo a turn) with the declination unchanged; altitude and azimuth satisfy the formulas of spherical astronomy for every latitude; ecliptic to equatorial likewise for every obliquity.", "quantifier": "every angle", "why_tests_cant": "continuum", "anchors": ["include/boost/astronomy/coordinate/utility/utility.hpp:ha_dec_ra_dec,ha_dec_horizon,ecliptic_to_ra_dec,extract_coordinates"]}
{"id": "C72", "title": "Adding and converting differentials", "statement": "Converting a differential to the cartesian, spherical or equatorial kind keeps the velocity, and operator+ is the vector sum in the type of the left operand, unless the left operand is a coslat differential: adding the zero velocity to one multiplies its second component by the cosine of the first. to_differential relabels the numbers instead: the result compares equal but is another velocity as soon as the units differ.", "quantifier": "every pair of differentials, all kinds and units", "why_tests_cant": "continuum; unit systems", "anchors": ["include/boost/astronomy/coordinate/diff/cartesian_differential.hpp:operator+", "include/boost/astronomy/coordinate/diff/spherical_differential.hpp:operator+", "include/boost/astronomy/coordinate/diff/spherical_coslat_differential.hpp:operator+"]}
{"id": "C73", "title": "Equality, magnitude and unit vector of differentials", "statement": "operator== compares numbers after a plain spherical transformation: in one length unit it is equality of velocities for the cartesian, spherical and equatorial kinds, but not for coslat differentials (which it treats as plain spherical). magnitude is the length of the numbers, for angular kinds the absolute third component; unit_vector into a cartesian kind divides by it and has magnitude 1.", "quantifier": "every differential", "why_tests_cant": "continuum", "anchors": ["include/boost/astronomy/coordinate/diff/base_differential.hpp:operator==,magnitude,unit_vector"]}
{"id": "C74", "title": "Positional angle", "statement": "positional_angle is the angle, from north through east, of the second point seen from the first, when the first component of both is taken as elevation and the second as azimuth; it is in (-pi,pi], 0 for a point due north and pi for one due south. separation uses the other convention: there are points due north of each other with separation 0.", "quantifier": "every pair of points that are neither equal nor opposite", "why_tests_cant": "continuum", "anchors": ["include/boost/astronomy/coordinate/sky_point.hpp:positional_angle,separation"]}
{"id": "C75", "title": "Frames built from other units", "statement": "A frame built from a spherical representation and a coslat differential of any units has the position and the velocity of its arguments, in the units of the frame.", "quantifier": "every representation and differential of the frame's kinds, all units", "why_tests_cant": "continuum; unit systems", "anchors": ["include/boost/astronomy/coordinate/ref_frame/base_equatorial_frame.hpp", "include/boost/astronomy/coordinate/ref_frame/base_ecliptic_frame.hpp", "include/boost/astronomy/coordinate/coord_sys/galactic.hpp", "include/boost/astronomy/coordinate/coord_sys/alt_az.hpp"]}
{"id": "C76", "title": "Card equality and the value field", "statement": "Two cards are equal exactly if their 80-character texts are, and reading values never changes what a card is equal to; value_with_comment is the trimmed text from position 10 on, so for a card made by create_card the value text, followed by the comment if there is one; after set_value of a string it lacks the beginning of the value.", "quantifier": "every card, every key, value and comment, every sequence of reads", "why_tests_cant": "arbitrary texts and call sequences", "anchors": ["include/boost/astronomy/io/card.hpp:operator==,value_with_comment,set_value,create_card"]}
{"id": "C77", "title": "Reading a stream byte by byte or at once", "statement": "n calls of get return what one read of n returns, and consecutive reads of n and m bytes are one read of n+m, wherever the bytes exist; at_end tells the end of the file without changing the position, and seeking works after it; after a failed read no sequence of operations makes the stream usable again. get returns a zero byte at the end of the file.", "quantifier": "every file content, position, length and sequence of operations", "why_tests_cant": "arbitrary histories of the stream", "anchors": ["include/boost/astronomy/io/fits_stream.hpp:fits_stream,read,get,at_end,set_reading_pos"]}
{"id": "C78", "title": "Writing at a position", "statement": "write(data, pos) changes exactly the bytes at pos..pos+size-1, extends the file (with zeros in a gap) if needed, and reading there returns the data; writes compose; a stream that is not good, or a position out of range, writes nothing and returns false; after at_end noticed the end nothing can be written.", "quantifier": "every file content, position and data", "why_tests_cant": "all positions incl. overlaps and gaps", "anchors": ["include/boost/astronomy/io/fits_stream.hpp:write"]}
{"id": "C79", "title": "Axes and number of cards of a header", "statement": "After read_header, total_dimensions is the value of NAXIS, naxis(n) and all_naxis()[n-1] are the value of NAXISn for 1 <= n <= total_dimensions (other n are undefined behaviour), and card_count is the number of records before END; of a header that was not read it is 2^64-1.", "quantifier": "every readable header", "why_tests_cant": "every number of axes and cards", "anchors": ["include/boost/astronomy/io/header.hpp:total_dimensions,naxis,all_naxis,card_count"]}
{"id": "C80", "title": "Giving a table new data", "statement": "set_data with a non-empty buffer has exactly the outcome of constructing a new table from the same header and that buffer (columns, cells, exception or undefined behaviour), whatever the cells were edited to before; with an empty buffer the table keeps its rows, unlike a newly constructed one.", "quantifier": "every header, table state and buffer", "why_tests_cant": "histories of edits, arbitrary headers", "anchors": ["include/boost/astronomy/io/binary_table.hpp:set_data", "include/boost/astronomy/io/ascii_table.hpp:set_data"]}
{"id": "C81", "title": "Primary HDU flags and image", "statement": "is_simple and is_extended are the values of the last SIMPLE and EXTEND records, get_header has the records of the header given, get_data of the type of BITPIX is the image read from the buffer and of any other type is undefined behaviour.", "quantifier": "every readable header, every buffer", "why_tests_cant": "every header", "anchors": ["include/boost/astronomy/io/primary_hdu.hpp:basic_primary_hdu,is_simple,is_extended,get_data,get_header"]}
{"id": "C82", "title": "Image extension objects", "statement": "An image extension can be made only from a header with GCOUNT, PCOUNT and EXTNAME; it has the records and the pixels of its arguments, and write_to appends exactly the padded records and the padded original data unless BITPIX is 8, for which zeros are written.", "quantifier": "every readable header, every buffer of whole pixels, every stream at a block boundary", "why_tests_cant": "every header and data", "anchors": ["include/boost/astronomy/io/image_extension.hpp:basic_image_extension,write_to", "include/boost/astronomy/io/extension_hdu.hpp:extension_hdu"]}
{"id": "C83", "title": "Decoding arbitrary bytes", "statement": "Whatever bytes a binary table holds, a decoded cell is, element by element, the big-endian number of its bytes at consecutive offsets; a logical element is true exactly for the byte T; a logical vector is decoded from the whole field whatever the count; each element of a descriptor vector is decoded at the offset of one element only, so that consecutive pairs overlap; for elements of several bytes a field short by more than one byte is undefined behaviour, and one short by exactly one byte is completed by a NUL byte.", "quantifier": "every byte string, every element type and count", "why_tests_cant": "arbitrary bytes, all counts", "anchors": ["include/boost/astronomy/io/binary_data_converter.hpp:deserialize_to"]}
{"id": "C84", "title": "Files cut short", "statement": "Exactly the files that consist of complete units, each of which an HDU can be made of, can be read. Of the first k bytes of such a file, for every k (a crash while writing, an incomplete download), reading returns normally exactly if every unit is there in full or not at all, up to padding, and then the HDUs, names and places are those of the complete file's first units; in no other case does it return normally, in particular never with wrong or partial data. Reading only the headers gives a prefix as well.", "quantifier": "every file, every cut position, every bound on the loop", "why_tests_cant": "every crash point of every file", "anchors": ["include/boost/astronomy/io/fits_reader.hpp:read_entire_hdus,read_only_headers", "include/boost/astronomy/io/fits_stream.hpp:read,at_end"]}
{"id": "C85", "title": "After a unit that cannot be made an HDU", "statement": "If reading throws at a unit, the HDUs before it can be accessed by number and name, but access by the name of the failing unit is undefined behaviour; if reading is continued, the unit is left out and its name refers to the HDU after it.", "quantifier": "every file with such a unit, whatever is before and after it", "why_tests_cant": "histories with exceptions", "anchors": ["include/boost/astronomy/io/fits_reader.hpp:read_entire_hdus,operator[],control_block"]}
{"id": "C86", "title": "Reading again", "statement": "After a reading call that returned, every further one, of either kind, changes neither the HDUs nor the names; data skipped by read_only_headers is never read by a later read_entire_hdus. Sizes that wrap around modulo 2^64 can make read_only_headers read one header for ever.", "quantifier": "every reader state reached by a reading call that returned; every header whose announced size leads back to it", "why_tests_cant": "histories of calls", "anchors": ["include/boost/astronomy/io/fits_reader.hpp:read_entire_hdus,read_only_headers"]}
{"id": "C87", "title": "Files that cannot be opened or created", "statement": "Opening a path that cannot be opened throws file_reading_exception and leaves HDUs and names as they were; reading on after that does not end. Writing to a path that cannot be created ends exactly as a successful write does and writes nothing. A reader without a file reads nothing.", "quantifier": "every reader state, every list of HDUs", "why_tests_cant": "failing environments", "anchors": ["include/boost/astronomy/io/fits_stream.hpp:set_file,create_file", "include/boost/astronomy/io/fits_reader.hpp:initialize,write_to", "include/boost/astronomy/io/fits.hpp:open"]}
{"id": "C88", "title": "Opening and access by number", "statement": "open reads all HDUs of a readable file, or makes them all without data if asked for the headers only; access by an int gives the HDU of that number and throws std::out_of_range for every other int, negative ones included; convert_to gives the object if it is of the type asked for and throws boost::bad_get otherwise.", "quantifier": "every readable file, every int, every HDU", "why_tests_cant": "all ints and files", "anchors": ["include/boost/astronomy/io/fits.hpp:open,convert_to", "include/boost/astronomy/io/fits_reader.hpp:operator[]"]}
{"id": "C89", "title": "A floating point value written to a card", "statement": "A finite float or double put into a card reads back as the number of the type nearest to the six-digit decimal nearest to it: sign and order are kept, the relative error is at most 5.1 millionths for normal numbers; read as the other type it is the nearest number of that type, or invalid_cast if that is too large. Infinities read back unchanged, a NaN as the quiet NaN of its sign. ASCII table cells behave the same.", "quantifier": "every float, every double, every keyword and comment that fit", "why_tests_cant": "2^64 values, and a claim about real numbers", "anchors": ["include/boost/astronomy/io/default_card_policy.hpp:serialize_to_fits_format,parse_to", "include/boost/astronomy/io/string_conversion_utility.hpp:ascii_converter", "include/boost/astronomy/io/card.hpp:create_card,value"]}
{"id": "C90", "title": "Writing back a floating point value that was read", "statement": "Writing a card with the (normal) floating point value read from a written card gives the same card, and the values that come back unchanged are exactly those nearest to a decimal of at most six digits, among them every whole number below a million. Tiny subnormal numbers can drift.", "quantifier": "every normal float and double", "why_tests_cant": "2^64 values", "anchors": ["include/boost/astronomy/io/default_card_policy.hpp:serialize_to_fits_format,parse_to", "include/boost/astronomy/io/string_conversion_utility.hpp:ascii_converter"]}
{"id": "C91", "title": "Which texts read as a floating point number", "statement": "A card is read as a double iff its trimmed value text is an optional sign, digits with an optional point, and an optional exponent with the letter e or E, and the number does not round beyond the largest double, or the text is a (signed) inf, infinity, nan or nan(..) in any case. The result is the double nearest to the number. The exponent letter D of the FITS standard is always refused.", "quantifier": "every text", "why_tests_cant": "all texts", "anchors": ["include/boost/astronomy/io/default_card_policy.hpp:parse_to", "include/boost/astronomy/io/string_conversion_utility.hpp:ascii_converter::deserialize_to", "include/boost/astronomy/io/card.hpp:value"]}
{"id": "C92", "title": "Room for a floating point value", "statement": "The text of a float or double has at most 13 characters, so making a card of it fails only for a keyword over 8 or a comment over 48 characters, and then changes nothing. A complex float or double that was written never reads back.", "quantifier": "every float and double, every keyword and comment", "why_tests_cant": "all values", "anchors": ["include/boost/astronomy/io/default_card_policy.hpp:serialize_to_fits_format,parse_to", "include/boost/astronomy/io/card.hpp:create_card,value"]}
{"id": "C93", "title": "Fields of a decimal hour in doubles", "statement": "decimal_hour(d) has a meaning exactly for finite d whose whole part fits a long int (otherwise it is undefined behaviour); then the hours are the whole part of d, minutes and seconds are below 60 in size and never of the opposite sign, and hours + minutes/60 + seconds/3600 is within 2^-53 of d. decimal_hour(h, m, s).get() is h + m/60 + s/3600 up to 2^-51 of the sum of the sizes of the terms. The fields given do not always come back.", "quantifier": "every double", "why_tests_cant": "2^64 doubles, and a claim about real numbers", "anchors": ["include/boost/astronomy/time/parser.hpp:decimal_hour,get,get_hours,get_minutes,get_seconds"]}
{"id": "C94", "title": "Printed decimal hours", "statement": "A printed decimal hour shows the hours, the minutes and the seconds rounded to six decimal places; two that print alike are within a microsecond of each other. The seconds print as 60.000000 exactly if they are within half a millionth of 60, which happens. One made from hours, minutes and seconds prints as zero.", "quantifier": "every double for which decimal_hour has a meaning", "why_tests_cant": "2^64 doubles", "anchors": ["include/boost/astronomy/time/parser.hpp:operator<<,decimal_hour"]}
{"id": "C95", "title": "A quantity set in one unit and read back, in doubles", "statement": "A coordinate component set in a unit and read back in that unit is within 2^-51, relatively, of the double that was set, and exactly it if that unit is the stored one; in degrees it can differ. If at most six significant digits were given, the text of what is read back is that of what was set, and reading it gives the same double.", "quantifier": "every unit factor and value between 2^-500 and 2^500 in size, and zero", "why_tests_cant": "2^128 pairs of doubles", "anchors": ["include/boost/astronomy/coordinate/rep/spherical_representation.hpp:get_lat,set_lat", "include/boost/astronomy/coordinate/coord_sys/equatorial_ra_coord.hpp:get_ra,set_ra"]}
{"id": "C96", "title": "Printed coordinates", "statement": "A printed representation or coordinate shows its kind, and the numbers and units it was made from, if these have at most six significant digits; the text determines them to the last bit. In general two that print alike are of the same kind, in the same units, and their numbers agree in sign and in six digits; beyond six digits different coordinates print alike.", "quantifier": "every kind, every list of units (with symbols without commas) and doubles", "why_tests_cant": "2^192 triples of doubles", "anchors": ["include/boost/astronomy/coordinate/io/io.hpp:operator<<", "include/boost/astronomy/coordinate/coord_sys/horizon_coord.hpp:operator<<", "include/boost/astronomy/coordinate/coord_sys/galactic_coord.hpp:operator<<", "include/boost/astronomy/coordinate/coord_sys/ecliptic_coord.hpp:operator<<", "include/boost/astronomy/coordinate/coord_sys/equatorial_ra_coord.hpp:operator<<", "include/boost/astronomy/coordinate/coord_sys/equatorial_ha_coord.hpp:operator<<"]}
{"id": "C97", "title": "Sum of Cartesian vectors in doubles", "statement": "Each component of a sum is the double nearest to the sum of the components, if that does not overflow; the order of the operands does not matter, the null vector changes nothing and opposite vectors give the null vector. When the second operand has other units, the error is at most 2^-51 of the sizes of what is added. How a sum of three is grouped can matter.", "quantifier": "every pair of vectors of doubles, every unit conversion factor", "why_tests_cant": "2^384 pairs of vectors", "anchors": ["include/boost/astronomy/coordinate/arithmetic.hpp:sum", "include/boost/astronomy/coordinate/rep/cartesian_representation.hpp:operator+"]}
{"id": "C98", "title": "Mean of Cartesian vectors in doubles", "statement": "Each component of a mean lies between the components of the operands and is right to half a unit in the last place; the order does not matter and the mean of a vector with itself is the vector, unless the sum overflows: then it is infinite. When the second operand has other units, the error is at most 2^-51 of the sizes of what is averaged.", "quantifier": "every pair of vectors of doubles, every unit conversion factor", "why_tests_cant": "2^384 pairs of vectors", "anchors": ["include/boost/astronomy/coordinate/arithmetic.hpp:mean"]}
{"id": "C99", "title": "Dot product in doubles", "statement": "The dot product does not depend on the order, is never negative for a vector with itself, and is right to 2^-50 of the sum of the sizes of its terms, whatever the units. Exactly perpendicular vectors have the product zero if they are perpendicular in a coordinate plane, and not always otherwise.", "quantifier": "every pair of vectors of moderate doubles, every unit conversion factor", "why_tests_cant": "2^384 pairs of vectors", "anchors": ["include/boost/astronomy/coordinate/arithmetic.hpp:dot"]}
{"id": "C100", "title": "Cross product in doubles", "statement": "Exactly parallel vectors have the null vector as cross product; exchanging the operands negates it; each component is right to 2^-50 of the sizes of its two terms, whatever the units. The product can be null for vectors that are not parallel.", "quantifier": "every pair of vectors of moderate doubles, every unit conversion factor", "why_tests_cant": "2^384 pairs of vectors", "anchors": ["include/boost/astronomy/coordinate/arithmetic.hpp:cross"]}
{"id": "C101", "title": "Magnitude in doubles", "statement": "The magnitude is right to 2^-51 of itself, whatever the units; no component exceeds it, it does not decrease when components grow, it is zero for the null vector only, and it is exactly the size of the component of a vector along an axis. Far outside the range of moderate doubles it is infinite or zero although the length is neither.", "quantifier": "every vector of moderate doubles, every unit conversion factor", "why_tests_cant": "2^192 vectors", "anchors": ["include/boost/astronomy/coordinate/arithmetic.hpp:magnitude"]}
{"id": "C102", "title": "Unit vector in doubles", "statement": "The unit vector of a vector that is not null has components between -1 and 1 that are right to 2^-50 of themselves, its length is 1 to 2^-50 and its computed magnitude 1 to 2^-49; along an axis it is exact. The computed magnitude is not always 1, nor is the unit vector of a unit vector always itself. The unit vector of the null vector has no component that is a number.", "quantifier": "every vector of moderate doubles, every unit conversion factor", "why_tests_cant": "2^192 vectors", "anchors": ["include/boost/astronomy/coordinate/arithmetic.hpp:unit_vector"]}
{"id": "C103", "title": "Mean of the pixels in doubles", "statement": "The mean of an image without blank or infinite pixels is a number within ((1 + 2^-53)^n - 1) times the mean size of the pixels of the true mean (n pixels); for integer pixels whose sizes sum to less than 2^53 it is the double nearest to the true mean, does not depend on the order of the pixels and lies between the smallest and the largest. A blank or infinite pixel makes it no number; the mean of no pixels is 0. For float and double pixels the order can matter, the mean can be below every pixel, and for very large doubles it overflows.", "quantifier": "every image of fewer than 2^53 pixels, of every pixel type", "why_tests_cant": "all images, and a claim about real numbers", "anchors": ["include/boost/astronomy/io/image.hpp:image_buffer::mean", "include/boost/astronomy/io/bitpix.hpp:bitpix_type"]}
{"id": "C104", "title": "Standard deviation of the pixels in doubles", "statement": "The standard deviation of at least two pixels that are numbers is a number, not negative, whose square is within (1 +- 2^-53)^(n+5) of the sum of squares about the computed mean over n - 1, and never below that of the true variance by more than this factor; it is zero only if all pixels are equal, and for equal integer pixels it is zero. For one pixel, or with a blank or infinite one, it is no number. Equal double pixels can have a standard deviation above zero.", "quantifier": "every image of fewer than 2^53 pixels, of every pixel type", "why_tests_cant": "all images, and a claim about real numbers", "anchors": ["include/boost/astronomy/io/image.hpp:image_buffer::std_dev"]}
{"id": "C105", "title": "Largest, smallest and middle pixel with blanks and infinities", "statement": "If the first pixel is not blank, max and min return the first of the largest (smallest) pixels, blanks ignored; if it is, they return it. Without blanks the median is a pixel with half of the others not above and the rest not below, and does not depend on the order; with a blank pixel or no pixel it is undefined, as are max and min of no pixel.", "quantifier": "every image of every pixel type", "why_tests_cant": "all images", "anchors": ["include/boost/astronomy/io/image.hpp:image_buffer::max,min,median"]}
{"id": "C106", "title": "Conversions between sky coordinate systems in doubles", "statement": "Hour angle/declination to horizon, hour angle to right ascension, and ecliptic to equatorial both ways, computed in doubles with library functions right to the last place or so: the longitude is always a number, and together with the distance from the pole it places the star to 2^-47; the latitude, when it is a number, is right to 2^-22 (and its sine to 2^-48), to 2^-45 if the sine of the true latitude is at most 9/10, and it is a number unless the star is within about 2^-24 of a pole. At the pole it need not be one: a star in the zenith can have no altitude, even with correctly rounded functions.", "quantifier": "every angle in doubles, every mathematical library with the stated error", "why_tests_cant": "2^192 inputs and every C library; a claim about real numbers", "anchors": ["include/boost/astronomy/coordinate/utility/utility.hpp:column_vector,ha_dec_horizon,ha_dec_ra_dec,ecliptic_to_ra_dec,ra_dec_to_ecliptic,extract_coordinates"]}
{"id": "C107", "title": "Converting sky coordinates there and back in doubles", "statement": "Converting to another system and back gives the direction it started from, to 2^-20 in each coordinate of the direction if both latitudes are numbers, and to 2^-43, with both angles numbers, if neither the star nor its image is near a pole (sine of the latitude at most 7/8).", "quantifier": "every angle in doubles, every mathematical library with the stated error", "why_tests_cant": "2^192 inputs and every C library; a claim about real numbers", "anchors": ["include/boost/astronomy/coordinate/utility/utility.hpp:ha_dec_horizon,ha_dec_ra_dec,ecliptic_to_ra_dec,ra_dec_to_ecliptic,extract_coordinates"]}
{"id": "C108", "title": "Galactic coordinates in doubles", "statement": "Both galactic conversions give two numbers for every two numbers, also at the poles; the sine of the latitude is right to 2^-48, the latitude to 2^-22 and the position to 2^-47 of what the matrix in the source means.", "quantifier": "every pair of angles in doubles, every mathematical library with the stated error", "why_tests_cant": "2^128 inputs and every C library; a claim about real numbers", "anchors": ["include/boost/astronomy/coordinate/utility/utility.hpp:galactic_to_ra_dec,ra_dec_to_galactic,extract_coordinates"]}
{"id": "C109", "title": "Angular separation in doubles", "statement": "The separation of two points, Cartesian in any units or spherical, does not depend on their order; when it is a number it is right to 2^-21, and to 2^-43 if the cosine is at most 9/10 in size; it is a number unless the directions are within about 2^-23 of being equal or opposite. A point's separation from itself can be no number, and two directions 2^-28 apart can come out as the same.", "quantifier": "every pair of points with moderate distances, every mathematical library with the stated error", "why_tests_cant": "2^384 inputs and every C library; a claim about real numbers", "anchors": ["include/boost/astronomy/coordinate/ref_frame/base_frame.hpp:get_angular_separation", "include/boost/astronomy/coordinate/sky_point.hpp:separation", "include/boost/astronomy/coordinate/arithmetic.hpp:dot,magnitude"]}
{"id": "C110", "title": "Positional angle in doubles", "statement": "The positional angle of one point seen from another is a number for every two points with longitudes of at most 8 radians; with the distance in the plane across the line of sight it gives the components to north and east of the second point's direction to 2^-47.", "quantifier": "every pair of points, every mathematical library with the stated error", "why_tests_cant": "2^256 inputs and every C library; a claim about real numbers", "anchors": ["include/boost/astronomy/coordinate/sky_point.hpp:positional_angle"]}
{"id": "C111", "title": "Spherical and Cartesian representations in doubles", "statement": "Making a Cartesian representation from a spherical one, polar or equatorial, is right to 2^-50 of the distance in each coordinate. Making a spherical one from a Cartesian one always gives three numbers, the distance to 2^-47 of itself and the direction to 2^-20, to 2^-43 away from the poles; so do both round trips. Near a pole a small deviation can be lost altogether.", "quantifier": "every point with a moderate distance, every mathematical library with the stated error", "why_tests_cant": "2^192 inputs and every C library; a claim about real numbers", "anchors": ["include/boost/astronomy/coordinate/rep/cartesian_representation.hpp:make_cartesian_representation", "include/boost/astronomy/coordinate/rep/spherical_representation.hpp:make_spherical_representation", "include/boost/astronomy/coordinate/rep/spherical_equatorial_representation.hpp:make_spherical_equatorial_representation"]}
{"id": "C112", "title": "Writing on a device that fails", "statement": "Whatever writes the device cuts short and however much of the buffer reaches the disk, the file write_to leaves is the beginning of the file it should have written, and what can still be read of it are its first HDUs; every shorter length can be left. The call ends exactly as if nothing had happened, so no failure is ever reported, and the file that was there before is already gone: replacing a file is not all or nothing.", "quantifier": "every list of HDUs, every failing or short write, every crash point", "why_tests_cant": "every sequence of HDUs times every point of failure", "anchors": ["include/boost/astronomy/io/fits_reader.hpp:write_to", "include/boost/astronomy/io/fits_stream.hpp:create_file,write,get_current_pos,find_unit_end", "include/boost/astronomy/io/header.hpp:write_header", "include/boost/astronomy/io/primary_hdu.hpp:write_to", "include/boost/astronomy/io/binary_table.hpp:write_to", "include/boost/astronomy/io/ascii_table.hpp:write_to"]}
{"id": "C113", "title": "Obliquity of the ecliptic in doubles", "statement": "For every date from 1400 to 9999 the obliquity, computed in doubles with any step from degrees to radians right to four roundings, is the value of the formula to 2^-51 radians, and strictly smaller for the later of two dates; ecliptic and equatorial coordinates of the date are converted into each other to 2^-44 in each coordinate of the direction away from the poles (2^-21 in any case the latitude is a number).", "quantifier": "every date of Boost, every pair of angles in doubles, every mathematical library with the stated error", "why_tests_cant": "3 million dates times 2^128 inputs; a claim about real numbers", "anchors": ["include/boost/astronomy/coordinate/utility/utility.hpp:obliquity_of_ecliptic,ecliptic_to_ra_dec,ra_dec_to_ecliptic,extract_coordinates"]}
{"id": "C114", "title": "The table a throwing set_data leaves behind", "statement": "If set_data throws, the header, the columns and the number of fields are as before. A binary table throws only when its header asks for more rows than a vector can have, and then its cells are as before. An ASCII table can besides throw at a column whose TFORM has no width, only if it was constructed without data: then the old cells are gone, the cells before that column in the first row are those of the new buffer and all others are empty, so set_data is not all or nothing. A table constructed together with its data never throws, whatever it is given later.", "quantifier": "every constructed table, whatever its cells, every buffer", "why_tests_cant": "every history of tables and buffers; a failure inside the call", "anchors": ["include/boost/astronomy/io/ascii_table.hpp:set_data,set_table_data,populate_column_data", "include/boost/astronomy/io/binary_table.hpp:set_data,set_table_data,populate_column_data"]}
{"id": "C115", "title": "Arithmetic of spherical representations in floating point is right up to cancellation and the poles", "statement": "For spherical and equatorial representations in double precision, sum, operator+, mean and cross with a right operand of any kind and any units return finite numbers whose distance is within 2^-45 of the total size of the operands of the true one and whose vector is within 2^-19 of its length plus 2^-47 of that size of the true vector (2^-42 instead of 2^-19 when the result is away from the poles), provided the result is not cancelled below 2^-40 of that size. dot of operands of any kinds is within 2^-47 of the product of their lengths. sum and cross with a Cartesian left operand need no such provision. unit_vector keeps the angles and has magnitude exactly 1. The sum of a vector and its opposite has distance 0 and an uninitialised second angle.", "quantifier": "every mathematical library with the stated errors, every pair of operands of ordinary size, every factor between units", "why_tests_cant": "rounding at every step over all doubles; cancellation; the poles", "anchors": ["include/boost/astronomy/coordinate/arithmetic.hpp:cross,dot,sum,mean,magnitude,unit_vector", "include/boost/astronomy/coordinate/rep/spherical_representation.hpp:operator+", "include/boost/astronomy/coordinate/rep/spherical_equatorial_representation.hpp:operator+"]}
{"id": "C116", "title": "A header that is refused in the middle of a file", "statement": "If a header after any number of good HDUs is refused, because a record is no card or because BITPIX, NAXIS or an axis cannot be used, read_entire_hdus and read_only_headers end with that exception and the reader holds exactly the HDUs before it, found under their names and no others; so does read_only_headers when a header is read but no HDU can be made of it. Reading on after the exception does not skip the refused HDU: the next header is looked for right after the last record that was read, so the rest of the refused unit is taken for cards, and sound HDUs after it may never be reached. Exactly the files that are a sequence of headers, each with its place for data computed modulo 2^64, can be read without their data.", "quantifier": "every file, every position and kind of refused header, every number of HDUs before it", "why_tests_cant": "every file content and every point of failure; a second call after an exception", "anchors": ["include/boost/astronomy/io/fits_reader.hpp:read_entire_hdus,read_only_headers", "include/boost/astronomy/io/header.hpp:read_header", "include/boost/astronomy/io/fits_stream.hpp:read,get_current_pos"]}
{"id": "C117", "title": "Differentials in floating point", "statement": "In double precision a Cartesian differential times a time has every component correctly rounded; a spherical, equatorial or coslat one times a time keeps its vector (of the stored numbers) to 2^-20 of its length, 2^-43 away from the poles, and its distance to 2^-48, but not its angles: times 1 the polar angle 2^-28 becomes 0 with the best library. A coslat differential becomes Cartesian with an error of 2^-50 of its length plus 2^-51 |b| / cos^2(a) of it, where a and b are its first two numbers. Sums with right operands of any kind and unit carry that error and those of the transformations, and no other; the left operand of a coslat sum is read as plain spherical numbers and the result is the sum's second angle times the cosine of its first. magnitude and unit_vector are right to 2^-48 for the stored numbers.", "quantifier": "every mathematical library with the stated errors, every differential of ordinary size, every time and factor between units", "why_tests_cant": "rounding at every step over all doubles; the poles; angles near 90 degrees", "anchors": ["include/boost/astronomy/coordinate/diff/base_differential.hpp:magnitude,unit_vector", "include/boost/astronomy/coordinate/diff/cartesian_differential.hpp:operator+,operator*,make_cartesian_differential", "include/boost/astronomy/coordinate/diff/spherical_differential.hpp:operator+,operator*", "include/boost/astronomy/coordinate/diff/spherical_coslat_differential.hpp:operator+,operator*,make_spherical_coslat_differential,make_cartesian_differential"]}
{"id": "C118", "title": "Which exceptions a caller has to expect", "statement": "read_header throws invalid_card, invalid_cast, fits_exception, std::length_error or boost::bad_get and nothing else (exhausted memory apart), each for some stream. Reading a file, entirely or only its headers, throws these, std::out_of_range, invalid_table_colum_format or boost::bad_lexical_cast and nothing else, whatever was done with the reader before; opening by path adds file_reading_exception, exactly for a path that cannot be opened. So a handler for fits_exception is not enough: four exceptions get past it, out_of_range even for a minimal valid file. value of a card throws bad_get, out_of_range or invalid_cast according to its cache and length; get_column throws bad_get or column_not_found_exception, and reading or assigning an element adds only bad_lexical_cast for single bytes of a binary table and invalid_cast for an ASCII table. Writing what a reader holds never throws, whatever files it was given and however reading them ended.", "quantifier": "every file, stream, card, header, table, column type and history of a reader object", "why_tests_cant": "every byte sequence times every call; that an exception never occurs cannot be tested", "anchors": ["include/boost/astronomy/exception/fits_exception.hpp:fits_exception", "include/boost/astronomy/io/header.hpp:read_header,value_of", "include/boost/astronomy/io/fits_reader.hpp:read_entire_hdus,read_only_headers,write_to", "include/boost/astronomy/io/card.hpp:value", "include/boost/astronomy/io/binary_table.hpp:get_column,populate_column_data", "include/boost/astronomy/io/ascii_table.hpp:get_column,write_to", "include/boost/astronomy/io/column_data.hpp:operator[]"]}
{"id": "C119", "title": "A file laid out by the FITS rules is read to what it encodes", "statement": "Take any file made of images (16 and 32 bit integers, single and double floating point; 8 bit only without pixels), binary tables and ASCII tables, each a header of 80-character records with the keywords the library asks for, in any order and with any blanks, comments and further records, filled with blanks to whole blocks of 2880 bytes, and the big-endian values, the cells row by row or the lines, filled to whole blocks. read_entire_hdus ends normally with exactly one HDU per unit, in order; an image has the axes and pixel values that were stored, a table its columns with number, name, format, unit, scale, zero point, place, count, display format and dimensions, and the stored cells without surrounding white space; looking up a name gives the last HDU of that name, or out_of_range if there is none. The header and the data of no unit but the last may fill their blocks exactly, and the last one's header only if it has no data: with data, whatever it contains, reading never ends.", "quantifier": "every list of images and tables, every value, every header that says so, every filling byte", "why_tests_cant": "every file with every content, shape and number of HDUs", "anchors": ["include/boost/astronomy/io/fits_reader.hpp:read_entire_hdus,operator []", "include/boost/astronomy/io/header.hpp:read_header,data_size,get_hdu_name", "include/boost/astronomy/io/card.hpp:parse_to,value", "include/boost/astronomy/io/fits_stream.hpp:read,find_unit_end,set_reading_pos", "include/boost/astronomy/io/primary_hdu.hpp:init_primary_hdu", "include/boost/astronomy/io/image.hpp:read_image", "include/boost/astronomy/io/binary_table.hpp:set_data,populate_column_data", "include/boost/astronomy/io/ascii_table.hpp:set_data,populate_column_data"]}
{"id": "C120", "title": "The values of the columns of a file", "statement": "For a table read from a file laid out by the FITS rules, get_column of a binary table with the type that fits TFORM gives, at every row, exactly the numbers, complex numbers, logicals or characters whose big-endian bytes the field holds, and of an ASCII table the integer or floating point number written in the field between blanks, provided the bytes of a binary field do not begin or end with white space. If exactly one such byte is at an end, other numbers are returned (the remaining bytes and a zero byte), so the integer 32 is read as 0; with more of them, or with any in a text, the behaviour is undefined.", "quantifier": "every table, every column, row and type, every content of the field", "why_tests_cant": "every bit pattern of every type in every row and column", "anchors": ["include/boost/astronomy/io/binary_table.hpp:get_column,set_table_data", "include/boost/astronomy/io/ascii_table.hpp:get_column,set_table_data", "include/boost/astronomy/io/column_data.hpp:operator[]", "include/boost/astronomy/io/binary_data_converter.hpp:deserialize_to", "include/boost/astronomy/io/string_conversion_utility.hpp:deserialize_to", "include/boost/astronomy/io/table_extension.hpp:get_column_metadata"]}
{"id": "C121", "title": "Copying and editing files laid out by the FITS rules", "statement": "Reading a file laid out by the FITS rules and writing what was read gives the same header records followed by, for an image, the same bytes, for a binary table the fields without the white space around them, for an ASCII table only the fields, moved to the right ends of their columns; header and data are each filled with blanks, with a whole block if they end at the end of a block. If no field of a binary table begins or ends with white space and the columns of every ASCII table leave no gaps, the copy is read to the same objects; if the fields also stand at the right of their columns and the filling was blanks, the copy is the file byte by byte. Pixels or cells replaced by others of the same number and width are written in the place of the old ones and read back exactly, everything else being unchanged. For a table with blanks in the fields or with gaps between the columns the copy is read to other cells.", "quantifier": "every list of images and tables with data, every header, every new value", "why_tests_cant": "every file with every content and every replacement of its values", "anchors": ["include/boost/astronomy/io/fits_reader.hpp:read_entire_hdus,write_to", "include/boost/astronomy/io/header.hpp:read_header,write_header", "include/boost/astronomy/io/binary_table.hpp:write_to,set_table_data", "include/boost/astronomy/io/ascii_table.hpp:write_to,set_table_data", "include/boost/astronomy/io/image.hpp:read_image,write_image", "include/boost/astronomy/io/primary_hdu.hpp:init_primary_hdu,write_to"]}
{"id": "C122", "title": "Which records a file cannot do without", "statement": "Take a file laid out by the FITS rules and remove all records of one keyword from one header. Without SIMPLE or EXTEND (images), XTENSION, GCOUNT, PCOUNT, EXTNAME, TFIELDS or the TFORM of a column (tables) or the TBCOL of a column (ASCII tables), reading throws out_of_range at that unit; without BITPIX, NAXIS or an axis it throws invalid_cast when SIMPLE or XTENSION is the first record, as FITS demands; in both cases the HDUs before it are there with their contents, whatever follows. Without any other keyword the file is read, and only what the keyword said is lost: the name of a column is empty without TTYPE, its unit, scale, zero point, display format and dimensions are absent without TUNIT, TSCAL, TZERO, TDISP and TDIM, everything else is as before. EXTNAME is optional in FITS, so valid files cannot be read.", "quantifier": "every list of images and tables, every keyword, every unit it is removed from, every rest of the file", "why_tests_cant": "every keyword of every header of every file", "anchors": ["include/boost/astronomy/io/fits_reader.hpp:read_entire_hdus", "include/boost/astronomy/io/header.hpp:read_header,value_of,get_hdu_name", "include/boost/astronomy/io/primary_hdu.hpp:init_primary_hdu", "include/boost/astronomy/io/extension_hdu.hpp:extension_hdu", "include/boost/astronomy/io/table_extension.hpp:set_table_extension_info", "include/boost/astronomy/io/binary_table.hpp:populate_column_data", "include/boost/astronomy/io/ascii_table.hpp:populate_column_data"]}
{"id": "C123", "title": "Extensions of other kinds and images of bytes between the others", "statement": "A file laid out by the FITS rules may contain extensions that the library has no class for (XTENSION other than TABLE and BINTABLE, such as IMAGE) and images of bytes (BITPIX 8). It is read as C119 says: every image and table has its contents, is at its place in the list and is found by its name, wherever the other parts stand. An extension of another kind is an empty object, found by its kind; an image of bytes has as many pixels as the file says, all zero. Writing the file leaves the extensions of other kinds out, writes zeros for the bytes and the rest as C121 says.", "quantifier": "every list of images, tables, images of bytes and extensions of any other kind, with any axes and data", "why_tests_cant": "every mixture and order of parts, all contents", "anchors": ["include/boost/astronomy/io/fits_reader.hpp:read_entire_hdus,write_to", "include/boost/astronomy/io/default_hdus.hpp:construct_hdu,generate_extension_hdu,fits_writer_visitor", "include/boost/astronomy/io/header.hpp:get_hdu_name", "include/boost/astronomy/io/image.hpp:read_image,write_image"]}
{"id": "C124", "title": "Reading only the headers of a file", "statement": "Reading only the headers of a file laid out by the FITS rules ends normally and makes one object per part, at the same places and under the same names as reading everything: images with their BITPIX and axes, tables with all their columns, but without pixels and rows. This holds wherever the file ends behind the last header, whatever stands there, and also where reading everything never ends. Writing such objects writes each header with a block of blanks in the place of the data; reading that copy takes the blanks for data.", "quantifier": "every list of parts as in C123, every place behind the last header where the file ends, every bytes there", "why_tests_cant": "all contents, all truncations", "anchors": ["include/boost/astronomy/io/fits_reader.hpp:read_only_headers,write_to", "include/boost/astronomy/io/fits_stream.hpp:set_reading_pos,set_unit_end", "include/boost/astronomy/io/default_hdus.hpp:construct_hdu", "include/boost/astronomy/io/binary_table.hpp:binary_table_extension", "include/boost/astronomy/io/ascii_table.hpp:ascii_table"]}
{"id": "C125", "title": "A reader object over its whole life", "statement": "Whatever sequence of openings (of existing or missing paths) and readings (entire or headers only) a program makes on one reader object, however each call ends: HDUs are only added at the end, so an HDU number once valid always gives the same HDU; a name never leads to an HDU from before the last file was opened, and if every reading since then returned, each name either gives an HDU made of a unit of that name or throws out_of_range, and total_hdus is at most the number of HDUs added since. write_to writes whole blocks of 2880 bytes: the HDUs one after the other, each exactly as it would be written alone, so a file written earlier is the beginning of one written later. After a reading that threw, access by name can be undefined behaviour.", "quantifier": "every sequence of calls, every content of the files, every outcome of the calls", "why_tests_cant": "histories of any length with any files", "anchors": ["include/boost/astronomy/io/fits_reader.hpp:initialize,read_entire_hdus,read_only_headers,write_to,operator [],total_hdus", "include/boost/astronomy/io/fits_stream.hpp:set_file,find_unit_end", "include/boost/astronomy/io/default_hdus.hpp:fits_writer_visitor"]}
{"id": "C126", "title": "What is read of a file is bounded by its size", "statement": "If reading a file ends normally, the number of HDUs is at most the number of its blocks of 2880 bytes, rounded up, and each HDU has a share of the bytes of the file, the shares together being no more than the file, such that the cards of its header (80 bytes each) and its pixels (of the size of their type) or the characters of the cells of a binary table fit into its share. A table has no more columns than cards and each row has one cell per column; an ASCII table has no more rows than data bytes and no cell is longer than the data. A binary table has no more rows than data bytes unless all its cells are empty and the product of the axes is at least 2^61. So a malicious header cannot make the objects large; three things are not bounded: the buffer allocated for the data before it is read, the number of empty rows if the product of the axes wraps, and the cells of an ASCII table taken together, whose columns may overlap.", "quantifier": "every file below 2^62 bytes that is read to its end, whatever its headers say", "why_tests_cant": "all contents, in particular hostile ones", "anchors": ["include/boost/astronomy/io/fits_reader.hpp:read_entire_hdus", "include/boost/astronomy/io/header.hpp:data_size,read_header", "include/boost/astronomy/io/image.hpp:read_image", "include/boost/astronomy/io/binary_table.hpp:set_table_data,populate_column_data", "include/boost/astronomy/io/ascii_table.hpp:set_table_data"]}
{"id": "C127", "title": "Where a star stands above a place at a time", "statement": "Local sidereal time, taken fifteen times as degrees, put into the hour-angle matrix and followed by the horizon matrix turns right ascension and declination into azimuth and altitude that solve the astronomical triangle for the hour angle of the moment, at every time, longitude, latitude and position, poles included; the same matrices in the other order give the star back. Hence at every time the altitude lies between those of the two transits, |latitude + declination| - 90 and 90 - |latitude - declination| degrees, and equals them at the transits; stars near enough to the pole never set, those opposite never rise, and the pole of the sky stands at the height of the latitude. In doubles, for every date Boost can hold, the direction found is within 2^-20 of the true one if an altitude comes out at all, which it does unless the star is all but in the zenith, nadir or a pole of the sky, and within 2^-30 away from those.", "quantifier": "all times, longitudes, latitudes, right ascensions and declinations; in doubles all valid times and finite angles", "why_tests_cant": "a continuum of times, places and stars; the tests try one of each", "anchors": ["include/boost/astronomy/time/time_conversions.hpp:LST,GST", "include/boost/astronomy/coordinate/utility/utility.hpp:ha_dec_ra_dec,ha_dec_horizon,column_vector,extract_coordinates"]}
{"id": "C128", "title": "Conversions move the sky as a whole", "statement": "Converting two positions with any of the matrices that depend on an angle (horizon, hour angle and right ascension, ecliptic both ways) keeps the angle between them, whatever the positions, poles included; and three positions that follow one another counterclockwise still do, except between hour angle and right ascension, which are counted opposite ways, where every figure is turned into its mirror image. The two galactic matrices keep the cosine of the angle between two directions to within 1/3000000. In doubles the cosine changes by at most 2^-19, and by at most 2^-42 if neither image is near a pole.", "quantifier": "all angles and all pairs and triples of positions; in doubles all finite angles", "why_tests_cant": "pairs and triples of points of a continuum; a matrix with a wrong sign can still pass tests that look at one point", "anchors": ["include/boost/astronomy/coordinate/utility/utility.hpp:ha_dec_horizon,ha_dec_ra_dec,ecliptic_to_ra_dec,ra_dec_to_ecliptic,galactic_to_ra_dec,ra_dec_to_galactic,column_vector,extract_coordinates"]}
{"id": "C129", "title": "A table edited through its columns", "statement": "Over any sequence of requests, reads and assignments of any columns of a fresh table under any types, mixed with looks at its cells, the table behaves as a sheet of typed columns: a request fails if there is no column of that name (the first one counts), the first successful request fixes the type and another type is refused from then on, a row reads as what was last entered there and otherwise as what its cell said in the beginning, an assignment succeeds exactly when the row can be read and otherwise enters nothing, and the cells hold the encodings of what was entered and are otherwise those of the beginning; the header, the column descriptions, the shape of the table and all other tables stay as they are. So an entry is seen until something else is entered there, looking leaves the table as it was, and uses of different columns can be done in either order.", "quantifier": "all sequences of uses, all tables built from a header and data, all column types and values", "why_tests_cant": "the sequences of calls and the interleavings of columns and types are unbounded; caches make the answer depend on the history", "anchors": ["include/boost/astronomy/io/table_extension.hpp:make_column_view,get_column_metadata,get_data", "include/boost/astronomy/io/binary_table.hpp:get_column", "include/boost/astronomy/io/ascii_table.hpp:get_column", "include/boost/astronomy/io/column_data.hpp:column_view,Proxy"]}
{"id": "C130", "title": "What a sidereal clock shows", "statement": "Printing the Greenwich sidereal time of any moment Boost can hold, computed in doubles, gives a text \"Hours: Hh Mm Ss\" with H below 24, M below 60 and S from 0 to 60 with six decimals, and the time it says is the sidereal time of the formula, modulo 24 hours, to two microseconds; the same at every longitude, where H can be 24: for some places and moments \"24h 0m 0.000000s\" is shown. Two clocks at one moment differ, modulo 24 hours, by their longitudes to four microseconds, and after 1582-10-01 the Greenwich clock n days and some hours later has advanced, modulo 24 hours, by 1.002737909 times the time passed, to four microseconds and 0.72 milliseconds per day.", "quantifier": "all valid times (for the rate, all pairs after 1582-10-01), all longitudes in doubles that are zero or from 2^-900 to 360 degrees in size, both directions", "why_tests_cant": "rounding errors of a dozen operations add up differently for every time and longitude", "anchors": ["include/boost/astronomy/time/time_conversions.hpp:GST,LST,julian_date", "include/boost/astronomy/time/parser.hpp:decimal_hour,operator<<"]}
