(** Generated from utility/utf8/double_width.hpp:18-90 (double_width_table), all 281 rows: (first, last, meta). *)
From Coq Require Import List NArith.
Import ListNotations.
Local Open Scope N_scope.

(** double_width_table rows 0-249 (utility/utf8/double_width.hpp:18-90). *)
Definition double_width_table_0 : list (N * N * N) :=
  [
   (4352, 4447, 0); (8986, 8987, 0); (9001, 9001, 0); (9002, 9002, 0); (9193, 9196, 0);
   (9200, 9200, 0); (9203, 9203, 0); (9725, 9726, 0); (9748, 9749, 0); (9800, 9811, 0);
   (9855, 9855, 0); (9875, 9875, 0); (9889, 9889, 0); (9898, 9899, 0); (9917, 9918, 0);
   (9924, 9925, 0); (9934, 9934, 0); (9940, 9940, 0); (9962, 9962, 0); (9970, 9971, 0);
   (9973, 9973, 0); (9978, 9978, 0); (9981, 9981, 0); (9989, 9989, 0); (9994, 9995, 0);
   (10024, 10024, 0); (10060, 10060, 0); (10062, 10062, 0); (10067, 10069, 0); (10071, 10071, 0);
   (10133, 10135, 0); (10160, 10160, 0); (10175, 10175, 0); (11035, 11036, 0); (11088, 11088, 0);
   (11093, 11093, 0); (11904, 11929, 0); (11931, 12019, 0); (12032, 12245, 0); (12272, 12283, 0);
   (12288, 12288, 0); (12289, 12291, 0); (12292, 12292, 0); (12293, 12293, 0); (12294, 12294, 0);
   (12295, 12295, 0); (12296, 12296, 0); (12297, 12297, 0); (12298, 12298, 0); (12299, 12299, 0);
   (12300, 12300, 0); (12301, 12301, 0); (12302, 12302, 0); (12303, 12303, 0); (12304, 12304, 0);
   (12305, 12305, 0); (12306, 12307, 0); (12308, 12308, 0); (12309, 12309, 0); (12310, 12310, 0);
   (12311, 12311, 0); (12312, 12312, 0); (12313, 12313, 0); (12314, 12314, 0); (12315, 12315, 0);
   (12316, 12316, 0); (12317, 12317, 0); (12318, 12319, 0); (12320, 12320, 0); (12321, 12329, 0);
   (12330, 12333, 0); (12334, 12335, 0); (12336, 12336, 0); (12337, 12341, 0); (12342, 12343, 0);
   (12344, 12346, 0); (12347, 12347, 0); (12348, 12348, 0); (12349, 12349, 0); (12350, 12350, 0);
   (12353, 12438, 0); (12441, 12442, 0); (12443, 12444, 0); (12445, 12446, 0); (12447, 12447, 0);
   (12448, 12448, 0); (12449, 12538, 0); (12539, 12539, 0); (12540, 12542, 0); (12543, 12543, 0);
   (12549, 12591, 0); (12593, 12686, 0); (12688, 12689, 0); (12690, 12693, 0); (12694, 12703, 0);
   (12704, 12735, 0); (12736, 12771, 0); (12784, 12799, 0); (12800, 12830, 0); (12832, 12841, 0);
   (12842, 12871, 0); (12880, 12880, 0); (12881, 12895, 0); (12896, 12927, 0); (12928, 12937, 0);
   (12938, 12976, 0); (12977, 12991, 0); (12992, 13055, 0); (13056, 13311, 0); (13312, 19903, 0);
   (19968, 40959, 0); (40960, 40980, 0); (40981, 40981, 0); (40982, 42124, 0); (42128, 42182, 0);
   (43360, 43388, 0); (44032, 55203, 0); (63744, 64109, 0); (64110, 64111, 0); (64112, 64217, 0);
   (64218, 64255, 0); (65040, 65046, 0); (65047, 65047, 0); (65048, 65048, 0); (65049, 65049, 0);
   (65072, 65072, 0); (65073, 65074, 0); (65075, 65076, 0); (65077, 65077, 0); (65078, 65078, 0);
   (65079, 65079, 0); (65080, 65080, 0); (65081, 65081, 0); (65082, 65082, 0); (65083, 65083, 0);
   (65084, 65084, 0); (65085, 65085, 0); (65086, 65086, 0); (65087, 65087, 0); (65088, 65088, 0);
   (65089, 65089, 0); (65090, 65090, 0); (65091, 65091, 0); (65092, 65092, 0); (65093, 65094, 0);
   (65095, 65095, 0); (65096, 65096, 0); (65097, 65100, 0); (65101, 65103, 0); (65104, 65106, 0);
   (65108, 65111, 0); (65112, 65112, 0); (65113, 65113, 0); (65114, 65114, 0); (65115, 65115, 0);
   (65116, 65116, 0); (65117, 65117, 0); (65118, 65118, 0); (65119, 65121, 0); (65122, 65122, 0);
   (65123, 65123, 0); (65124, 65126, 0); (65128, 65128, 0); (65129, 65129, 0); (65130, 65131, 0);
   (65281, 65283, 0); (65284, 65284, 0); (65285, 65287, 0); (65288, 65288, 0); (65289, 65289, 0);
   (65290, 65290, 0); (65291, 65291, 0); (65292, 65292, 0); (65293, 65293, 0); (65294, 65295, 0);
   (65296, 65305, 0); (65306, 65307, 0); (65308, 65310, 0); (65311, 65312, 0); (65313, 65338, 0);
   (65339, 65339, 0); (65340, 65340, 0); (65341, 65341, 0); (65342, 65342, 0); (65343, 65343, 0);
   (65344, 65344, 0); (65345, 65370, 0); (65371, 65371, 0); (65372, 65372, 0); (65373, 65373, 0);
   (65374, 65374, 0); (65375, 65375, 0); (65376, 65376, 0); (65504, 65505, 0); (65506, 65506, 0);
   (65507, 65507, 0); (65508, 65508, 0); (65509, 65510, 0); (94176, 94177, 0); (94178, 94178, 0);
   (94179, 94179, 0); (94180, 94180, 0); (94192, 94193, 0); (94208, 100343, 0);
   (100352, 101119, 0); (101120, 101589, 0); (101632, 101640, 0); (110576, 110579, 0);
   (110581, 110587, 0); (110589, 110590, 0); (110592, 110847, 0); (110848, 110882, 0);
   (110928, 110930, 0); (110948, 110951, 0); (110960, 111355, 0); (126980, 126980, 0);
   (127183, 127183, 0); (127374, 127374, 0); (127377, 127386, 0); (127488, 127490, 0);
   (127504, 127547, 0); (127552, 127560, 0); (127568, 127569, 0); (127584, 127589, 0);
   (127744, 127776, 0); (127789, 127797, 0); (127799, 127868, 0); (127870, 127891, 0);
   (127904, 127946, 0); (127951, 127955, 0); (127968, 127984, 0); (127988, 127988, 0);
   (127992, 127994, 0); (127995, 127999, 0); (128000, 128062, 0); (128064, 128064, 0);
   (128066, 128252, 0); (128255, 128317, 0); (128331, 128334, 0); (128336, 128359, 0);
   (128378, 128378, 0); (128405, 128406, 0); (128420, 128420, 0); (128507, 128511, 0);
   (128512, 128591, 0); (128640, 128709, 0); (128716, 128716, 0); (128720, 128722, 0);
   (128725, 128727, 0); (128733, 128735, 0)
  ].

(** double_width_table rows 250-280 (utility/utf8/double_width.hpp:18-90). *)
Definition double_width_table_1 : list (N * N * N) :=
  [
   (128747, 128748, 0); (128756, 128764, 0); (128992, 129003, 0); (129008, 129008, 0);
   (129292, 129338, 0); (129340, 129349, 0); (129351, 129535, 0); (129648, 129652, 0);
   (129656, 129660, 0); (129664, 129670, 0); (129680, 129708, 0); (129712, 129722, 0);
   (129728, 129733, 0); (129744, 129753, 0); (129760, 129767, 0); (129776, 129782, 0);
   (131072, 173791, 0); (173792, 173823, 0); (173824, 177976, 0); (177977, 177983, 0);
   (177984, 178205, 0); (178206, 178207, 0); (178208, 183969, 0); (183970, 183983, 0);
   (183984, 191456, 0); (191457, 194559, 0); (194560, 195101, 0); (195102, 195103, 0);
   (195104, 196605, 0); (196608, 201546, 0); (201547, 262141, 0)
  ].

(** The whole table double_width_table (utility/utf8/double_width.hpp:18-90). *)
Definition double_width_table_rows : list (N * N * N) :=
  double_width_table_0 ++ double_width_table_1.
