(** src/SALib/sample/directions.py:10602-15901, transcribed number by number by a script. *)
From Coq Require Import NArith List.
Import ListNotations.
Local Open Scope N_scope.
Definition directions3 : list (list N) := [
[41454;1;3;5;15;1;15;97;109;293;259;935;2977;5257;14563;28871;17647;34185];
[41461;1;1;1;3;29;21;101;163;173;1019;1025;553;945;3781;1097;58025;124819];
[41462;1;1;3;9;7;35;65;61;31;547;75;3515;6719;12809;23287;14609;30341];
[41471;1;3;7;9;3;53;21;207;383;917;1383;2873;1663;15665;1787;50741;35145];
[41478;1;3;7;5;3;35;113;191;171;635;1597;2943;2421;5555;6457;22087;104221];
[41490;1;1;1;1;29;25;3;225;175;807;1325;215;6475;10729;18619;45401;20627];
[41506;1;1;5;11;23;25;39;207;81;633;403;3369;1295;1289;20853;48899;16613];
[41508;1;1;7;15;5;23;17;77;169;969;1459;3795;3121;5501;32323;46743;124175];
[41512;1;1;7;13;3;25;77;153;105;1017;1599;237;4691;1993;6707;50265;13529];
[41517;1;3;3;15;7;11;81;223;61;589;1263;3999;7643;12101;19853;49279;29999];
[41520;1;3;1;13;3;31;61;59;41;313;115;561;3973;13513;6359;29395;34565];
[41529;1;1;7;7;7;61;91;181;307;875;2045;1367;3743;6497;2443;12153;96431];
[41530;1;1;3;7;19;63;97;211;157;945;891;3747;5483;3081;28939;11179;15935];
[41544;1;3;7;3;23;39;51;137;91;179;1515;1397;2783;9343;11483;52407;111725];
[41550;1;3;3;11;11;25;111;61;115;329;485;1713;565;8607;18869;6595;18605];
[41571;1;1;5;1;13;59;67;231;443;695;1185;393;6393;12957;15817;37219;113127];
[41577;1;3;5;3;15;57;25;97;321;627;15;2005;3813;10399;26779;24243;66463];
[41580;1;3;7;7;17;43;117;179;447;1005;2007;1753;7685;13331;5187;49341;111927];
[41595;1;1;3;3;5;53;35;185;93;847;1523;3039;25;3351;23195;41133;38547];
[41613;1;1;7;5;27;59;95;137;55;129;331;127;7421;5633;557;18137;89055];
[41622;1;3;3;11;5;53;93;137;175;191;1645;2047;2569;8177;22691;4037;31823];
[41635;1;3;3;11;11;45;77;7;21;541;49;1689;171;829;28917;45095;1807];
[41642;1;3;7;5;21;5;113;81;33;681;361;1107;1597;115;11503;27413;9199];
[41661;1;1;3;11;29;57;15;249;105;683;833;2579;3517;16153;17373;32587;124333];
[41676;1;3;7;13;3;35;55;23;293;5;2003;2741;4237;8117;20569;63967;106041];
[41681;1;3;3;1;1;15;57;119;135;967;1495;801;4959;5037;10051;53915;116891];
[41684;1;1;7;9;15;29;53;139;505;473;1179;3289;369;13147;15739;16739;54949];
[41687;1;1;5;7;7;45;17;213;381;63;437;3099;3765;175;13521;11689;58675];
[41688;1;1;7;1;15;35;55;43;147;873;1193;3801;2301;14569;31789;50443;62577];
[41694;1;1;5;7;21;41;3;45;43;303;1465;1461;5295;13397;30439;7103;87505];
[41698;1;1;1;15;19;27;81;141;307;259;521;1785;6917;15635;27781;64809;53297];
[41710;1;1;1;7;27;15;53;99;377;935;1869;3835;741;8447;18947;10727;72179];
[41712;1;1;3;5;15;51;91;207;7;997;935;591;7325;3025;11335;32087;109535];
[41721;1;3;1;5;11;13;1;57;45;307;1839;1735;2247;13117;17471;16599;103063];
[41722;1;3;5;11;19;7;121;3;325;731;1945;4025;7649;8939;11147;59065;49971];
[41729;1;3;1;5;29;63;95;121;467;7;1857;2389;5213;3931;21187;43529;6767];
[41744;1;1;7;7;9;53;31;227;95;827;927;3501;2003;12853;2595;33223;125799];
[41747;1;3;3;3;27;25;105;143;233;887;1135;3449;5767;11447;10251;34621;102113];
[41753;1;3;3;15;3;63;85;119;103;835;443;3861;4957;5389;6137;48851;51887];
[41766;1;3;7;9;23;23;45;129;463;653;1309;3533;1303;2955;18023;37457;114765];
[41783;1;3;7;1;23;17;31;151;71;515;781;1793;3507;6051;30279;29461;48271];
[41790;1;3;5;15;1;31;9;187;131;571;1309;965;7561;16113;23209;54615;16969];
[41810;1;3;5;11;11;9;109;161;9;697;1683;1245;2223;3571;18117;13085;99315];
[41819;1;3;3;1;13;21;27;17;11;11;1095;1447;6941;3399;21245;36661;54283];
[41825;1;3;1;3;21;51;21;197;161;689;1219;1337;6623;5765;11579;2679;23889];
[41828;1;1;5;11;7;31;101;25;231;719;1677;1545;459;14735;25153;65079;15141];
[41843;1;1;7;9;17;7;49;1;83;829;815;307;3405;15189;23699;50889;70391];
[41846;1;1;3;15;21;57;97;191;415;899;197;2635;7507;14009;8633;48997;93925];
[41862;1;3;5;15;23;13;67;127;33;551;911;3933;2027;10665;19509;18485;76111];
[41871;1;1;5;7;23;63;19;149;139;155;1621;3391;2337;2809;21161;38565;401];
[41874;1;1;1;7;19;23;81;49;339;879;1903;657;2677;2273;10853;3225;57933];
[41876;1;3;5;5;13;31;19;203;269;1015;997;2151;4471;11331;5363;46519;51709];
[41892;1;1;5;11;29;19;17;169;511;389;1429;2707;1341;10511;6779;43345;68693];
[41899;1;1;5;11;19;25;29;37;423;345;953;2525;5937;6595;31389;39347;36343];
[41916;1;3;1;3;15;25;45;95;111;207;19;1723;4113;421;3297;46771;8639];
[41928;1;1;3;9;9;47;27;99;327;393;1547;1587;4463;719;14609;24347;68107];
[41957;1;3;7;7;29;19;57;229;131;497;109;251;6599;8947;10255;12875;83831];
[41964;1;3;3;7;17;5;17;45;423;393;1793;3;603;15221;13141;40585;37489];
[41969;1;1;1;11;5;1;53;147;129;135;1473;17;7539;13513;16045;17375;41261];
[41981;1;3;1;5;3;15;75;57;47;581;739;3529;4323;10225;27861;14431;106811];
[41996;1;3;3;13;23;57;41;39;217;67;595;1381;6281;10125;30605;7935;124219];
[41999;1;1;7;15;15;45;1;135;495;271;2023;3267;39;15025;32763;39023;20041];
[42001;1;3;7;13;23;53;75;147;187;633;1989;1885;6581;12169;13639;19707;96429];
[42017;1;1;5;9;13;55;13;41;305;105;1983;273;35;5185;22569;54203;31641];
[42023;1;1;3;15;21;19;59;35;165;575;1961;1443;4803;2339;28329;47695;21505];
[42027;1;3;1;3;23;45;95;85;55;457;1957;1243;4091;14669;13213;53901;122605];
[42032;1;3;7;1;13;1;61;253;195;839;181;1153;1391;205;6725;1757;86817];
[42035;1;1;3;9;7;13;115;137;169;851;299;509;6709;6331;51;31833;25217];
[42044;1;1;5;15;29;23;119;15;41;585;1713;1203;1653;3287;25333;58873;71853];
[42050;1;3;5;15;1;45;35;79;97;381;2027;3795;2127;4775;4579;63267;24719];
[42061;1;1;5;7;17;21;123;75;3;887;1537;2017;1623;16315;12535;64281;54925];
[42062;1;1;3;13;5;23;117;43;305;365;775;1599;5917;13995;6353;3113;106317];
[42073;1;1;3;11;21;19;9;11;129;349;579;3523;5259;8083;24513;15077;115377];
[42098;1;1;7;9;19;31;107;3;185;821;907;2389;7015;3161;13603;35063;60641];
[42104;1;1;3;1;19;35;105;245;363;745;1287;4051;5201;7787;20919;26567;37357];
[42109;1;3;1;1;23;31;1;149;61;489;371;987;3689;14275;8581;48221;44183];
[42120;1;1;5;3;9;35;51;17;439;355;461;2129;1567;13261;22347;17013;53857];
[42125;1;3;3;15;3;33;59;185;157;933;1489;647;4839;12139;3145;57819;11731];
[42131;1;3;5;15;17;31;59;51;117;1001;1585;2861;2785;9579;28013;4481;126723];
[42143;1;3;7;13;27;1;41;119;179;879;1617;4053;3537;15389;16381;40153;68019];
[42153;1;1;3;13;13;35;45;203;333;337;1415;1889;2361;4207;10411;21013;44009];
[42176;1;3;3;5;27;9;17;85;331;369;1219;247;1977;12267;1181;18811;54017];
[42182;1;3;5;9;21;57;57;175;283;639;1155;1595;8187;9981;21451;7525;52751];
[42188;1;3;1;5;27;61;95;25;271;81;1335;2821;7805;10167;13197;58341;62325];
[42203;1;1;7;3;15;31;75;5;211;663;551;963;6015;11907;17045;22863;32389];
[42216;1;1;7;5;21;53;67;71;251;135;1153;2247;2499;15431;21419;46737;2827];
[42219;1;1;5;3;31;25;39;209;437;791;1595;637;1581;6575;26407;24043;11277];
[42227;1;3;3;5;21;15;13;19;259;949;1237;239;5739;4661;3405;55775;58781];
[42234;1;1;3;5;1;63;5;197;329;625;981;913;3957;2765;8801;56675;129511];
[42251;1;3;3;3;29;53;65;145;435;937;787;2043;4945;14585;2789;15771;112335];
[42254;1;3;7;13;3;23;33;141;131;375;739;711;897;469;3635;43335;3069];
[42256;1;1;7;11;29;13;111;149;197;793;1541;1879;7683;9397;6873;43733;118507];
[42259;1;3;7;7;29;21;97;113;139;573;1099;2615;5123;13021;9533;57673;79283];
[42282;1;3;1;5;11;9;59;89;469;797;1119;1037;1667;5947;6051;65045;98275];
[42289;1;3;3;9;11;7;51;191;321;677;1601;681;3579;14441;26579;18019;43065];
[42302;1;3;5;11;7;11;79;21;335;537;801;3553;4311;375;7333;64839;88841];
[42307;1;3;1;7;5;11;15;163;69;645;57;3685;5143;8275;12763;25035;68949];
[42310;1;1;3;13;29;33;125;179;431;129;1367;951;5843;13419;13897;17315;58083];
[42322;1;1;3;11;31;33;3;7;185;821;231;869;6147;15243;32029;20295;60871];
[42328;1;1;1;1;31;43;21;103;275;573;805;225;2049;8375;32595;53201;126487];
[42338;1;1;1;9;31;29;7;91;277;937;1223;2435;4335;7861;9647;13577;30059];
[42349;1;1;1;1;23;25;69;175;293;905;765;1527;6655;15431;2511;3147;75431];
[42367;1;3;3;3;15;53;109;195;87;557;1277;1471;7401;14127;11479;41505;769];
[42386;1;1;5;11;23;37;121;181;199;359;1521;2561;3641;7621;14219;6959;77529];
[42398;1;3;1;11;5;7;69;199;501;251;707;1485;8125;3209;30883;40259;85087];
[42404;1;3;5;13;9;35;5;133;505;39;581;1605;6303;1211;27211;55591;31689];
[42413;1;1;5;3;17;7;11;61;483;59;1569;2583;759;5759;3575;44547;89783];
[42419;1;1;7;15;5;27;107;5;471;421;383;3591;3609;13817;633;22043;83119];
[42421;1;1;3;7;27;55;61;249;37;241;1483;2839;1231;4765;1551;55801;129679];
[42422;1;1;1;3;11;1;19;207;143;351;409;721;4597;13389;30297;43253;129923];
[42431;1;3;3;7;7;53;83;27;167;163;537;3871;2459;12813;30019;41131;56109];
[42445;1;1;5;1;23;37;11;67;161;751;123;307;3341;12983;21565;58529;94503];
[42448;1;3;3;15;11;33;39;195;467;647;1479;1197;7949;6501;18375;15263;21121];
[42451;1;3;5;13;3;35;9;253;299;679;69;165;2735;14725;4217;16391;107017];
[42454;1;1;1;15;3;11;87;87;391;515;843;3957;1365;13201;15983;53647;35643];
[42458;1;1;3;7;9;53;45;221;209;855;169;2729;1219;5229;14111;28877;114653];
[42470;1;1;5;3;11;17;5;93;303;785;1895;2483;7399;14031;1007;2743;47307];
[42476;1;1;7;11;9;13;115;31;223;1011;723;1291;5183;559;15881;43045;28131];
[42500;1;3;7;11;7;59;85;111;79;227;691;1597;2453;10023;19255;47781;88351];
[42509;1;3;3;7;21;33;39;35;253;743;563;2455;8015;13403;24883;47881;115559];
[42538;1;3;1;1;5;33;69;37;225;157;1347;3241;4981;15985;9949;49189;21267];
[42543;1;1;3;11;9;33;123;133;215;297;961;1571;1133;1;31871;25253;100097];
[42545;1;1;1;7;13;29;101;127;113;785;1257;525;7397;13143;30315;5969;37829];
[42546;1;1;1;7;29;33;17;95;439;577;1857;423;63;15365;4777;59073;7773];
[42563;1;1;5;15;3;17;89;133;217;601;1979;391;105;13709;10081;37725;40957];
[42570;1;1;1;15;25;7;85;197;155;367;1927;2007;2563;13147;2345;28735;88243];
[42580;1;3;5;3;5;33;87;153;153;779;825;2163;385;11663;2005;51261;25893];
[42584;1;3;5;5;23;15;19;99;71;723;523;3683;7773;191;17423;30497;129889];
[42589;1;1;7;11;1;3;49;119;39;661;297;27;1575;12145;18519;57285;50059];
[42608;1;3;7;5;7;37;75;235;403;743;603;1689;5031;8871;28241;16917;16947];
[42618;1;1;5;13;17;41;67;219;237;365;833;3521;3211;1037;5657;34789;119739];
[42629;1;1;5;7;3;61;89;107;335;825;803;2445;6861;5421;14585;44037;92711];
[42636;1;3;7;3;19;25;81;51;101;477;1653;2841;6597;9261;30609;15681;48897];
[42639;1;1;7;11;17;1;43;39;133;513;1839;553;6379;4865;28161;7249;80073];
[42644;1;1;5;5;13;45;19;225;399;679;195;3613;413;2901;26749;39971;31435];
[42647;1;3;7;3;23;55;57;77;447;721;677;271;6211;12631;5843;35991;82653];
[42651;1;1;1;1;3;63;23;195;1;1019;723;3865;5913;5491;5495;27483;73637];
[42654;1;3;1;11;17;31;27;211;411;789;1049;2487;2203;6457;7275;4833;14131];
[42658;1;1;5;15;15;13;65;155;127;753;1605;1859;2873;9197;1763;11969;82971];
[42669;1;1;3;11;11;63;13;29;31;851;251;3231;1227;5513;9785;34659;123811];
[42678;1;3;5;1;19;57;41;205;91;39;989;1897;4789;16071;6507;29363;75773];
[42689;1;1;1;1;5;29;113;203;53;599;1529;1417;7017;9609;4867;17659;80719];
[42695;1;3;7;9;27;17;77;25;461;511;781;2977;7601;3551;23615;57669;119723];
[42696;1;3;3;9;23;43;115;21;125;237;893;1431;7423;3717;4371;36193;30481];
[42710;1;1;5;13;3;37;13;239;267;665;205;2745;3865;12167;26689;999;9355];
[42716;1;1;1;1;31;35;55;115;387;217;657;2827;2963;3687;24271;41701;5911];
[42730;1;1;3;3;27;57;41;183;351;841;1327;719;7043;12503;17953;60719;98223];
[42732;1;3;1;1;27;1;119;85;197;673;1951;2949;4783;561;12807;43355;63397];
[42747;1;1;7;7;17;63;109;87;303;439;529;685;111;8405;21249;33803;77927];
[42750;1;1;7;9;11;63;27;185;445;25;1313;3979;4229;8797;10671;33995;84463];
[42752;1;1;1;15;27;63;67;237;39;993;851;4075;3417;1077;11939;31737;93897];
[42761;1;1;3;5;25;9;51;241;213;661;1135;213;7027;5933;24485;65029;8583];
[42772;1;3;5;11;31;1;17;237;107;1021;279;181;1741;11099;7871;63231;64445];
[42776;1;3;5;9;17;21;11;45;23;409;519;1703;5467;9591;13555;23739;73837];
[42779;1;3;3;15;3;39;11;157;273;241;413;1723;3179;2125;16859;5231;122969];
[42797;1;3;5;11;21;27;29;243;255;1011;1179;3545;3557;8091;31569;10217;108361];
[42815;1;1;5;9;25;33;29;67;395;123;1405;3855;7481;5601;21231;17099;13399];
[42824;1;1;5;5;13;17;111;47;77;827;577;1767;3367;11719;8801;22431;85451];
[42837;1;3;7;11;11;31;17;141;149;293;55;3459;19;13709;29135;62765;66455];
[42844;1;1;7;15;13;19;59;211;189;773;1791;2089;2857;1635;17777;46585;70115];
[42868;1;1;5;11;29;29;15;7;93;733;1605;3731;2381;1063;15565;25081;46651];
[42877;1;3;1;9;25;5;87;113;25;93;881;1137;3237;10983;14317;25945;121493];
[42888;1;1;5;11;29;47;99;111;165;453;259;2001;7715;2609;15633;40273;2065];
[42891;1;1;7;13;11;29;33;255;149;361;89;2837;49;3033;1917;9029;38123];
[42912;1;1;1;7;27;31;105;61;469;497;1919;3005;3651;2143;24359;8053;103647];
[42918;1;1;3;13;31;63;101;47;397;89;1915;2385;5399;8897;21001;42997;110333];
[42921;1;3;7;5;29;1;5;119;493;349;153;1839;283;14343;12975;55597;89467];
[42927;1;3;5;3;5;51;71;227;63;799;745;1387;2435;1003;27937;43421;12279];
[42949;1;3;3;7;7;31;37;61;11;175;581;1583;4737;3087;10335;60683;57085];
[42953;1;3;1;1;1;63;59;47;417;35;1673;3277;1873;14981;22463;26835;91115];
[42967;1;1;7;5;15;23;115;13;253;583;219;1307;1189;9891;641;20841;87133];
[42974;1;1;5;11;1;3;71;235;429;335;1649;1775;3077;13723;3209;19807;7283];
[42989;1;1;7;1;31;49;39;141;127;63;1561;2559;7661;4825;9419;15327;87145];
[42995;1;1;5;3;17;33;51;219;467;151;161;3301;7509;2235;30371;64031;62741];
[42997;1;3;1;3;23;63;43;29;399;279;271;3537;1863;1811;14917;28247;34807];
[43007;1;1;3;5;13;29;37;151;129;19;149;2145;5363;6835;19655;1207;74527];
[43018;1;3;5;7;27;35;63;53;247;987;1767;483;3489;1711;10763;6981;78251];
[43025;1;1;3;1;15;47;83;147;375;539;1623;29;4599;7981;23533;64659;48753];
[43031;1;1;1;9;21;17;85;45;167;469;1319;2969;1605;1405;9961;28829;125757];
[43032;1;3;1;11;3;45;43;159;301;579;1821;701;1149;457;16601;49377;99845];
[43038;1;1;7;13;11;7;37;227;345;973;1167;1247;5109;10917;3029;60065;127347];
[43041;1;1;3;5;3;63;95;233;495;225;1225;3451;7731;14677;10437;1417;33293];
[43054;1;1;7;15;1;3;3;171;201;1009;1481;587;7661;10085;4961;46415;28573];
[43074;1;1;5;1;3;45;67;79;463;733;2007;2811;2943;14857;23469;14479;97875];
[43085;1;1;1;5;19;1;29;29;447;173;1081;153;5343;5707;1357;30169;122527];
[43097;1;1;1;5;15;57;33;129;71;717;173;3271;4741;13211;28321;56793;119833];
[43098;1;3;3;9;9;41;47;71;103;713;725;1335;5261;13835;17619;47429;69815];
[43110;1;3;3;15;7;3;71;25;75;967;1037;3585;3407;9979;2195;51087;126535];
[43119;1;3;3;11;25;7;25;249;473;339;1211;3503;4343;9707;26127;62061;52479];
[43131;1;1;3;3;27;9;79;197;207;845;377;3231;5177;899;19497;41187;105897];
[43143;1;3;5;15;5;27;65;151;207;677;713;2495;681;15341;5389;51965;43761];
[43144;1;3;3;11;19;11;55;189;291;183;1345;2677;791;2391;25771;55147;24223];
[43152;1;1;3;11;31;59;29;5;275;483;1361;1527;3019;245;17667;57905;41329];
[43157;1;3;3;9;7;19;83;71;147;999;793;3535;1931;12817;2707;45735;31311];
[43178;1;1;5;7;5;1;117;247;127;1011;1441;2449;4095;12239;4743;64781;32621];
[43180;1;3;1;11;19;57;43;39;97;485;951;989;5975;5219;14421;43681;37305];
[43192;1;1;5;15;7;49;113;161;199;545;1113;3821;2019;8747;4085;50823;31955];
[43197;1;3;3;3;19;41;47;191;403;25;2043;3489;6263;4843;12961;63791;5027];
[43203;1;1;7;1;25;55;5;51;121;273;973;3893;1771;9373;21927;29353;95935];
[43220;1;3;3;3;27;1;97;63;445;179;481;2995;3123;4687;24359;35973;74535];
[43236;1;1;5;1;29;23;117;183;197;819;695;641;4155;13593;30965;41407;42433];
[43245;1;3;5;1;23;53;61;253;87;487;1995;1281;3367;15047;3493;41711;53407];
[43246;1;1;1;9;27;49;83;21;63;181;1661;1649;281;12141;25771;35563;42643];
[43260;1;3;5;13;15;59;121;113;379;487;1929;3725;2477;6527;8619;64869;57103];
[43265;1;3;1;7;27;39;69;93;193;395;433;2091;151;6921;11599;36143;41179];
[43271;1;1;7;1;31;33;73;199;57;37;1387;3505;7919;3507;2855;8239;84527];
[43285;1;1;7;5;15;5;119;253;263;785;1409;1485;3675;5515;13057;30323;98015];
[43286;1;3;1;1;11;5;57;83;365;703;1923;1397;1103;4015;13123;47093;113793];
[43290;1;3;3;1;5;61;29;173;189;999;897;3389;6745;1487;2349;59105;107407];
[43299;1;1;1;1;17;51;65;1;249;863;399;3819;2485;12215;12365;58909;25559];
[43314;1;3;7;1;31;39;43;219;51;13;779;505;2259;14571;9049;21555;11869];
[43323;1;1;7;7;13;5;97;85;111;511;587;63;2395;8099;26223;757;119821];
[43337;1;3;3;5;5;19;113;35;101;41;499;1313;6489;6793;31435;45007;95691];
[43348;1;3;5;15;19;37;103;187;347;667;1957;1825;7447;12359;21779;52749;18679];
[43355;1;3;5;5;17;19;19;193;435;379;439;2093;725;2133;15659;54645;59567];
[43357;1;3;7;3;23;35;33;13;23;349;231;1635;1625;5039;21299;36413;104681];
[43358;1;1;3;13;23;49;15;253;509;9;411;2157;3737;11227;6021;42919;100375];
[43361;1;1;7;1;17;11;33;167;219;63;137;741;4193;16149;9657;50223;85213];
[43362;1;3;7;11;23;59;113;149;427;697;1723;255;201;10081;1079;323;109091];
[43364;1;3;3;15;11;9;89;39;67;249;1939;1737;3719;10515;16517;22345;83959];
[43368;1;3;3;13;5;33;127;9;329;429;563;1579;4427;8343;22083;5035;124915];
[43376;1;1;1;5;15;57;121;171;315;983;743;2015;2421;12431;2561;13331;73163];
[43385;1;1;3;9;1;39;85;159;23;979;1467;231;4231;3669;16747;24195;46745];
[43386;1;1;3;7;3;11;65;67;85;455;365;2279;3471;12771;14443;42773;28723];
[43391;1;3;5;1;13;9;105;237;103;59;1301;3125;509;12669;3893;9775;81303];
[43397;1;1;3;11;19;9;125;23;191;979;533;429;3239;15013;13833;40689;102827];
[43431;1;3;3;7;15;5;83;243;467;913;1279;3889;8049;8357;5957;39073;93521];
[43438;1;3;3;3;19;5;123;77;289;57;2001;807;5257;1671;20273;10183;128439];
[43440;1;1;7;13;19;45;25;47;135;929;1353;2731;3351;7637;27037;58835;50285];
[43452;1;3;1;1;13;55;55;197;409;93;1351;161;1885;5913;27937;49793;84541];
[43463;1;1;3;7;29;21;113;179;203;533;1471;2035;447;6781;28729;31099;23027];
[43470;1;1;3;11;27;3;5;209;367;945;749;3637;2881;8139;27875;34223;97263];
[43478;1;3;5;13;25;27;35;3;13;707;303;3663;6617;13501;25537;33077;71485];
[43481;1;1;7;15;11;29;65;47;235;635;133;153;6175;2961;8171;28641;122589];
[43488;1;1;5;15;17;41;85;147;323;673;1629;3477;3341;16373;13901;60961;39451];
[43491;1;3;1;15;29;15;37;109;293;863;1835;1173;2263;13815;24995;6989;103417];
[43506;1;3;3;15;3;31;23;47;15;717;1457;1067;6229;7051;21771;54815;115827];
[43512;1;1;1;13;21;3;45;239;89;603;407;781;8095;7389;18035;32229;39867];
[43539;1;1;3;7;7;59;79;51;411;917;803;2455;2623;12413;23957;44199;67903];
[43567;1;3;1;9;17;37;117;47;101;733;1861;1111;6785;13743;24371;49427;54711];
[43579;1;3;1;15;27;63;107;33;351;287;1765;1947;6209;8127;30007;18757;31453];
[43584;1;3;5;13;11;13;29;247;7;609;1235;1767;5365;12673;10151;51579;106407];
[43601;1;3;7;15;5;25;81;197;51;615;1695;259;7983;1403;7903;21441;73263];
[43614;1;1;5;1;13;61;55;175;445;3;1957;1171;6823;4285;11847;12789;79787];
[43617;1;1;5;15;17;51;111;201;45;97;45;2533;1125;3663;13685;45719;51497];
[43623;1;3;3;13;29;59;111;97;381;477;1229;3709;5185;7055;32729;32881;25539];
[43630;1;3;1;9;1;39;57;143;189;625;1717;1755;3129;807;27975;15511;66123];
[43647;1;3;3;1;5;41;25;27;163;397;1595;2325;1803;12439;25743;24509;72613];
[43658;1;1;5;13;29;41;125;113;367;709;1911;669;831;5375;31145;26197;33543];
[43663;1;1;5;1;1;5;91;199;133;273;393;1179;717;12791;17693;6905;20433];
[43665;1;1;3;15;29;35;9;127;383;673;1821;2765;2425;11789;19741;43189;99557];
[43691;1;1;7;13;9;19;119;103;11;983;623;391;1609;2333;19843;28269;41237];
[43701;1;3;7;5;29;3;13;213;387;361;749;669;1625;5687;11369;38119;38389];
[43705;1;3;5;13;13;51;47;33;1;979;1817;2633;7181;47;3603;49211;4377];
[43708;1;3;1;1;11;63;5;249;13;805;1097;1449;5235;16299;25855;30949;3013];
[43719;1;3;7;9;29;35;89;135;475;945;999;771;6023;13317;32611;43971;10393];
[43731;1;1;1;5;23;3;37;117;95;985;1599;2191;3617;5831;31113;10873;112219];
[43737;1;3;5;7;11;15;55;65;239;365;1209;3509;8101;8619;24775;65291;50589];
[43740;1;1;7;9;21;19;123;83;317;717;433;31;2597;14723;28839;7817;126123];
[43747;1;1;7;11;3;33;99;39;227;279;353;1921;7883;16187;5157;41121;89425];
[43749;1;3;5;9;25;7;29;165;129;77;159;923;1357;1159;23537;58087;56443];
[43750;1;1;7;3;13;51;45;161;27;41;1295;2937;7223;5271;17927;23311;2543];
[43754;1;1;1;1;11;53;119;165;409;785;1649;3587;259;10997;3171;31271;104631];
[43764;1;1;5;7;5;7;49;201;373;825;1755;3751;8041;8133;21347;12039;3049];
[43767;1;1;1;3;7;29;103;1;473;65;761;1611;5121;14345;32535;16679;11321];
[43768;1;3;3;11;21;57;35;63;237;415;1943;483;5377;14647;23433;45459;32535];
[43773;1;1;1;15;21;57;7;103;493;279;665;3699;169;7619;3571;11539;31983];
[43785;1;1;1;1;9;5;81;159;105;927;379;1133;1805;14341;9833;63151;70877];
[43788;1;1;7;5;19;5;63;127;129;43;757;2215;3899;643;19731;17345;102611];
[43810;1;3;7;7;27;21;3;69;475;283;319;833;3683;11275;18191;44027;24901];
[43819;1;1;5;5;31;25;63;33;505;765;257;1147;779;12505;19971;24695;65935];
[43834;1;1;1;15;23;33;31;107;59;639;1307;3211;6171;15665;16775;61671;25569];
[43853;1;3;3;9;31;3;113;199;425;895;1051;2125;1525;15199;14845;4213;18449];
[43866;1;3;5;3;3;11;75;121;33;265;459;3879;909;6533;18451;32421;117427];
[43871;1;1;1;9;11;9;125;175;309;847;959;2013;1557;9291;2963;43275;9917];
[43872;1;1;5;3;15;39;67;35;373;601;463;1263;1615;15059;31011;36059;114493];
[43881;1;1;5;15;5;43;49;239;461;171;1863;2249;2923;15897;22941;29925;21429];
[43889;1;1;1;15;13;31;127;205;361;149;1641;1443;5959;13183;13861;9533;1011];
[43902;1;1;3;13;9;49;39;67;165;695;611;2261;3425;6247;23575;51833;106167];
[43926;1;1;7;9;29;21;75;251;87;263;2035;1007;3821;12719;8889;47901;39037];
[43935;1;3;1;3;15;51;79;127;201;497;1881;3841;1821;14435;4933;6853;104305];
[43946;1;1;5;11;23;47;33;109;481;585;333;2525;593;1625;5787;23839;30647];
[43951;1;1;5;1;17;3;7;43;113;873;1433;3377;45;831;17015;21479;7257];
[43953;1;1;1;1;13;21;59;159;279;871;53;3647;2599;12417;25807;6867;18251];
[43971;1;1;5;9;29;61;7;81;353;761;269;4047;3051;8385;2919;18875;15239];
[44008;1;1;7;13;31;17;71;103;107;655;1263;849;1809;349;3239;45381;117451];
[44011;1;1;5;9;27;45;83;207;117;77;437;523;851;13595;12381;27271;59951];
[44026;1;3;3;15;3;33;103;217;61;443;1077;2887;1751;11111;465;37051;89687];
[44033;1;1;1;5;15;15;13;115;275;565;1257;1067;6561;8143;2149;53169;123637];
[44048;1;3;3;15;27;63;25;191;143;103;1247;1053;2469;9823;4437;18195;91751];
[44057;1;1;7;11;1;63;31;103;249;861;983;335;35;4291;16307;43669;68065];
[44058;1;3;1;15;13;29;51;145;177;851;39;3531;4477;4243;3301;64293;15741];
[44067;1;1;7;3;29;45;5;85;185;191;1007;3085;2177;14911;18319;265;25435];
[44081;1;1;5;9;9;57;47;143;217;947;2021;1835;4773;15145;26519;46407;103667];
[44087;1;3;1;11;1;7;51;75;207;757;89;1289;39;15641;9477;28503;47113];
[44099;1;3;1;11;9;19;21;197;429;121;813;3447;6091;3167;5401;27791;26499];
[44105;1;1;7;15;1;15;85;247;3;111;433;3103;5049;7929;22645;53247;53417];
[44106;1;1;7;7;27;19;125;101;269;7;777;1289;1429;11561;18043;3601;125857];
[44114;1;1;1;13;11;9;127;231;239;435;1291;4025;1049;15549;7577;51147;38121];
[44116;1;1;7;3;9;55;57;137;387;565;873;1417;5993;4849;1731;51653;105697];
[44130;1;1;7;9;7;47;115;119;325;881;1687;1009;7007;12541;6737;28471;7369];
[44139;1;3;1;1;11;47;25;163;399;977;1777;727;5575;1311;23843;2199;93229];
[44141;1;1;7;5;13;19;53;123;439;585;1977;3387;5305;1463;14307;9519;537];
[44153;1;1;7;15;1;53;13;213;323;699;1585;3499;2441;3055;31263;63923;9779];
[44159;1;1;5;5;21;43;123;43;475;521;1301;3185;5627;7443;1195;39485;113125];
[44160;1;1;5;7;9;3;39;5;237;719;1743;1153;6401;14701;5503;38491;24123];
[44170;1;3;5;9;17;33;117;23;409;63;1829;2587;3489;3209;4775;40069;4721];
[44172;1;3;3;5;21;63;95;231;25;167;1181;813;4591;5227;21999;19633;37547];
[44187;1;1;7;11;13;9;13;147;239;951;1247;1199;7907;12493;25371;1917;107499];
[44190;1;1;5;15;3;49;31;103;189;561;1763;3941;3525;3165;7789;57729;92635];
[44193;1;1;1;5;3;61;107;163;465;631;1519;169;4469;8153;11039;247;37657];
[44199;1;3;1;5;9;37;51;195;465;975;169;1077;995;2669;7663;28997;25779];
[44213;1;1;7;13;7;37;3;117;147;335;629;4077;5855;2893;5629;55075;83359];
[44218;1;1;5;9;9;25;53;63;315;287;1833;1397;2395;5719;6719;18003;101073];
[44223;1;1;7;1;13;19;13;81;497;399;413;2411;3915;14037;19735;4587;69655];
[44235;1;3;1;7;5;61;101;209;299;729;1359;4013;2057;8439;8113;57417;8951];
[44243;1;3;5;7;29;21;67;73;107;359;1655;3729;4403;10467;28103;10261;74651];
[44262;1;1;1;9;3;39;25;91;287;497;1743;339;4739;1709;16351;45385;64693];
[44283;1;3;1;1;7;13;41;93;49;285;997;891;4353;4249;11269;36935;71249];
[44291;1;3;3;13;13;23;97;231;101;93;1183;201;6795;16287;30707;20845;105873];
[44293;1;1;1;9;7;57;123;167;451;245;1887;1839;2967;2387;15075;11877;629];
[44308;1;3;3;1;13;13;83;41;219;313;1743;1265;4435;11731;17625;64235;24865];
[44327;1;3;1;9;13;17;109;235;387;581;887;1071;603;10955;5001;8419;20997];
[44341;1;3;1;5;31;55;1;219;27;623;1425;1309;5409;9633;3231;15029;22989];
[44346;1;3;3;13;25;47;23;223;283;189;1665;3743;387;1807;16919;8511;15933];
[44348;1;1;1;1;13;11;81;59;423;1007;317;2761;2617;9715;24853;63585;77083];
[44354;1;3;1;3;3;11;103;123;401;467;1159;2725;3275;15513;2281;21617;87211];
[44366;1;1;5;7;23;17;25;83;11;901;809;3233;3929;8685;7609;50949;104841];
[44368;1;3;7;1;15;33;37;245;275;453;729;721;1589;5417;29839;57315;67227];
[44373;1;3;7;3;21;17;51;213;225;471;1201;931;1229;9503;5507;4057;7737];
[44384;1;3;1;11;29;55;19;193;9;151;597;1377;827;8549;1293;10963;86183];
[44390;1;3;3;15;17;23;89;47;195;333;2001;1001;6715;9797;21631;5723;88847];
[44393;1;3;5;9;21;33;111;101;503;513;785;1947;1139;7921;13189;34831;80963];
[44394;1;3;3;13;9;61;35;39;451;485;661;1993;4705;9477;32541;16553;33167];
[44399;1;3;3;9;29;37;115;87;367;325;539;1975;6769;1453;31099;3335;16939];
[44401;1;1;1;7;15;21;113;203;97;847;625;847;1819;1109;14503;25319;100259];
[44408;1;1;5;11;9;13;65;21;429;865;513;2183;3785;11817;6283;23041;7969];
[44411;1;1;5;13;1;41;109;43;91;211;1477;3543;5217;3133;12503;15523;12917];
[44417;1;3;7;9;23;53;109;89;229;939;1211;2771;541;15915;5411;47273;54453];
[44420;1;1;1;3;3;45;31;63;99;347;17;523;441;12325;15673;1887;15289];
[44424;1;1;1;7;29;61;35;115;345;1011;5;595;465;3897;28147;791;98757];
[44444;1;1;5;9;27;1;21;155;467;469;1565;1439;5809;851;32503;3025;97231];
[44451;1;1;1;9;3;17;15;73;487;1011;63;2605;6647;9385;4527;21993;19783];
[44453;1;1;3;9;17;17;65;75;175;897;1317;2593;1495;15835;12025;57457;29577];
[44466;1;1;1;13;7;1;13;145;491;427;375;1235;3045;2991;26607;30581;43377];
[44472;1;1;1;1;31;1;75;235;345;75;1505;1401;6921;6207;13729;21545;34703];
[44475;1;3;7;9;31;35;53;233;85;385;2045;1401;5365;827;13093;41097;97381];
[44486;1;3;7;15;5;9;19;125;49;29;1553;675;3947;4775;8161;12321;55191];
[44500;1;3;3;7;17;17;27;237;87;927;275;1965;4993;1429;31613;38403;119319];
[44510;1;3;7;13;25;61;87;133;37;725;697;371;7607;13861;8015;63997;25745];
[44531;1;1;5;3;1;29;115;53;355;533;1711;3863;6983;4849;15787;38933;100299];
[44534;1;1;3;5;7;11;95;21;363;1005;425;3497;841;8251;11933;47783;122699];
[44553;1;1;1;11;15;41;23;159;191;433;919;3151;5311;2061;11277;4947;10549];
[44559;1;1;5;1;29;57;23;239;179;821;1825;1745;4357;4041;27517;8557;86969];
[44564;1;3;1;13;3;45;91;21;221;203;683;1787;375;4101;13555;43269;8063];
[44580;1;1;5;15;17;61;95;95;285;597;1967;4061;389;3813;6061;50261;56035];
[44583;1;1;7;9;9;35;103;255;239;77;145;4089;757;16151;29963;1229;31895];
[44589;1;1;7;7;29;51;63;105;55;609;665;2101;4605;7085;18543;64221;102503];
[44592;1;1;3;9;23;49;83;71;191;917;39;1013;4689;2407;1733;31113;31263];
[44609;1;1;5;11;31;51;17;223;325;829;541;3561;5319;15397;12479;57199;38611];
[44627;1;3;1;3;19;57;19;191;427;905;1111;695;5447;4061;25543;45699;113283];
[44633;1;1;3;7;5;11;59;249;375;889;563;2757;5857;3595;23183;1785;105017];
[44643;1;3;5;7;11;55;95;167;27;823;903;2403;1137;3209;6313;61871;129865];
[44646;1;1;3;11;25;3;89;171;209;409;1357;3825;5261;10805;13493;3303;129987];
[44650;1;1;5;1;23;21;3;207;471;375;1785;2555;1613;16235;1585;48221;10197];
[44674;1;1;1;15;13;33;89;185;331;239;1401;789;2687;15193;20911;18935;28751];
[44676;1;1;1;13;27;19;111;139;385;531;1069;2343;7405;10305;7049;48215;77591];
[44680;1;3;7;13;23;9;113;107;441;265;1617;63;7629;5505;7059;47307;82527];
[44683;1;3;1;9;27;27;35;233;189;517;1285;1843;1569;14921;6617;44337;46917];
[44703;1;1;3;15;7;15;9;255;109;629;437;3601;6591;10873;1765;46459;110991];
[44704;1;1;5;15;17;13;115;97;401;979;1139;2607;6537;5369;17775;7657;57175];
[44716;1;1;5;15;27;15;43;95;271;945;1205;3505;7403;13203;27259;24821;62921];
[44733;1;1;7;15;9;13;53;177;93;169;1933;1101;4847;15477;22107;13009;93675];
[44748;1;3;1;3;13;57;121;229;353;449;769;1207;557;5673;13129;29383;35925];
[44759;1;3;3;1;31;33;5;87;461;873;795;2715;1421;14723;17917;20681;46103];
[44763;1;1;7;3;29;5;49;215;341;25;1473;177;1443;14181;26723;49143;73461];
[44781;1;3;1;5;17;53;5;27;1;325;1335;2941;7195;8179;26971;63469;49357];
[44782;1;3;5;3;3;5;29;241;119;415;1371;3201;2815;15567;32521;18635;2101];
[44789;1;3;1;3;7;13;127;157;271;403;187;3663;4073;12613;1305;31061;48361];
[44794;1;1;3;5;1;39;41;201;113;923;621;497;3823;12543;27273;58509;21613];
[44799;1;1;1;11;5;51;93;39;345;175;679;617;3445;8591;4017;5147;88847];
[44804;1;1;7;7;7;9;63;7;89;711;487;69;447;3355;31929;34719;93629];
[44813;1;3;1;3;27;11;51;11;471;889;1935;2185;1277;3127;8853;17839;40279];
[44822;1;3;3;15;25;35;71;213;121;935;1601;537;5753;8743;15243;59545;60399];
[44838;1;1;3;15;31;41;51;205;123;215;305;3777;4103;7275;21603;56853;54575];
[44842;1;3;7;9;17;19;37;59;193;303;1079;3627;6503;14649;10283;64469;83677];
[44849;1;3;1;5;11;3;115;139;213;307;721;1611;5093;11817;32503;38559;38449];
[44856;1;3;1;1;17;31;41;113;135;733;723;2021;7397;15917;15741;7295;69885];
[44870;1;1;7;11;31;3;125;77;89;793;1441;1527;457;9457;13581;62979;125279];
[44887;1;1;1;5;9;17;19;115;43;395;183;2091;7021;7555;20165;45165;58925];
[44904;1;1;1;15;23;37;97;45;357;201;425;3605;5305;10079;16397;40635;15355];
[44915;1;1;3;7;3;43;65;89;51;801;917;2835;5675;2347;16587;19701;68655];
[44917;1;3;7;13;11;59;93;155;53;435;165;3231;429;12757;27033;14081;12625];
[44921;1;3;1;15;15;33;121;157;271;295;901;1689;709;13395;17773;14397;37743];
[44928;1;1;1;3;7;17;125;113;223;603;425;3213;2781;2921;15181;18649;93493];
[44933;1;3;3;5;1;25;3;101;151;435;1339;1207;7687;12579;29331;4653;67353];
[44934;1;1;7;1;29;53;101;61;31;633;1899;3919;1879;3143;25319;45809;77425];
[44937;1;1;5;1;17;31;79;247;77;197;1693;313;2183;14343;4511;26009;44943];
[44940;1;1;7;5;31;29;119;251;345;867;271;165;6425;8343;11251;28125;34849];
[44951;1;3;1;1;13;35;9;103;365;675;1653;4095;3123;8245;4679;18951;88543];
[44961;1;1;1;1;23;29;109;157;253;751;145;2077;4555;7523;30099;37709;97369];
[44962;1;3;3;11;5;1;51;11;203;963;1961;351;6697;8137;25933;53505;28531];
[44971;1;1;7;15;27;1;31;159;447;501;1873;2845;875;1671;5049;38901;32559];
[44982;1;1;3;3;29;19;33;83;71;703;1861;3683;3589;15339;21075;40399;47853];
[44985;1;3;3;7;5;41;61;181;319;77;777;2537;3887;2687;29227;55217;55813];
[44996;1;3;3;1;25;41;23;31;31;775;693;891;861;7613;9557;43275;36311];
[44999;1;1;7;13;11;5;99;217;81;441;765;3981;2921;9657;6905;30657;18395];
[45014;1;3;1;11;21;55;25;209;13;1021;1373;785;3243;1541;12033;17309;116517];
[45029;1;1;1;7;3;3;61;113;453;405;1321;2327;3529;12779;11707;55795;105137];
[45033;1;3;1;13;15;53;17;189;197;459;1999;935;7835;9563;31231;47757;80807];
[45036;1;3;5;13;11;15;91;115;427;723;1815;3527;5917;4931;28297;12257;5587];
[45047;1;1;5;9;31;5;77;201;373;143;581;1199;6807;6059;3133;57069;4895];
[45065;1;3;1;9;17;13;127;61;235;991;279;1545;2875;8453;13329;39763;66897];
[45076;1;1;3;15;31;51;3;95;221;685;635;1747;177;9781;4859;45345;37607];
[45085;1;3;5;1;3;55;63;51;63;707;883;2985;3699;3881;8159;41775;41411];
[45086;1;1;1;11;3;41;69;181;413;33;525;1883;6063;13787;1259;19497;8119];
[45090;1;1;5;15;13;27;65;63;117;831;855;369;1005;9069;16179;32027;6527];
[45107;1;3;7;5;25;51;63;163;101;299;1637;641;2077;9195;11181;59783;109481];
[45119;1;3;5;13;27;13;117;253;257;919;709;411;5525;1247;19951;51423;34605];
[45121;1;1;5;5;1;37;49;125;87;291;339;3235;1477;9787;19637;22855;103013];
[45128;1;3;7;15;25;17;77;23;303;739;1921;1425;6451;9521;6311;38551;123683];
[45139;1;3;1;7;13;19;33;73;347;85;1693;3671;713;1191;3285;6815;61833];
[45151;1;1;3;3;13;53;81;177;305;967;551;1177;2315;4899;5733;11147;128895];
[45157;1;3;5;3;17;17;93;173;417;645;1631;1817;6127;3545;6127;22331;59751];
[45162;1;1;5;11;7;53;61;117;133;141;283;3351;6745;599;7221;50583;9067];
[45164;1;3;7;3;29;45;71;177;97;897;589;3319;1821;7207;25715;13043;96695];
[45176;1;3;3;1;13;39;19;49;419;905;1063;4023;145;1479;22197;43883;45503];
[45179;1;3;3;15;9;45;45;201;61;193;375;2439;2339;15981;5197;6285;109389];
[45198;1;1;7;13;29;51;93;223;509;1003;1861;3715;2511;13843;25297;1241;12157];
[45209;1;3;5;15;19;17;95;243;251;485;1837;1829;2081;15117;29635;63861;100397];
[45231;1;1;7;3;1;37;31;53;483;849;1197;3069;2539;2529;12749;64331;45757];
[45234;1;3;7;7;1;19;25;243;335;99;1507;2155;6085;2253;32439;16141;6781];
[45236;1;3;7;15;9;13;35;63;371;373;1891;3913;4577;15553;13079;60251;71193];
[45251;1;3;1;7;15;13;105;113;409;289;57;1095;791;15675;21471;42851;29203];
[45260;1;1;1;13;1;57;65;7;153;929;1325;229;3841;8967;29889;49427;46853];
[45268;1;1;3;11;29;1;79;111;479;931;1619;505;4503;4055;18849;3979;46091];
[45277;1;1;7;3;31;27;127;63;219;43;883;1265;5733;9051;17059;61625;93843];
[45299;1;1;7;7;23;21;35;211;243;399;1225;1415;5923;2143;25303;36171;126349];
[45301;1;3;1;3;3;13;77;205;271;393;769;2101;4045;6159;3409;44065;102799];
[45338;1;1;5;15;19;1;67;199;367;51;495;2051;3195;15239;10525;45319;50489];
[45344;1;1;1;9;3;19;105;147;417;399;373;1025;2727;13779;30079;22723;41551];
[45349;1;1;3;1;9;15;105;95;267;995;275;2627;3883;10785;8075;40591;54647];
[45364;1;1;1;5;31;37;117;185;55;273;525;445;4221;2081;16017;19859;3297];
[45367;1;3;5;13;21;13;105;231;461;831;393;3253;1213;2625;3393;36715;104889];
[45371;1;3;5;15;1;17;103;129;257;1003;285;2927;3967;53;5197;39665;50751];
[45373;1;1;1;13;1;61;47;255;137;849;213;301;681;9547;28209;32941;72109];
[45376;1;1;7;11;31;15;81;117;327;289;1861;861;6189;13425;18279;7635;116969];
[45381;1;3;3;3;9;11;13;181;183;621;329;2751;3989;6345;20319;52267;79695];
[45400;1;1;7;13;9;1;5;125;1;735;691;13;3961;2273;18299;65221;20115];
[45406;1;3;7;1;7;3;87;115;241;101;523;3019;7571;7721;27409;49751;97859];
[45416;1;3;5;11;9;5;33;59;299;191;307;2115;2823;10187;10437;34137;93217];
[45422;1;3;3;7;21;31;5;113;77;215;177;2029;7241;4465;31489;10165;19035];
[45427;1;3;5;1;27;63;11;161;435;941;1593;1765;1519;9111;12787;35961;105263];
[45440;1;1;1;9;11;57;41;229;387;617;1991;221;2857;4337;13851;23185;111031];
[45458;1;1;3;5;21;27;125;83;129;919;65;403;2981;10111;17017;24829;12205];
[45467;1;3;3;9;25;19;109;47;199;395;1909;2819;5361;6629;7067;18755;17921];
[45474;1;1;3;15;25;37;111;129;409;291;1403;2785;3819;10245;24647;64799;64951];
[45476;1;3;5;11;1;7;105;223;427;661;1817;1023;145;927;6507;13235;30147];
[45488;1;3;5;13;7;15;65;125;121;113;923;2729;1397;14247;8487;54907;41921];
[45494;1;1;5;1;13;15;47;111;453;375;1705;1539;4103;601;7499;33287;123689];
[45497;1;1;5;3;21;11;87;115;483;617;1593;2817;6519;16203;361;34415;100829];
[45500;1;3;7;15;23;25;41;193;473;517;1195;3627;1089;13391;3653;25637;5643];
[45512;1;3;1;1;13;57;29;175;35;107;5;3641;1843;1507;7591;39967;66859];
[45515;1;1;3;13;1;39;31;11;493;123;523;843;133;7971;14131;51927;97943];
[45523;1;1;3;7;23;45;5;195;195;683;497;1215;5855;14569;20441;29541;30431];
[45542;1;3;1;11;31;39;127;187;187;17;817;907;4657;8223;13305;36489;28909];
[45553;1;1;7;13;9;1;59;27;449;887;39;191;803;2339;5213;2611;93175];
[45559;1;1;1;1;29;17;105;13;175;401;1145;297;6873;889;10301;48993;49959];
[45589;1;3;5;5;1;57;81;81;403;719;1887;2597;1069;5219;29767;46905;8025];
[45594;1;1;5;11;13;37;41;3;487;895;343;1729;3777;8681;24737;34179;15015];
[45596;1;1;1;15;9;43;67;203;71;399;23;529;2375;15373;21013;17389;93809];
[45603;1;3;7;7;9;23;81;27;39;529;631;199;3555;953;4249;39297;88107];
[45605;1;3;1;3;31;45;33;63;319;245;1567;3359;2051;11523;30177;20293;13245];
[45610;1;1;1;13;9;61;39;127;453;1019;2037;3541;6983;10717;19587;8981;99637];
[45630;1;3;5;9;15;7;55;79;93;303;1423;499;5499;795;14553;16945;46161];
[45638;1;1;7;5;21;21;27;201;147;461;363;267;2963;3409;17835;40777;71879];
[45641;1;1;7;9;23;63;115;243;103;119;2023;2223;7989;1365;26181;4631;88001];
[45647;1;3;5;5;27;57;101;199;461;853;449;2733;2225;8609;19461;15265;54079];
[45655;1;3;3;15;29;59;115;105;145;391;303;901;5481;1491;30441;22331;3841];
[45659;1;1;3;1;27;45;11;167;73;181;253;1947;1731;15269;16971;12299;46439];
[45665;1;1;7;13;11;21;83;157;75;705;1709;487;5029;9879;27589;21601;50575];
[45689;1;1;5;3;27;37;101;163;115;903;1137;3807;2899;3407;27935;14203;31009];
[45695;1;3;5;9;31;33;63;69;159;737;1973;3661;6159;1781;9239;12989;82947];
[45702;1;3;5;9;15;33;41;89;183;933;1305;1013;7245;16225;10891;6641;61699];
[45708;1;1;5;3;25;41;91;183;45;553;1817;3305;5169;9051;24917;52431;52505];
[45726;1;3;3;9;3;9;127;59;117;1001;1255;3435;3797;8507;28593;24119;75569];
[45729;1;3;1;5;17;43;45;21;461;339;1127;2213;7351;14585;2001;32619;33825];
[45739;1;1;5;11;3;37;61;83;101;707;861;3037;1867;7747;16313;58745;14387];
[45744;1;1;5;3;27;25;99;17;293;867;1655;2301;2007;7379;14487;18233;3625];
[45747;1;1;7;13;25;29;21;133;207;119;423;1561;6587;1221;27295;48141;125473];
[45762;1;3;3;1;19;45;39;85;127;249;157;1307;7343;6309;31073;16909;93223];
[45764;1;1;5;13;19;43;111;109;385;847;1071;1009;2783;8471;5719;50459;110507];
[45773;1;1;5;15;1;45;39;197;209;839;485;3943;5939;11835;18297;61217;85015];
[45774;1;1;1;15;5;61;1;195;415;355;1593;151;8143;3527;11633;44337;99749];
[45781;1;1;5;13;11;11;117;109;91;663;1351;2361;1409;9317;31133;17577;123919];
[45785;1;3;3;9;3;5;115;173;459;937;1581;781;1069;573;24025;30721;116837];
[45792;1;1;1;5;21;37;47;51;21;169;119;3285;2543;14023;29179;13407;130491];
[45801;1;3;5;5;25;27;41;147;485;79;737;699;6763;16347;9265;52129;41431];
[45802;1;1;1;3;5;33;115;187;311;717;1897;2215;2639;4167;1429;26359;52703];
[45812;1;3;5;5;13;51;103;5;47;683;319;2969;7701;11031;9257;16725;80825];
[45816;1;3;1;11;31;47;17;205;11;411;523;4053;6743;3095;3219;63163;84547];
[45829;1;1;7;15;9;55;109;225;273;595;1697;2059;21;11319;23277;60613;4539];
[45833;1;1;5;13;3;59;49;239;509;847;975;3361;5443;1941;29277;56379;38997];
[45847;1;3;1;7;15;5;49;19;235;437;1309;827;4123;5839;22409;42535;98041];
[45851;1;1;5;15;9;33;57;153;165;215;177;1271;1861;15489;4183;43701;114169];
[45854;1;3;5;5;13;3;119;89;17;421;1205;835;4917;6113;28991;26839;114871];
[45863;1;3;5;1;7;49;49;159;205;601;1939;4063;5975;11747;10329;21103;16779];
[45870;1;1;5;15;13;33;89;21;113;639;891;989;829;1435;11475;42711;67049];
[45901;1;1;5;5;9;59;57;105;385;733;1175;329;6809;7175;27267;9941;14203];
[45910;1;3;1;13;21;53;83;139;287;659;1991;3225;4153;4325;16803;27719;86263];
[45920;1;3;5;13;27;21;111;105;29;573;405;2781;1737;12057;25263;16903;45389];
[45932;1;1;5;5;23;23;61;27;335;279;937;2509;4751;2993;28069;30187;3595];
[45938;1;1;5;7;29;37;117;71;221;875;1987;2329;5953;15901;29813;17419;4745];
[45940;1;3;3;13;21;51;77;85;53;573;1129;3415;2283;5221;29991;46091;65843];
[45943;1;1;1;3;17;51;89;211;463;743;1189;4083;1437;5219;8373;15559;18557];
[45949;1;1;5;3;29;27;1;207;285;739;505;1587;6565;14195;4995;39453;61023];
[45953;1;3;3;15;7;57;19;45;39;881;1207;2829;3265;2637;7843;62889;53289];
[45963;1;1;1;11;31;21;73;245;87;457;1523;2397;1157;8237;26195;23149;106523];
[45971;1;3;5;13;3;55;3;179;107;85;639;2711;6359;1599;2325;59573;111941];
[45989;1;1;1;13;17;61;45;253;45;149;1251;139;7113;6503;27675;37301;21713];
[45999;1;3;5;9;31;31;67;79;355;225;1187;761;4927;5481;9139;13399;35653];
[46001;1;1;5;3;7;3;95;119;161;529;1443;1099;609;3919;10935;37779;92993];
[46008;1;1;7;9;13;21;13;7;165;173;989;2315;2305;13115;6933;56233;112113];
[46022;1;1;7;3;9;11;25;45;493;119;839;3907;2273;14113;29453;55181;667];
[46026;1;3;5;15;25;33;15;23;245;517;1883;2865;1483;7043;32615;12261;49297];
[46034;1;3;7;9;31;35;89;103;245;441;1709;1321;3743;3767;23885;43587;18017];
[46040;1;3;7;5;23;43;103;7;47;187;1257;3517;591;16263;12047;16699;81633];
[46043;1;1;5;15;5;5;79;11;327;719;37;2913;6107;3463;25901;6125;100647];
[46045;1;1;1;11;13;29;83;251;41;125;1137;2627;4643;29;24631;51435;98643];
[46061;1;1;7;3;27;3;69;245;365;599;1575;2969;3441;12327;18951;56167;13861];
[46062;1;3;3;11;5;47;103;233;351;821;867;3199;6133;4627;22663;14775;83205];
[46076;1;3;1;13;9;35;27;251;281;727;873;3713;5247;8407;17739;57207;126201];
[46084;1;1;7;11;11;35;53;115;93;663;625;565;3137;7869;18845;49155;83395];
[46094;1;3;3;5;21;13;99;151;319;9;1363;1489;2545;1963;1271;24815;43355];
[46102;1;3;5;9;15;51;109;85;67;131;1947;181;7331;15163;2255;33449;78107];
[46118;1;1;7;9;27;61;1;163;309;739;453;1837;2093;16021;8485;19755;61335];
[46149;1;3;5;7;3;13;11;195;91;143;203;2785;7319;7153;19265;11597;63365];
[46154;1;3;1;9;29;1;123;247;253;757;191;1699;6625;1785;29199;29409;32577];
[46167;1;3;5;11;23;21;31;35;383;587;65;1695;4045;12305;12437;5919;51465];
[46173;1;1;5;9;11;13;123;171;499;877;1785;561;2547;1797;27679;56305;93223];
[46177;1;3;1;3;25;41;63;243;219;533;753;1903;3257;11901;4777;28629;111141];
[46192;1;3;3;5;31;47;1;253;283;995;1787;1767;6599;11913;21515;39259;117727];
[46197;1;1;7;7;31;35;39;255;463;763;881;2583;347;14343;22761;45821;119155];
[46201;1;3;5;9;5;37;43;55;423;525;157;3593;2831;11539;15675;11695;100609];
[46214;1;3;3;5;11;9;27;57;409;201;1029;2461;5823;2593;32031;4203;55327];
[46217;1;1;7;15;15;25;69;83;309;687;1607;819;7381;3697;5289;33153;48157];
[46223;1;1;5;5;31;57;41;195;201;59;2045;2213;6695;3839;17331;4981;26803];
[46226;1;1;1;11;7;53;109;169;387;181;391;19;4159;299;29059;27781;110193];
[46228;1;3;7;15;5;31;95;155;47;601;1463;1799;8027;3003;18067;24589;108171];
[46237;1;3;3;7;11;61;21;121;117;149;1037;3829;3581;15223;17051;34539;37263];
[46241;1;3;3;3;15;15;115;91;443;309;1073;2053;789;7415;26253;62657;49729];
[46251;1;3;5;5;31;19;23;221;19;105;1105;2025;4209;7531;30191;40777;46069];
[46259;1;1;1;7;29;45;29;215;33;21;1147;1725;3711;2759;12731;57031;42361];
[46262;1;1;5;15;13;59;111;169;317;841;1387;3513;3137;8265;31789;26963;126219];
[46266;1;1;3;1;23;21;13;113;71;177;345;3149;1461;12945;3971;59759;61839];
[46294;1;3;5;13;9;19;103;17;95;617;1477;263;4259;12899;24351;47431;11583];
[46300;1;3;5;11;13;11;7;61;13;63;1687;631;381;5899;10225;19657;37087];
[46303;1;3;5;3;7;53;11;193;103;427;1097;299;2905;5019;31803;28931;47495];
[46309;1;3;3;11;21;31;125;249;233;941;975;2287;7837;6481;11021;52829;63023];
[46321;1;1;7;15;13;17;33;85;503;11;689;637;4063;12223;1835;17161;35213];
[46331;1;3;5;13;25;37;21;135;377;623;895;2547;2757;9055;17337;65457;24737];
[46339;1;1;1;15;25;11;17;95;65;271;1791;841;1441;11177;10087;63963;71481];
[46342;1;3;5;11;31;1;37;107;109;459;1185;2155;271;11775;23243;53517;103669];
[46354;1;3;1;9;1;49;23;141;169;475;469;2271;1379;13139;1765;63625;14143];
[46370;1;1;1;9;13;7;23;219;381;105;743;1745;2999;661;7245;39653;99913];
[46372;1;3;1;11;7;35;9;215;41;537;1569;1803;3613;667;15089;39485;85457];
[46379;1;1;1;15;9;49;75;235;119;97;273;209;2707;2071;21943;60249;57737];
[46382;1;1;5;15;31;19;33;49;279;461;143;3001;3539;1015;27597;35389;36483];
[46393;1;3;7;1;23;51;123;247;485;343;1365;593;6465;12305;29375;30641;43165];
[46402;1;1;7;13;15;11;125;51;235;717;1427;3203;1711;12607;8805;5773;27467];
[46407;1;3;5;5;5;13;51;181;133;977;469;2513;6819;12985;8917;47317;47557];
[46416;1;1;5;7;3;7;71;17;345;921;1621;2801;5825;827;17711;33701;113503];
[46425;1;3;1;1;17;7;99;83;73;349;567;713;5639;4969;11549;35317;28995];
[46437;1;3;3;9;11;53;123;227;391;775;1013;3971;6183;14453;6403;57063;7123];
[46444;1;1;1;15;27;13;51;147;151;535;2017;3019;6791;3931;12529;30855;33243];
[46447;1;3;1;1;27;43;103;85;135;207;621;251;3723;10893;29533;31023;11043];
[46449;1;3;7;5;7;39;55;133;141;63;237;3299;861;15123;11859;13271;32893];
[46456;1;3;7;9;23;17;73;197;113;725;137;2835;2877;6913;22949;56071;67597];
[46462;1;3;7;7;15;3;15;253;51;443;15;2549;7833;4713;29211;22339;6009];
[46472;1;3;5;15;19;55;35;59;281;995;1113;605;2345;10009;14629;11757;53241];
[46475;1;1;1;11;3;31;11;193;437;1003;873;909;6513;2045;10495;17387;25461];
[46486;1;1;3;5;21;61;47;177;379;773;951;419;4455;10171;17403;19045;87327];
[46490;1;3;3;11;31;41;69;229;207;299;1743;1417;4785;1327;26967;43077;124319];
[46495;1;3;7;15;19;37;65;219;33;691;205;1577;4775;8427;28315;53559;100789];
[46501;1;3;5;11;5;39;55;147;139;871;1563;3661;4791;423;30007;1589;20255];
[46514;1;1;3;15;5;61;89;83;261;519;1367;2019;3799;8237;9011;28995;1587];
[46526;1;1;7;15;17;55;49;41;353;507;1565;3365;7947;10391;1323;61591;126305];
[46528;1;3;3;5;13;19;49;195;355;915;1867;3513;1239;4809;16925;22947;92641];
[46538;1;1;7;3;31;51;45;241;55;195;1233;3675;8077;4981;17679;53025;77927];
[46551;1;3;5;11;23;5;93;49;277;979;1093;3031;6131;8085;19121;45305;6705];
[46552;1;1;7;13;29;25;83;105;469;729;1495;2607;2681;13959;101;1913;2671];
[46564;1;1;1;15;7;19;63;105;253;807;1889;2433;1591;16267;11997;18939;113313];
[46579;1;1;5;3;13;23;29;227;337;115;783;475;6949;9485;1797;18713;123981];
[46586;1;3;3;9;21;43;115;225;147;753;919;1157;2901;14813;30035;52553;30225];
[46602;1;1;3;15;23;19;65;83;457;965;579;2133;291;2033;7533;52995;92243];
[46615;1;1;1;5;11;3;23;245;255;373;1119;3695;6449;13497;817;32215;103599];
[46616;1;3;1;5;5;19;57;53;145;441;1253;929;1299;11491;29457;11245;55717];
[46621;1;1;7;13;9;13;73;85;127;29;629;409;2487;13079;3767;27985;110139];
[46635;1;1;5;11;29;39;27;9;487;623;757;2879;669;12521;23471;47933;41721];
[46643;1;1;7;15;21;9;59;39;325;787;1347;3039;7333;9793;19337;41285;48339];
[46645;1;3;3;11;11;21;127;45;173;981;483;3707;3651;10545;16865;62105;114847];
[46649;1;3;5;11;11;49;89;179;393;455;1775;1903;8173;12589;17281;57687;56153];
[46667;1;3;1;3;7;7;59;223;255;559;375;2427;6921;3709;24767;16213;60373];
[46670;1;1;7;15;3;31;37;129;307;1023;1807;519;6779;8997;15383;4391;61161];
[46672;1;1;1;1;9;25;53;27;263;459;1015;417;4195;10931;20507;19299;82371];
[46678;1;1;3;1;7;7;49;221;47;7;1747;1533;3089;14369;32609;64157;78139];
[46681;1;3;7;5;5;13;101;231;227;19;1359;3017;1405;3715;3541;933;1117];
[46684;1;1;7;15;5;63;59;253;269;781;1639;2247;1041;667;7055;21221;84447];
[46687;1;1;7;3;9;13;115;247;215;173;457;1125;5613;13171;17847;26323;68461];
[46705;1;3;5;9;15;19;95;213;425;567;1625;1659;6961;10569;20985;17255;89919];
[46708;1;3;5;5;3;11;107;123;265;743;499;1885;6079;7791;24953;30925;112517];
[46721;1;1;5;15;29;27;103;195;119;873;1751;2091;6623;7583;20413;52367;16831];
[46724;1;1;7;7;21;15;111;197;89;107;1317;2107;1951;189;31663;63007;21405];
[46739;1;3;1;13;27;15;93;251;209;93;1419;3785;1899;3143;3205;16309;121455];
[46757;1;1;7;7;17;43;23;251;425;591;1101;1317;6369;14209;10257;33813;59557];
[46762;1;1;7;3;5;41;65;59;327;369;1867;1045;4953;3155;25679;8545;22753];
[46764;1;1;5;3;5;25;117;97;369;721;1459;2501;4899;5299;3859;2509;127723];
[46776;1;3;3;1;27;13;65;185;255;543;2013;2027;1131;4067;1327;44639;53275];
[46784;1;1;7;3;11;15;53;67;265;477;971;3201;51;10599;23691;10493;130347];
[46790;1;3;7;7;19;35;47;61;375;547;1867;1147;7775;12757;15101;63243;89817];
[46796;1;1;5;3;5;21;57;59;145;901;835;1093;6487;12727;20585;6309;67803];
[46799;1;1;1;11;13;31;75;171;189;741;1923;3503;4887;15423;2499;39125;4125];
[46802;1;3;7;1;29;31;103;207;383;631;1017;1693;6251;9429;17491;60959;68131];
[46813;1;1;1;1;19;45;127;105;451;287;657;3521;2021;15793;8993;34837;65441];
[46814;1;1;7;9;17;15;13;189;255;753;1779;3047;1179;13201;28249;5909;35775];
[46824;1;3;3;3;5;11;125;207;375;375;135;2939;1141;12211;727;16137;52253];
[46832;1;3;7;9;29;3;83;221;281;299;667;3435;589;8039;7991;24289;13079];
[46841;1;3;5;13;9;11;11;99;337;155;233;2497;3385;15045;5783;40915;19201];
[46856;1;1;7;5;5;23;25;223;341;149;505;893;4933;14899;29899;207;125359];
[46862;1;3;3;15;3;5;43;165;21;993;1091;3849;6005;1905;7199;13495;76915];
[46864;1;1;1;15;1;19;55;217;179;431;935;2219;8135;15071;17437;43271;115963];
[46869;1;1;7;15;7;61;45;157;441;107;1955;2877;5285;12157;21783;60999;102949];
[46874;1;1;1;3;9;29;41;75;81;73;1859;2923;3009;10847;30257;44527;21933];
[46895;1;1;3;3;29;29;103;3;401;197;237;3727;7919;13669;26869;64987;1581];
[46900;1;1;5;13;13;47;99;209;45;745;1239;663;5535;3777;10479;15327;1441];
[46903;1;3;1;9;1;49;31;231;15;1001;773;2113;1957;15271;25355;7461;33089];
[46927;1;1;1;5;13;31;123;123;439;373;1817;2555;7905;3151;2311;62083;45535];
[46946;1;3;1;3;31;37;83;117;177;483;1285;1725;821;2115;12893;54301;36491];
[46948;1;3;3;3;9;13;87;7;467;287;1173;2739;3293;883;9123;30799;110221];
[46955;1;3;1;15;3;5;119;235;393;789;67;1193;1613;8607;17371;16723;103747];
[46965;1;3;1;13;13;47;61;51;447;1;1221;1619;3785;5851;10557;51181;6535];
[46972;1;3;5;11;1;1;85;119;195;177;805;1161;4851;15765;24405;41757;110081];
[46976;1;1;7;1;17;21;89;13;59;169;1847;2401;6243;2841;6153;16039;47407];
[46985;1;1;3;15;21;53;103;187;143;897;65;3677;213;4027;22365;53703;82951];
[46999;1;3;5;5;25;5;39;49;55;71;825;2123;2345;5683;18027;29897;53023];
[47003;1;1;3;5;13;55;27;77;327;429;1219;2103;7095;13461;31027;15383;98485];
[47006;1;3;1;3;9;41;33;241;487;229;1743;951;2319;15595;3213;5959;90721];
[47016;1;1;7;1;29;45;45;163;123;227;305;1577;5465;5639;14507;65155;71425];
[47030;1;1;5;1;3;5;33;15;203;141;465;3509;6653;14193;7073;22525;22951];
[47034;1;1;7;3;27;39;3;27;75;821;1329;3655;4715;7659;31957;60219;79123];
[47053;1;3;5;13;29;45;111;19;207;387;87;3731;7427;13351;9497;34285;25623];
[47056;1;1;3;11;19;39;79;219;97;125;947;1397;3645;1021;9403;38695;54985];
[47059;1;3;3;7;3;3;45;93;65;289;1843;1599;897;16159;23485;24699;43123];
[47072;1;3;5;3;15;1;81;219;299;429;1115;1763;6381;869;7817;143;23583];
[47077;1;1;3;5;1;35;95;147;425;1011;1039;2875;3089;3685;9995;13279;60923];
[47099;1;1;5;7;5;59;105;241;151;307;735;1541;3115;12331;19535;56965;127015];
[47105;1;3;5;7;5;33;83;179;65;397;787;3425;1305;10713;6973;9007;112081];
[47108;1;3;7;13;29;11;37;31;271;501;897;1383;5333;13627;22091;38421;94575];
[47112;1;3;1;1;9;61;87;115;13;79;391;2385;7157;3369;26035;883;34705];
[47115;1;1;3;9;21;29;15;165;53;719;1509;1295;4437;8229;17961;55297;62635];
[47117;1;1;7;5;27;21;23;141;341;423;9;2693;5555;5797;13179;1107;33489];
[47120;1;3;1;13;27;33;101;29;379;119;1259;861;6843;69;3253;61977;80061];
[47129;1;1;3;11;1;37;35;43;105;655;221;873;91;9095;8999;44033;24807];
[47135;1;3;3;7;29;15;23;227;399;305;2007;747;2717;14767;6515;40617;7873];
[47151;1;1;5;15;21;43;39;7;261;421;505;1433;1155;5621;2337;54027;54039];
[47154;1;1;1;9;15;39;49;185;503;895;1321;375;4245;4929;9637;50561;65733];
[47156;1;1;5;15;7;29;27;155;423;631;1295;973;4227;2637;8479;29527;70505];
[47166;1;3;1;3;31;33;13;67;195;335;1577;3715;559;7251;7215;46443;125359];
[47171;1;3;1;9;17;37;15;119;79;851;911;3549;99;9221;29897;63489;34937];
[47195;1;3;5;9;31;11;125;1;265;467;835;2997;2401;9615;19397;50947;29963];
[47204;1;1;5;3;11;21;63;15;471;763;1963;2815;4419;11457;7151;27009;124847];
[47213;1;1;7;3;19;9;97;59;375;109;519;305;2787;3001;14199;27415;35403];
[47222;1;1;1;3;13;47;3;93;307;979;419;2817;3741;305;1813;34549;116959];
[47228;1;3;5;13;13;19;35;231;493;973;895;1583;1843;9057;27705;32333;130347];
[47241;1;1;1;13;31;35;81;11;363;229;1865;2849;7805;877;3965;45337;33239];
[47242;1;3;5;1;15;3;125;93;191;405;1359;929;3085;7907;7777;7815;103717];
[47247;1;1;3;7;15;33;61;235;283;141;817;1611;665;13113;4197;45831;44505];
[47249;1;1;5;5;25;3;63;159;223;531;1147;2323;2715;10319;32203;23943;95407];
[47250;1;3;3;3;3;33;37;99;317;811;515;339;6527;11149;13071;7177;1549];
[47261;1;3;1;11;31;53;9;17;297;259;1235;53;7065;1721;8191;21663;13393];
[47266;1;3;7;7;29;41;127;179;113;191;783;861;6509;5199;3369;18327;30647];
[47268;1;3;1;7;23;41;49;155;135;513;1127;1443;8081;2553;10389;35459;122513];
[47278;1;1;7;3;25;3;117;125;283;165;1409;1587;7915;12899;12239;48161;7385];
[47286;1;3;7;3;23;19;29;47;7;723;455;4013;2739;12303;29883;51485;1571];
[47312;1;1;1;11;1;31;111;199;207;209;1163;2865;5335;2647;9125;6737;99881];
[47315;1;3;1;11;31;19;59;153;65;133;1399;2709;905;3257;13603;46299;15139];
[47321;1;3;1;1;23;19;123;115;59;667;333;2461;1843;16049;12353;17297;107779];
[47322;1;1;5;1;5;29;91;241;97;557;1701;2441;2995;13103;9261;55833;843];
[47324;1;1;1;5;15;19;23;189;69;91;427;3149;5199;13073;32273;41503;98749];
[47331;1;3;5;11;19;3;71;125;307;241;861;681;5657;5189;7555;2037;72921];
[47338;1;1;5;5;29;61;93;61;421;685;883;1559;5875;10561;11761;18879;31577];
[47366;1;3;7;15;9;29;41;241;365;941;1087;3743;6781;9467;1409;20605;2361];
[47372;1;1;5;13;25;29;7;21;41;621;1751;3731;2667;8613;20999;3851;39677];
[47375;1;1;7;5;17;23;25;43;401;749;975;91;5277;2711;19847;41419;11851];
[47378;1;1;7;9;13;37;113;89;435;749;1553;1853;7709;5449;25055;45207;2269];
[47387;1;3;1;11;3;59;79;13;35;901;165;907;7579;12739;24679;54163;61059];
[47389;1;1;5;7;9;47;101;61;25;461;1737;2825;4439;5363;28433;61979;120401];
[47390;1;3;3;3;1;55;103;1;449;473;375;2609;4933;3411;19663;6067;61129];
[47396;1;1;3;9;27;29;53;151;391;507;425;3469;6605;5783;31747;37677;116037];
[47400;1;1;1;5;5;43;61;67;319;553;1163;3095;4447;7505;15617;26167;11145];
[47405;1;1;5;7;3;3;9;161;155;869;337;3693;6847;8449;15077;54769;123335];
[47408;1;3;3;7;11;19;17;71;105;649;323;3033;1695;15973;6361;3163;17669];
[47411;1;3;7;13;13;9;3;251;149;513;637;2211;6397;1741;8547;3165;38241];
[47431;1;1;5;5;1;57;73;35;287;347;221;3261;7693;5443;6175;18181;23733];
[47443;1;3;7;5;5;19;1;167;5;825;815;1369;7657;6169;9583;34761;81003];
[47459;1;3;3;5;15;17;23;157;475;297;1495;811;8135;11453;9683;55505;84361];
[47466;1;1;1;11;1;63;59;189;205;1023;1065;1095;2293;14629;29399;2925;28327];
[47479;1;3;1;3;31;33;85;183;383;731;1223;3353;3703;5655;31265;12249;22127];
[47480;1;3;5;7;7;29;61;3;375;95;1815;4065;6287;3797;32397;50581;123371];
[47495;1;3;1;9;13;37;57;139;43;561;425;3603;1167;10281;31825;32673;106169];
[47504;1;3;5;3;15;41;29;223;79;851;1741;2241;5659;9773;18369;37239;14831];
[47519;1;3;1;1;7;11;83;63;51;521;1911;475;5207;3219;10257;40461;9087];
[47520;1;3;5;7;23;17;97;195;5;451;1971;1881;921;8729;3443;64529;67747];
[47530;1;1;3;9;21;63;45;181;429;605;169;3493;2381;2887;19515;53151;60147];
[47537;1;3;3;7;15;11;117;161;333;139;587;2331;3175;12093;12649;52381;107117];
[47555;1;1;5;15;23;57;19;57;507;461;799;611;1589;10909;7649;17817;24677];
[47558;1;1;3;15;1;61;9;201;401;387;527;2855;2339;3813;11825;14273;73745];
[47567;1;3;1;5;1;37;27;105;475;335;1169;3233;3225;12861;10133;36673;55025];
[47569;1;1;1;9;27;53;55;197;229;5;93;1157;7929;9745;5295;15359;75567];
[47572;1;1;7;5;11;3;109;81;457;159;1899;557;1067;295;2661;1145;8745];
[47582;1;1;1;15;31;29;77;171;411;425;1041;2791;2567;5357;21871;27689;103485];
[47591;1;3;5;11;19;47;23;97;405;667;2045;2951;2063;7775;20629;34283;26925];
[47595;1;3;5;7;5;51;125;67;165;145;733;1649;5787;4333;24355;33397;101001];
[47598;1;3;7;11;13;7;117;147;449;201;953;553;1839;6903;10417;42751;36823];
[47609;1;1;3;5;3;21;109;35;95;953;211;2849;5681;16287;16553;30345;69729];
[47612;1;3;7;5;25;37;21;143;317;621;1417;283;3801;15375;3799;13345;59727];
[47616;1;3;3;9;3;37;113;127;123;979;1225;2585;2055;2571;16727;38863;74347];
[47625;1;3;3;3;23;13;49;111;277;143;1171;605;91;13693;1971;18209;114203];
[47640;1;1;1;9;27;33;73;9;93;343;55;3045;2029;3665;28483;6601;72085];
[47649;1;1;1;15;17;55;87;231;103;1005;1451;3617;7477;2045;10683;39053;1289];
[47655;1;3;7;7;25;55;39;89;489;609;1969;159;7485;10713;28371;14935;95347];
[47661;1;3;3;13;25;9;83;167;25;135;2017;3313;1493;7799;22479;49471;20149];
[47688;1;1;1;15;25;13;63;117;97;449;1331;229;6027;1023;26705;15283;60385];
[47711;1;1;7;5;5;37;3;79;337;861;1549;915;7303;1503;19245;60721;45313];
[47717;1;3;7;15;19;1;11;39;505;757;1627;2137;3209;7651;31291;45913;26851];
[47721;1;3;1;5;25;21;85;233;171;269;367;1651;3961;2487;1977;7027;2725];
[47724;1;1;5;15;13;23;81;145;201;323;425;2785;1149;12617;11451;23205;117691];
[47727;1;1;7;11;29;37;69;141;15;773;1299;2147;8129;12227;27811;58701;103637];
[47730;1;3;5;13;3;33;29;227;261;221;823;1399;5107;2423;23809;42175;28207];
[47739;1;3;1;15;21;1;121;255;259;441;45;1899;2489;4155;18317;52695;607];
[47745;1;3;5;9;25;43;115;111;329;997;753;1513;6949;3197;28275;48855;25089];
[47752;1;3;3;3;25;9;21;213;111;173;913;1465;4437;9725;1455;53517;81843];
[47758;1;3;5;5;5;25;3;159;19;203;181;3447;6395;2145;11289;16797;59567];
[47765;1;3;3;1;29;25;43;115;257;833;379;941;4389;5795;12593;2471;127149];
[47770;1;3;1;9;3;15;81;141;155;515;1677;2569;1105;15653;24143;3439;17317];
[47782;1;3;1;13;27;13;103;87;27;971;671;629;4943;13897;4003;21507;40193];
[47786;1;3;5;9;1;49;11;15;511;837;1953;1585;1867;9095;543;16993;115187];
[47791;1;1;5;11;21;49;37;61;9;629;1025;1635;4047;15491;28481;43235;53165];
[47793;1;1;5;7;15;57;121;119;405;29;655;3085;7131;14761;2273;47113;8603];
[47796;1;1;3;3;11;45;51;107;367;235;675;3777;6081;16319;19499;36893;25579];
[47814;1;1;7;11;1;13;43;159;415;423;1223;2201;1089;10189;12457;26691;3603];
[47823;1;1;3;3;3;37;109;67;487;785;637;3931;929;14153;25283;483;14371];
[47826;1;1;7;9;31;59;9;245;479;113;1419;3265;8131;11123;32519;12141;82059];
[47837;1;1;1;7;25;25;31;13;81;217;997;1161;1049;5487;8487;57807;126115];
[47854;1;1;3;15;1;23;63;39;503;933;1915;687;547;779;7689;38607;125229];
[47856;1;1;3;3;31;49;51;87;99;327;783;3487;7307;2759;22781;56343;126805];
[47871;1;3;3;11;27;43;99;197;275;19;775;329;3815;14277;3363;26375;75427];
[47879;1;1;5;15;15;19;65;109;103;411;1591;2569;1981;4773;7861;6303;127421];
[47880;1;3;1;13;1;53;107;151;317;201;1053;2701;5039;2179;10085;31727;85579];
[47885;1;3;1;9;5;55;71;143;187;29;1363;2403;2675;2187;12123;32825;56461];
[47886;1;1;7;11;5;57;91;95;85;597;925;11;1915;9159;9997;29565;111655];
[47903;1;1;5;9;25;57;79;189;205;687;471;601;5343;9031;7853;6079;40567];
[47907;1;1;3;1;31;53;67;191;511;369;1273;3859;4253;14469;3427;17691;22599];
[47913;1;1;3;9;17;53;101;219;41;663;635;3889;2197;8125;8313;14957;111445];
[47916;1;1;5;5;7;49;113;9;399;257;617;63;2773;4411;1193;54449;89003];
[47928;1;1;7;11;13;29;77;73;161;419;985;303;2237;15217;26621;20441;113955];
[47936;1;3;3;9;17;39;37;139;289;421;1021;2635;2805;5815;9101;48077;114009];
[47945;1;1;1;15;25;43;71;35;103;827;1301;3567;3425;3689;14453;10733;81257];
[47948;1;3;5;5;15;31;41;161;481;231;1135;3045;439;11785;14863;39729;59539];
[47956;1;1;5;7;27;9;81;141;395;105;41;3719;3105;13685;7451;31381;82907];
[47965;1;3;1;13;15;25;127;231;433;837;1923;1301;2479;3243;21605;55789;11311];
[47970;1;3;5;7;17;5;27;111;217;445;1245;1029;7663;10291;16483;37503;110205];
[47972;1;1;1;7;31;21;51;235;487;457;1687;2947;5067;13779;7671;7257;119141];
[47981;1;1;5;13;25;31;59;183;33;887;469;813;7939;11775;5795;26227;57703];
[47987;1;3;3;15;17;7;19;87;365;177;1157;1023;3055;15439;27187;32593;112507];
[48010;1;1;1;9;19;49;103;239;207;409;1613;2793;5477;11221;21611;19963;99333];
[48012;1;3;3;11;17;1;103;77;93;197;1883;4053;4613;11571;1841;23189;4235];
[48023;1;3;5;9;9;49;29;231;167;593;1909;2457;323;10549;6551;45597;96591];
[48033;1;1;7;11;15;39;33;61;13;879;1589;2169;125;2427;13029;24919;14147];
[48051;1;3;5;5;25;53;49;255;263;917;1997;171;2945;14243;12983;21821;119547];
[48071;1;1;1;15;5;25;113;235;311;377;1059;1365;3457;8699;18617;25119;110659];
[48075;1;1;5;1;9;61;1;137;301;85;1527;3831;923;13753;20909;14007;22939];
[48077;1;1;7;9;23;17;31;107;55;293;425;3513;3503;10075;6299;40007;54355];
[48080;1;3;5;5;27;39;95;187;239;949;531;3541;99;6339;32295;10377;111287];
[48099;1;1;5;15;19;39;23;89;185;47;87;1721;2471;13221;13201;31;12897];
[48106;1;3;1;9;7;7;109;241;39;687;175;139;583;1629;19775;6371;121879];
[48114;1;1;1;13;13;9;73;153;367;425;217;3981;5203;1111;12333;59799;105259];
[48120;1;1;3;5;7;33;27;123;335;727;1619;3999;7799;2807;2251;45835;113193];
[48128;1;3;1;7;25;3;49;163;447;555;647;1461;5881;15755;32233;48915;96203];
[48145;1;3;7;7;21;11;61;101;323;165;1489;2933;3363;8471;4311;65279;123813];
[48152;1;3;1;1;15;1;101;225;473;479;1237;113;7591;2883;3891;53703;14607];
[48155;1;3;5;3;17;51;23;31;487;957;1623;2329;2801;6213;7523;14131;23893];
[48182;1;1;5;7;9;39;93;105;13;481;53;3785;5621;11889;993;23611;73651];
[48188;1;3;7;15;21;57;97;69;339;289;1805;2661;1165;6079;1127;51285;54453];
[48203;1;1;3;3;3;3;1;179;123;1011;1363;231;6983;9499;91;52573;32565];
[48217;1;3;3;15;5;37;97;7;189;547;1965;3821;4907;8181;12857;7907;19361];
[48218;1;1;5;3;29;33;45;99;359;337;1377;577;3117;9545;30093;26147;128509];
[48236;1;3;5;11;7;49;99;249;37;755;383;2845;4153;695;11099;33653;105155];
[48241;1;3;1;1;19;3;3;177;97;323;1367;213;4391;11223;26497;12289;39047];
[48244;1;1;3;7;3;33;73;199;339;479;1797;3905;2849;5667;18015;36653;83491];
[48264;1;1;5;3;27;59;27;241;49;161;451;3993;2489;10681;11895;60405;47021];
[48269;1;1;7;5;9;23;115;131;383;895;1591;585;2571;7485;31535;12871;95717];
[48278;1;1;1;15;13;49;3;157;311;159;1239;159;5643;6405;11763;34609;75259];
[48282;1;1;1;13;11;41;119;3;165;943;2035;179;357;14591;20099;4787;12659];
[48288;1;1;5;11;13;9;67;139;259;947;1559;283;1557;11297;29753;21953;100317];
[48311;1;1;7;11;13;39;105;83;109;723;1643;3599;1471;13653;4583;18595;91935];
[48315;1;1;5;9;25;5;69;189;209;779;1421;467;849;12887;10317;3005;100813];
[48317;1;3;7;11;19;1;93;239;333;713;1525;813;5913;10811;7077;20573;86999];
[48329;1;3;1;5;25;1;107;153;225;889;1319;497;2193;11511;17553;23733;83179];
[48330;1;3;3;3;5;45;51;37;443;851;263;4067;2629;10887;29081;30489;1161];
[48337;1;1;3;9;25;19;115;31;347;641;1103;1121;7051;14071;16663;48517;24655];
[48350;1;1;3;15;11;33;123;181;225;437;875;1997;209;5487;1989;6745;38423];
[48353;1;3;7;5;27;5;105;203;51;683;1523;347;6881;4353;4531;29589;108053];
[48360;1;1;3;9;15;33;127;145;125;429;915;1307;1495;3553;26797;36819;121375];
[48374;1;3;5;15;7;1;55;99;7;405;885;59;5359;13969;32037;53399;77293];
[48380;1;1;7;1;29;31;89;69;405;837;1949;2337;1139;14129;16867;15167;21117];
[48405;1;1;3;5;3;25;61;175;135;109;959;501;13;16057;25031;16321;27617];
[48406;1;3;1;5;17;39;59;113;25;707;1641;3489;6193;10085;13837;57851;77475];
[48409;1;1;3;5;17;35;111;163;253;641;715;1101;4411;10771;20241;46415;114719];
[48412;1;3;1;1;7;11;77;59;71;869;1505;751;4367;9603;29735;7333;62487];
[48416;1;3;7;9;3;51;93;195;497;659;1563;3801;6933;9089;10891;9853;93611];
[48419;1;3;1;7;21;47;61;117;293;281;1547;3437;4947;12119;21425;5591;23951];
[48425;1;1;7;13;19;59;121;249;147;759;1963;465;7785;7015;81;47869;123845];
[48434;1;1;7;13;5;35;45;69;167;263;979;2855;1845;5531;17167;7363;89233];
[48443;1;3;3;3;17;43;109;193;389;867;1403;1271;7127;13977;22547;53997;24475];
[48445;1;1;1;5;25;43;47;163;417;967;819;2433;439;8499;29705;32697;109963];
[48453;1;1;1;15;19;5;83;237;431;697;1383;2499;6907;9033;12147;23479;17649];
[48454;1;3;5;13;27;35;103;95;239;903;537;601;417;15859;16533;16753;128229];
[48482;1;1;3;1;11;55;57;9;229;135;805;2745;2023;12645;29135;39051;17065];
[48491;1;3;5;3;13;25;77;29;449;31;1733;1451;3895;11551;1011;22817;35959];
[48501;1;3;3;3;1;31;93;47;255;393;571;443;6079;6245;11773;42087;40651];
[48517;1;3;1;5;17;49;119;219;375;337;29;3409;3187;15243;25853;44385;103675];
[48518;1;3;7;15;15;21;79;109;81;119;603;1665;7813;3485;11801;48693;108307];
[48545;1;1;1;15;9;5;103;141;181;841;7;1217;7713;4843;9089;53641;3029];
[48548;1;3;3;1;29;47;13;179;439;387;1553;3141;947;4893;29119;30865;14207];
[48552;1;1;1;15;29;1;41;135;43;673;1527;883;3211;5195;30219;47133;56819];
[48569;1;3;5;13;13;47;97;219;277;397;1901;821;1961;705;7291;19435;123563];
[48575;1;1;7;15;5;49;93;59;221;205;115;559;5633;5819;6923;18301;72639];
[48580;1;3;5;13;29;49;25;203;125;385;487;1897;2177;6859;6105;763;36673];
[48584;1;3;3;9;23;63;9;115;489;89;1113;1351;8181;2569;18263;32619;24795];
[48590;1;1;5;11;25;51;97;155;15;139;1275;3479;5851;3099;7417;57155;90185];
[48595;1;3;1;11;1;37;67;221;493;475;1881;2277;4365;9411;16629;65229;28803];
[48602;1;3;1;1;15;53;39;141;453;151;335;795;1515;2719;24197;21153;129549];
[48604;1;1;1;7;19;31;59;123;73;149;469;1199;3603;1539;29157;50031;22109];
[48618;1;1;3;15;23;51;45;211;423;553;1289;1125;6347;6711;23761;14109;17261];
[48625;1;3;5;13;5;7;35;185;263;791;161;325;4771;11913;31595;56675;68615];
[48626;1;1;5;9;19;27;89;147;55;197;1695;99;755;15115;1933;41439;85063];
[48638;1;1;7;7;17;11;103;55;281;707;1973;2055;5015;5713;3717;44149;8033];
[48668;1;3;1;5;21;49;55;93;161;565;81;3241;3709;8185;16935;60369;118127];
[48677;1;3;7;9;27;1;105;133;397;351;1021;739;161;9971;24733;29239;68853];
[48678;1;1;7;1;1;19;97;243;73;969;313;399;2955;2467;18265;60637;35457];
[48687;1;3;1;11;29;25;35;35;469;143;1195;911;1023;14685;10933;16449;102113];
[48692;1;1;5;3;31;21;65;181;13;235;501;3621;3567;8771;32747;59231;91551];
[48696;1;1;1;13;29;21;13;33;193;565;203;3927;4749;9897;26109;14221;27733];
[48704;1;1;1;5;29;41;7;125;391;295;533;2135;3107;7711;27811;55767;78821];
[48707;1;1;7;3;19;25;117;195;155;685;147;2049;3751;4585;24893;36895;80371];
[48714;1;3;5;5;23;41;9;125;315;809;1019;1453;4605;13753;30641;50677;94781];
[48731;1;1;1;7;27;45;103;199;37;291;651;185;6715;15387;30873;63051;123231];
[48740;1;1;5;7;17;5;75;129;401;107;1681;2039;299;12399;30947;26327;91589];
[48750;1;3;3;15;17;19;109;19;493;797;209;929;2821;395;22173;27803;87953];
[48761;1;3;7;5;7;5;71;159;483;389;1817;4093;963;4253;31267;63919;62113];
[48785;1;3;3;15;9;49;89;49;15;61;2041;2357;2173;3349;32565;23207;21177];
[48786;1;1;1;13;15;21;31;143;387;371;567;1903;3793;9559;7055;31251;13663];
[48798;1;1;3;13;3;7;49;31;255;581;627;1947;2965;2787;8275;59785;19979];
[48807;1;3;3;13;29;47;53;133;301;253;1215;3409;5745;247;31585;5555;31011];
[48808;1;3;7;15;23;49;1;89;141;423;707;645;7955;10485;27223;35867;45461];
[48814;1;1;3;3;29;25;123;63;197;429;169;3229;3797;4029;29947;52781;16065];
[48826;1;3;3;7;29;17;83;95;199;253;133;265;6723;6207;12863;61311;21937];
[48828;1;3;7;13;19;61;89;151;249;597;1389;717;5111;3285;6251;50237;108703];
[48834;1;3;5;11;1;23;35;61;143;45;625;1693;4943;2213;9317;7601;28359];
[48840;1;3;3;15;29;43;115;23;167;355;977;439;4767;9967;22997;54725;125637];
[48845;1;3;7;1;29;45;83;71;395;247;1;113;6393;12445;16137;35125;102053];
[48858;1;1;1;7;17;55;17;159;33;237;207;1297;5611;6023;17709;60905;3533];
[48864;1;3;1;13;27;57;27;235;141;917;1655;659;939;559;2651;705;80141];
[48869;1;3;7;3;3;17;111;117;467;129;1105;3457;2093;8513;19941;22111;54597];
[48870;1;3;7;3;5;17;59;195;23;547;1799;1427;391;4043;10407;31055;38495];
[48879;1;1;1;7;21;9;71;33;209;773;1243;3239;3763;15229;9609;24395;56145];
[48887;1;3;5;13;13;45;71;91;23;553;665;1753;5173;4355;14317;42517;32307];
[48899;1;3;5;11;31;3;37;95;63;425;1611;2983;5075;1375;14305;11099;101203];
[48911;1;1;3;1;21;7;15;141;389;871;617;271;1037;13569;13019;58899;54097];
[48920;1;3;7;1;13;25;21;251;467;373;1539;4065;1871;791;26315;64187;119455];
[48926;1;3;1;3;25;37;43;9;187;323;409;443;2861;14145;26185;24049;109613];
[48929;1;1;3;7;21;61;3;81;445;673;1269;613;1279;8209;22911;48017;54181];
[48971;1;1;1;15;25;63;71;147;217;491;183;977;4967;3471;8791;11843;68005];
[48974;1;1;1;5;25;43;13;237;57;919;1641;399;4269;7357;3465;63901;61329];
[48981;1;1;7;15;27;57;47;187;295;117;1223;2963;4995;13279;25107;56089;37293];
[48998;1;1;5;13;29;19;83;121;129;931;1933;1141;3125;3321;22019;52729;119643];
[49007;1;1;1;1;21;19;49;241;227;57;1919;113;6993;4687;1043;5247;15565];
[49028;1;3;3;15;5;21;65;129;485;173;1663;2419;4279;4167;25827;28457;68219];
[49031;1;1;3;1;17;9;65;21;487;875;1111;1679;6451;14825;23931;16053;79687];
[49056;1;3;3;5;13;5;49;15;267;389;1111;1505;5815;6285;26075;167;70325];
[49065;1;1;3;11;5;15;57;171;407;497;1979;2819;1267;6893;6601;30971;24477];
[49079;1;1;1;15;7;5;69;181;195;847;1245;4019;2469;1407;17013;43437;16307];
[49083;1;3;1;11;15;17;115;197;215;35;1489;659;4725;11339;30259;52539;13365];
[49088;1;1;1;13;23;43;21;33;17;969;1321;2469;4371;7685;6817;20179;113483];
[49093;1;3;7;3;31;11;79;55;123;263;1061;2087;183;11623;20703;60291;115261];
[49100;1;1;5;13;5;53;21;71;399;165;1997;2667;7361;8863;27859;17235;77623];
[49103;1;3;3;15;21;55;27;31;371;289;253;1453;105;7035;14787;2281;128359];
[49124;1;1;3;15;23;29;3;143;47;255;115;2741;6773;16267;5975;3689;97497];
[49136;1;1;1;15;9;57;109;43;359;365;1577;4091;7399;10521;7983;56119;65451];
[49139;1;3;7;7;29;55;115;155;121;679;663;2345;3765;4493;9555;24043;41467];
[49142;1;1;3;1;19;55;67;255;355;701;2027;3703;7839;1701;7657;36429;36623];
[49145;1;3;5;5;29;7;31;123;21;901;1581;3993;5105;9715;18347;27415;19253];
[49146;1;3;5;3;3;53;121;105;51;577;157;2151;5105;7855;8595;24457;55931];
[49171;1;3;1;9;23;25;67;115;79;809;1215;943;1075;7103;729;18791;115977];
[49187;1;3;1;13;3;57;105;161;277;393;1671;2765;5781;13429;24075;10931;50951];
[49190;1;3;5;9;19;61;9;227;455;541;721;2855;949;10159;13801;48199;26747];
[49194;1;3;1;3;25;61;53;177;441;697;1845;3573;6673;9691;911;46387;64727];
[49196;1;1;1;11;7;13;95;221;455;967;869;883;6301;5261;18401;35745;114645];
[49207;1;3;1;11;15;7;115;217;235;539;491;603;2201;241;25445;29773;122695];
[49216;1;1;5;3;19;9;71;193;131;927;1931;3981;7537;10811;27285;45865;106171];
[49219;1;1;7;5;5;21;107;77;363;733;1011;3259;5263;15043;19153;32117;129409];
[49222;1;1;3;13;21;5;9;103;369;699;329;1065;895;13211;19017;5359;38335];
[49240;1;1;7;15;21;11;73;153;371;753;805;3519;5839;1809;7201;8189;68361];
[49250;1;3;7;9;27;45;25;175;317;381;961;619;4827;15161;19091;29369;21097];
[49262;1;1;5;5;7;7;21;69;23;589;1413;653;911;13599;18349;47307;64047];
[49276;1;1;1;13;27;23;87;249;135;727;375;3641;1489;13053;5151;62689;101347];
[49289;1;1;5;11;7;39;1;109;203;961;973;1181;2357;5123;31481;58345;52705];
[49292;1;1;1;15;25;15;85;49;77;235;1761;2731;4157;2057;27587;30299;52997];
[49298;1;1;5;3;1;13;47;219;51;521;625;3243;7093;10823;9559;58191;95573];
[49319;1;3;5;13;27;63;13;7;167;909;1559;2103;1807;943;28997;31015;85407];
[49320;1;1;3;5;17;21;101;163;477;223;175;3435;7071;5121;28015;33365;121057];
[49325;1;3;7;1;11;35;111;41;261;45;1009;2827;4019;5029;22289;20235;13481];
[49333;1;3;5;5;15;41;109;7;329;447;65;1317;6169;15947;31191;47091;60643];
[49340;1;3;7;7;21;13;29;113;511;407;1211;2065;455;10049;5745;48589;48669];
[49343;1;1;5;5;21;45;89;19;279;165;1897;957;8045;565;4959;37173;100773];
[49352;1;3;1;15;9;17;99;143;489;633;1721;1255;3655;10083;29079;17109;10035];
[49363;1;1;3;3;3;23;47;9;255;169;1103;1799;7899;7673;19259;61919;112831];
[49375;1;1;5;5;31;37;83;229;93;575;1589;2353;185;7783;9413;9617;123197];
[49391;1;3;5;7;31;7;113;255;231;309;1215;737;3635;14631;28737;45127;111399];
[49405;1;1;7;1;11;5;55;235;369;983;873;655;6277;11425;11191;38231;88941];
[49413;1;3;1;9;3;1;119;93;245;167;853;2543;203;5313;14129;6283;107117];
[49420;1;3;3;13;21;33;59;167;435;163;1873;3341;2895;13205;14147;19567;100127];
[49425;1;1;5;9;7;15;39;81;475;511;1585;63;6861;10055;3577;48999;80979];
[49431;1;1;5;13;21;29;17;3;499;739;1257;2925;8179;13367;18879;19917;109907];
[49432;1;3;7;13;15;57;109;19;265;579;233;2507;5059;14713;9549;41915;56199];
[49441;1;3;3;5;31;25;85;163;187;795;1597;1963;473;4673;4555;51365;73817];
[49456;1;3;3;13;25;35;71;251;33;971;235;1919;6705;14657;23417;56377;21071];
[49476;1;3;3;11;3;29;85;193;11;831;29;1233;6199;11991;9205;3323;23749];
[49479;1;3;7;7;11;15;1;17;87;665;1593;2331;845;7821;89;7057;114975];
[49504;1;1;5;11;9;37;39;79;455;397;1431;1541;7629;15133;21395;35619;123801];
[49514;1;1;1;7;11;59;67;45;169;869;1547;2947;3025;12967;29927;22181;44783];
[49528;1;1;5;7;3;57;123;253;369;537;83;1147;3469;9775;14137;38899;101143];
[49543;1;3;5;3;19;35;11;215;343;677;1873;1211;3129;9017;29595;1291;39397];
[49544;1;1;7;3;25;7;61;229;187;839;747;3347;4321;13201;19665;56951;85273];
[49550;1;1;1;1;11;5;51;41;227;895;553;2673;6581;6583;15429;33211;100599];
[49558;1;3;3;5;21;27;91;65;213;341;723;567;4761;11549;15041;23079;55245];
[49568;1;1;3;1;15;43;83;57;473;453;1351;2055;5769;3887;29481;57915;14017];
[49578;1;3;3;3;21;29;121;137;99;527;711;1169;7869;6245;25423;38989;87019];
[49600;1;1;5;11;9;61;125;7;207;245;1019;635;7099;13133;11809;56705;18801];
[49612;1;3;7;9;15;31;37;205;439;651;255;971;4311;7137;11821;45041;31081];
[49633;1;1;5;9;7;55;51;147;371;881;359;3021;1141;14515;14605;64067;98231];
[49634;1;3;1;3;29;9;109;21;437;321;753;3227;2929;14787;2451;54331;115921];
[49636;1;3;5;7;1;29;13;167;89;185;409;209;6625;5237;22513;2095;26427];
[49643;1;1;1;3;3;31;25;145;27;345;957;823;7873;9469;29115;12455;39447];
[49654;1;1;3;3;31;15;99;181;247;165;441;59;1181;2851;1337;4929;31079];
[49657;1;1;3;11;3;47;41;53;41;435;945;3839;8083;4927;26919;24689;61015];
[49663;1;3;3;9;7;21;121;233;493;271;549;1627;5861;377;20751;52927;3649];
[49667;1;1;1;7;15;49;29;149;57;513;873;93;337;12559;24287;27771;28207];
[49693;1;1;5;7;7;7;75;161;419;601;55;2599;5325;12419;26755;5103;10231];
[49700;1;3;5;15;3;55;67;183;7;371;141;4093;4567;13971;3327;20701;78819];
[49703;1;1;1;13;15;41;45;29;375;235;1985;1051;5863;7043;11143;59381;55007];
[49712;1;3;1;15;15;29;15;101;395;39;1839;1689;429;405;29337;28573;10599];
[49717;1;3;3;11;7;5;11;153;235;227;561;1037;2283;6657;6729;17939;29809];
[49718;1;1;1;5;15;59;33;69;275;447;661;2071;5811;10463;32707;64503;106313];
[49721;1;1;7;1;21;53;21;235;497;309;1207;1613;7739;12785;7743;37671;29197];
[49727;1;3;5;9;9;51;33;105;275;917;1911;3607;865;899;5405;59593;113965];
[49730;1;3;1;7;7;63;51;83;481;347;1323;3549;2873;12527;16515;61077;63239];
[49735;1;1;1;1;13;21;87;139;461;215;1173;1197;2091;11247;25647;23443;105761];
[49739;1;1;1;1;27;33;21;27;365;75;351;2111;3897;13325;4821;41355;95681];
[49747;1;3;5;5;15;41;15;93;397;461;1993;321;4375;1205;18417;37549;30181];
[49765;1;3;5;15;1;49;101;129;215;773;1265;2245;2517;16261;32149;3545;27631];
[49770;1;1;1;15;5;5;3;127;265;721;875;3117;2177;7843;15871;22687;89347];
[49772;1;3;7;11;29;23;69;41;155;257;563;509;6105;9169;18341;25373;127397];
[49777;1;1;5;13;31;23;65;131;131;61;1979;2737;3793;3617;14385;189;84567];
[49789;1;1;1;13;21;33;43;97;83;903;1971;3209;5391;7703;13795;3895;78045];
[49817;1;3;3;5;17;53;113;237;269;83;589;4029;3309;14531;11359;25803;25525];
[49829;1;1;7;1;21;35;43;73;251;705;1737;3341;1581;9663;6251;16329;44491];
[49839;1;3;3;7;17;5;65;19;203;717;807;1759;6907;15801;30369;2655;69565];
[49844;1;1;1;1;31;21;75;221;115;395;1495;2739;1745;5981;28045;56581;130695];
[49851;1;3;1;9;27;5;113;123;367;701;647;117;2389;12309;1747;23421;21583];
[49854;1;1;1;15;27;57;95;81;347;765;1435;1727;153;6051;27085;62787;40903];
[49874;1;1;3;11;23;29;23;29;169;653;835;357;5113;5293;11779;23567;64569];
[49883;1;1;7;13;31;7;101;235;99;247;1267;509;3927;14317;3217;24389;34215];
[49886;1;3;3;5;21;27;33;229;33;551;815;3551;4261;13325;31117;40689;66549];
[49892;1;3;7;1;23;1;99;11;139;569;365;1233;3281;7817;8833;47699;97825];
[49895;1;1;3;1;19;39;19;151;25;73;1271;1435;3109;2571;9191;48257;61001];
[49914;1;3;7;1;23;63;1;115;159;943;1637;1443;809;10705;12563;63111;96343];
[49931;1;1;7;15;5;17;65;157;45;199;371;2497;4367;9109;31955;64253;69279];
[49933;1;3;3;15;29;45;103;183;87;543;97;1545;2719;5619;28871;4049;111825];
[49934;1;1;5;7;27;63;65;241;103;483;579;3589;5673;13283;24193;31993;72713];
[49941;1;3;7;9;21;35;59;183;459;211;753;3941;5389;10535;2895;44307;26577];
[49952;1;3;1;3;9;11;15;141;159;853;1975;4027;8053;16129;32687;29117;67507];
[49967;1;3;3;1;19;51;55;167;85;869;437;457;7879;2097;4403;2139;10589];
[49969;1;3;3;15;19;33;63;229;197;269;1189;317;5087;3147;787;64317;43293];
[49972;1;3;5;11;25;25;121;37;371;117;1683;2921;671;11353;32273;57597;56901];
[49976;1;3;7;7;9;37;91;159;195;1;77;2085;985;9999;5639;25041;66393];
[49979;1;1;7;5;11;17;67;21;301;971;591;3809;4795;12301;16977;27495;98539];
[49999;1;3;1;9;13;53;83;205;111;609;631;23;1781;15401;1563;34367;40345];
[50008;1;3;7;1;31;23;101;47;55;905;953;733;5173;5937;17703;31077;49707];
[50030;1;3;5;3;5;3;127;171;511;289;685;1157;6521;3301;3017;58857;55289];
[50041;1;1;5;1;1;29;59;7;423;83;797;2633;2015;1657;7575;39819;181];
[50042;1;3;5;15;25;27;39;99;83;381;401;1033;867;15645;28643;34917;53215];
[50044;1;3;5;15;17;1;67;63;355;841;681;2807;531;15295;7859;64031;121519];
[50057;1;3;1;5;21;57;63;247;467;101;129;2627;4763;479;11145;8861;69803];
[50060;1;3;1;15;13;13;77;39;297;401;1653;659;3909;13179;10477;45967;1665];
[50075;1;3;7;5;29;17;35;157;309;747;1717;1279;6103;3509;17499;22989;43157];
[50077;1;1;1;7;11;51;55;119;145;505;179;3979;1237;12801;15921;13561;69161];
[50091;1;1;5;7;13;9;73;203;247;257;1607;1183;6237;12327;5059;51645;88781];
[50096;1;3;5;9;1;9;27;59;235;81;689;2457;893;6107;27643;40145;2329];
[50099;1;1;1;11;11;19;65;63;27;513;1473;2955;8037;4991;22035;41965;82589];
[50106;1;3;1;1;9;53;97;95;247;379;259;2789;1433;15299;18309;51813;63271];
[50116;1;1;5;1;11;41;69;193;391;27;1511;1575;1161;14741;25193;31149;79573];
[50133;1;3;7;15;19;31;101;9;111;427;531;1335;767;15075;28373;54015;108021];
[50144;1;3;1;3;29;17;83;163;179;703;2027;3027;5267;16111;23929;9653;38633];
[50153;1;3;5;9;3;7;111;1;311;143;1563;2605;301;2447;5009;63767;37529];
[50154;1;3;5;5;23;23;97;11;475;741;1385;2491;1717;14587;6289;27651;21873];
[50168;1;1;5;1;31;31;119;93;209;861;1591;1233;3469;9799;5969;35965;110841];
[50179;1;1;5;13;19;31;69;107;423;651;757;665;1297;9985;14983;3153;26425];
[50188;1;1;5;3;23;5;89;77;461;799;683;2885;845;12847;26721;13145;88689];
[50194;1;1;3;3;19;3;41;71;247;293;1047;2349;6815;2413;13683;51421;110737];
[50203;1;3;3;9;19;51;91;193;447;305;751;1757;1547;12683;4645;39767;6433];
[50212;1;1;7;1;11;51;83;175;461;259;1337;175;877;15895;22487;8079;71291];
[50216;1;1;1;11;13;23;19;69;285;629;563;2433;815;4851;10617;59949;59119];
[50222;1;3;5;5;19;49;47;27;343;579;197;35;7051;2441;30091;9645;101899];
[50229;1;1;3;3;21;25;125;215;159;259;1915;2193;4213;16157;8665;10967;112793];
[50230;1;1;5;11;29;11;53;45;121;533;257;1749;6311;7715;12037;12003;38987];
[50234;1;3;1;11;25;31;93;191;231;801;361;1275;5031;7927;26333;39795;45875];
[50251;1;1;5;1;7;37;117;35;257;225;1769;1805;1593;1507;27741;31561;52107];
[50253;1;1;3;3;27;23;55;5;137;677;459;2821;1331;5845;17751;17557;60495];
[50262;1;1;7;7;5;47;85;17;287;757;2013;2233;2975;13769;23199;32117;84429];
[50266;1;3;3;11;1;15;39;133;79;915;147;1489;2319;13715;31317;46785;64147];
[50272;1;1;3;11;1;25;83;69;395;537;895;565;2781;12685;7831;36369;27871];
[50287;1;1;1;1;13;17;59;179;509;979;315;3495;1773;16375;27873;18065;20285];
[50295;1;1;5;1;27;31;39;251;121;899;751;1603;7501;425;25791;35407;110405];
[50305;1;1;7;11;11;3;107;247;79;349;405;3469;2201;8007;22891;7901;11413];
[50306;1;1;1;11;15;55;121;151;127;239;115;611;6191;15435;19831;64745;110473];
[50311;1;1;7;1;21;25;57;11;31;823;1855;2337;7655;10845;22167;36977;94265];
[50320;1;3;5;1;31;11;117;97;341;953;1499;2487;559;8609;6321;20669;28945];
[50323;1;3;7;1;5;27;15;161;83;139;75;3645;5227;16199;1833;21767;67579];
[50325;1;1;7;5;31;35;75;115;451;773;1987;1069;651;961;16317;18391;56519];
[50339;1;1;1;1;31;11;23;255;215;251;867;2381;2351;13189;17705;33569;102361];
[50356;1;3;7;1;17;49;49;125;445;947;1985;2113;3025;6277;1981;33329;99413];
[50365;1;3;3;3;27;7;59;109;37;777;1359;2157;3185;7317;30887;10499;126563];
[50366;1;3;3;9;27;5;99;167;457;363;2031;1805;4661;8695;4667;61129;81143];
[50368;1;1;5;13;5;47;95;249;289;631;1739;2947;7169;13019;10429;16197;11539];
[50377;1;3;7;15;27;45;93;131;269;835;399;1133;6509;1279;3635;17977;38667];
[50386;1;1;5;3;17;51;1;77;105;237;995;2643;6921;6707;30129;1543;94501];
[50397;1;1;1;7;29;1;117;33;141;805;1553;3943;45;8911;24191;45191;36525];
[50411;1;1;7;7;31;21;97;29;179;345;1059;701;7709;15831;22923;57233;58961];
[50414;1;1;3;15;15;5;85;227;13;351;1167;3283;6833;565;21019;53249;4639];
[50425;1;3;3;5;27;1;5;89;101;295;481;2397;1459;3729;3703;25109;69237];
[50451;1;3;7;13;31;37;69;147;505;487;1701;1145;2061;10067;18269;13049;92091];
[50463;1;3;3;1;29;39;33;199;499;377;1081;3787;4843;16287;23397;19083;91381];
[50467;1;1;1;13;21;61;121;251;511;615;625;2245;5951;16165;2155;37301;68319];
[50473;1;1;1;15;19;35;57;99;1;97;1177;3109;7213;5447;25251;24803;107449];
[50487;1;3;1;11;11;59;95;135;329;931;843;2847;463;10725;3933;32325;44545];
[50501;1;1;7;13;13;57;29;175;11;701;231;2907;5555;16159;1249;38049;40115];
[50505;1;1;5;15;23;37;47;221;465;631;57;1189;2083;6561;10725;8015;21231];
[50514;1;3;7;5;9;25;31;47;139;639;999;2909;39;16227;16967;30555;125541];
[50516;1;3;3;9;5;3;9;9;43;999;159;3063;3661;7089;28929;55305;105521];
[50536;1;3;1;11;17;7;3;57;457;753;135;3721;1111;7267;12603;50511;85433];
[50547;1;3;5;1;27;3;107;187;247;891;1311;423;1767;14769;22119;36225;94267];
[50566;1;3;5;15;1;13;65;35;435;557;1755;1343;2647;179;7781;62903;18741];
[50572;1;1;7;15;29;57;63;227;407;163;1207;2717;2731;1737;6379;14937;46683];
[50583;1;1;1;9;25;35;93;1;77;677;875;3787;3075;14033;23017;3487;14999];
[50593;1;3;3;9;3;45;115;61;437;823;1401;459;301;5519;31003;64499;1757];
[50599;1;3;1;11;23;37;69;215;197;961;1501;2953;3679;6775;24679;44215;52357];
[50613;1;3;1;15;29;23;1;133;451;677;687;1269;5987;11975;11929;63691;48683];
[50617;1;1;1;7;13;31;13;71;355;345;1193;3421;7601;7413;6719;28681;97605];
[50618;1;1;5;13;23;3;15;253;109;17;341;471;1131;14901;31783;41369;64139];
[50620;1;1;3;1;25;25;85;157;443;83;269;3789;7977;7783;28433;30563;82805];
[50628;1;1;7;5;3;11;83;63;253;349;217;2733;4183;2759;7617;41749;14015];
[50638;1;1;5;7;7;7;91;201;449;247;889;3829;3529;14253;24091;33521;6049];
[50652;1;1;3;7;25;7;123;161;227;965;511;619;4359;11833;12859;26091;3867];
[50655;1;1;7;9;5;41;71;111;95;261;1809;3835;7625;12085;28885;64829;48981];
[50662;1;1;5;3;13;55;57;79;457;785;653;1429;3879;13559;3953;18205;5777];
[50665;1;3;5;9;23;25;107;255;151;191;119;3367;1081;12691;3575;38171;42573];
[50673;1;1;7;15;3;23;115;233;265;187;1961;1303;5101;1035;6803;14557;4527];
[50683;1;1;3;11;19;37;45;167;17;793;1361;3571;5889;14421;20453;5093;59927];
[50689;1;1;7;15;3;53;1;11;159;389;171;2351;7189;3109;1541;53595;24247];
[50690;1;1;7;1;7;43;75;175;253;687;1811;3277;447;8711;14281;53265;7379];
[50692;1;1;5;3;21;45;113;25;309;31;1765;305;1423;115;26421;50267;122115];
[50696;1;3;5;13;15;47;17;17;445;775;243;3959;7263;9375;12017;57399;58203];
[50704;1;3;3;1;31;37;37;213;125;929;243;1011;2841;4499;16961;12639;23381];
[50713;1;3;1;3;7;53;31;165;311;239;731;1759;1769;203;23201;20267;33381];
[50719;1;3;3;11;1;1;73;57;497;693;693;861;5587;16307;8559;28785;91147];
[50738;1;3;1;3;11;61;11;241;473;479;1831;1771;25;10217;32683;40165;98433];
[50757;1;1;5;3;17;51;39;27;189;631;689;2849;1849;9143;19263;32729;23031];
[50761;1;1;5;9;15;39;103;83;485;689;1561;55;5219;12069;32225;7781;114299];
[50764;1;1;1;1;31;49;71;145;485;907;1551;3931;4081;2159;24747;6953;15887];
[50770;1;1;3;7;27;61;57;153;15;881;271;267;5827;7625;18179;3769;42211];
[50776;1;3;1;3;21;49;65;177;341;851;1825;3347;113;8077;1117;9463;115821];
[50803;1;3;5;11;27;17;75;35;475;389;313;2187;7005;911;21921;10979;13705];
[50805;1;1;5;9;1;49;15;21;163;355;193;3473;4451;5325;28343;251;125963];
[50806;1;3;7;1;9;63;9;129;453;887;1841;597;1989;14755;7847;7581;251];
[50816;1;3;7;13;31;15;123;3;427;101;1039;1355;3653;2871;28937;31243;108827];
[50826;1;3;7;13;3;17;71;243;145;747;1933;1105;455;6355;20321;60075;31575];
[50840;1;3;5;5;11;25;95;85;461;459;313;173;1413;15761;31481;63793;29047];
[50845;1;3;7;7;3;5;3;95;107;995;1203;2965;2419;5325;17667;40205;91059];
[50852;1;1;3;9;25;3;113;79;359;69;93;1539;483;12701;19075;35021;17929];
[50855;1;3;5;1;31;35;67;97;105;381;973;1355;3901;3847;12343;64309;29835];
[50862;1;3;7;1;11;33;117;237;449;101;317;23;5157;8187;28839;29465;97485];
[50876;1;3;5;5;1;49;93;71;89;607;1143;3271;5825;8529;18479;23859;40571];
[50879;1;3;1;3;13;35;79;9;315;943;1199;1521;2023;11745;8273;27643;89545];
[50882;1;3;5;1;21;3;15;111;19;895;1539;3331;6741;9087;5231;13435;60645];
[50894;1;3;1;9;25;9;109;253;263;425;915;1955;659;6249;11803;34523;22645];
[50899;1;1;1;9;15;23;13;79;369;689;565;743;3897;8837;13753;17213;86801];
[50905;1;1;1;5;31;27;111;231;25;617;897;1325;4885;5731;2027;34639;67863];
[50924;1;1;3;13;1;9;29;23;95;113;1035;2729;6555;335;24795;35387;31301];
[50936;1;1;1;7;3;53;91;143;167;773;207;31;4993;7953;26997;40031;113939];
[50944;1;1;3;5;17;43;121;231;411;575;1621;3079;535;3313;19443;58271;54207];
[50973;1;1;1;7;11;41;61;81;97;91;1987;981;3745;819;23785;48331;63761];
[50974;1;1;5;13;7;29;25;73;355;669;241;65;2249;5551;5217;58573;34049];
[51002;1;1;7;11;1;45;125;107;127;639;1989;2727;2103;8985;30249;40037;40931];
[51007;1;1;5;13;21;59;99;131;359;615;665;577;2559;3555;11355;26213;76427];
[51009;1;3;3;1;19;9;85;111;381;661;561;3419;1355;8473;329;4989;9087];
[51029;1;1;7;5;11;23;33;95;343;9;1579;2663;6245;267;7187;25381;103181];
[51036;1;1;7;11;23;7;113;49;89;587;1221;409;873;15531;2721;44519;25349];
[51063;1;3;3;1;17;17;45;239;453;639;1433;2829;6009;12447;9393;59979;93343];
[51067;1;1;3;15;19;61;125;101;219;327;1551;1623;951;8379;21009;64089;21891];
[51070;1;1;5;7;23;5;111;43;57;71;407;4027;4869;12033;19941;51969;120115];
[51074;1;3;7;15;17;49;31;145;185;169;1559;4011;5293;7559;23487;12213;2757];
[51079;1;3;7;3;3;59;119;3;509;539;1623;539;1405;3913;213;30293;68497];
[51083;1;1;1;9;15;43;67;171;397;233;379;1681;6877;9169;19667;1971;115347];
[51093;1;1;5;15;1;45;25;133;99;181;1825;3485;5633;4629;30181;15761;87161];
[51094;1;1;5;3;5;55;97;117;303;591;733;3631;4305;169;5361;64491;71793];
[51124;1;1;5;11;19;9;5;147;223;51;1763;3899;7393;8107;19619;60509;61427];
[51131;1;1;1;15;15;3;103;15;423;649;613;1387;6229;4147;17517;225;35697];
[51151;1;3;1;3;21;57;77;193;203;649;631;3753;4259;3983;27707;33623;83857];
[51153;1;3;3;5;11;37;95;201;83;643;1639;153;7683;15249;23859;27021;43321];
[51156;1;3;5;13;23;31;69;215;303;433;1325;1013;2903;12659;3813;34497;59651];
[51165;1;3;1;9;15;39;113;253;173;393;19;2343;2939;8871;29741;2141;121675];
[51175;1;1;7;9;7;9;91;211;169;299;507;2849;1321;15397;23949;32387;108691];
[51184;1;1;7;13;1;21;119;127;229;253;39;323;1831;121;17385;45511;43743];
[51187;1;1;1;15;25;25;97;209;375;945;1343;2205;1701;13085;25547;55555;129395];
[51203;1;1;1;5;31;25;91;255;163;169;703;1607;4731;7413;10013;10925;109151];
[51220;1;3;3;9;15;47;71;219;9;37;231;3227;3447;8129;23421;30113;120725];
[51224;1;3;3;11;15;47;93;203;299;865;151;3999;1245;8487;13355;27373;93583];
[51233;1;3;7;5;13;7;97;81;271;95;513;365;5039;403;5285;29475;129347];
[51234;1;1;7;7;9;27;25;207;161;785;1453;3031;763;2313;29347;61457;52561];
[51239;1;3;3;11;25;25;39;61;165;803;1435;3643;299;13751;24239;53955;94889];
[51246;1;3;5;9;9;13;63;221;123;947;905;913;953;7429;25409;43017;2217];
[51248;1;1;3;3;31;19;107;211;503;675;1921;3027;1273;5699;20683;55605;119803];
[51251;1;1;3;3;9;17;115;183;325;259;2013;1505;6999;11573;5315;18731;9405];
[51257;1;3;1;5;29;37;81;145;5;851;1803;2011;6655;3601;11325;17137;68501];
[51266;1;3;5;1;25;51;111;19;75;765;1843;139;7253;12967;13387;48631;124881];
[51280;1;3;3;7;15;29;7;231;13;901;1913;3817;3993;3049;32367;4201;90837];
[51285;1;3;1;11;27;5;109;57;81;147;1141;2153;5255;6367;189;5959;88843];
[51286;1;3;5;5;19;35;17;149;407;889;1583;1727;465;10785;6043;21785;80935];
[51289;1;1;3;7;15;21;105;249;427;491;923;3189;8103;3875;18347;35799;36703];
[51295;1;1;3;15;3;45;93;197;265;309;1909;1635;1743;9499;21897;36889;67449];
[51296;1;3;1;11;15;57;31;231;363;879;1377;1941;6969;10721;21933;33419;102939];
[51311;1;1;3;9;3;57;49;51;71;991;885;1367;2937;9301;29893;9867;113711];
[51329;1;3;7;7;11;59;123;247;51;659;1323;3371;3417;12295;2021;62753;28059];
[51350;1;1;7;11;3;57;53;1;203;287;219;3531;1365;6235;30187;4479;29567];
[51356;1;1;7;9;5;41;41;39;137;495;149;2421;7365;11381;25403;16063;47491];
[51363;1;1;5;13;25;25;47;25;213;661;1345;883;7573;3291;21303;8033;102639];
[51365;1;1;5;3;9;49;75;221;455;139;1533;3155;1023;7249;10129;63165;1713];
[51370;1;3;5;11;17;1;23;241;83;359;1243;2791;2975;6271;19035;55057;7625];
[51372;1;3;1;9;17;61;109;255;447;939;899;551;7049;4247;17333;43369;30105];
[51377;1;1;3;5;3;31;79;39;225;605;1893;3523;5391;6879;18619;2339;108295];
[51383;1;1;5;1;29;15;123;39;239;57;843;2799;4755;4993;23383;45559;48359];
[51384;1;1;5;5;7;5;99;1;351;213;1061;721;343;16071;29641;55607;76727];
[51397;1;3;1;7;9;9;15;25;87;595;71;3769;2583;10105;28639;48899;49753];
[51407;1;3;5;3;31;29;99;77;323;615;581;1725;2471;16263;4903;205;55441];
[51422;1;1;5;11;17;53;47;53;125;717;867;1251;4009;13981;10165;4769;117431];
[51435;1;1;3;7;7;19;119;27;163;11;693;3197;3981;12591;26017;62113;48391];
[51440;1;1;3;15;13;17;13;81;19;821;677;233;5227;14855;18269;18895;90041];
[51446;1;1;3;9;27;61;125;221;415;183;1137;1879;3451;3599;27317;53449;35499];
[51463;1;3;3;15;3;27;53;93;17;405;373;2531;3121;2299;1593;34623;102389];
[51467;1;1;1;11;23;19;85;87;209;17;1805;4067;7401;6097;5865;61383;42971];
[51491;1;1;7;9;29;43;99;125;385;347;97;1121;1533;10545;17383;48649;78443];
[51493;1;3;3;13;7;9;95;105;463;911;357;423;5701;2389;16307;17817;108775];
[51494;1;3;5;11;21;21;79;53;511;995;1709;1715;6031;10507;10735;48817;28569];
[51508;1;3;5;7;31;49;43;109;267;981;1529;3611;3379;1295;27489;46721;58423];
[51518;1;3;3;11;3;31;21;3;79;31;1885;3029;6337;15457;8995;9955;95019];
[51520;1;1;7;13;9;9;77;73;111;769;813;1599;5925;1063;12151;54125;67723];
[51526;1;1;1;7;13;5;43;201;379;199;769;3227;3995;1543;21903;10651;122007];
[51529;1;3;7;13;11;53;83;201;231;137;617;2395;2513;6659;9387;15653;96927];
[51530;1;3;1;13;29;19;97;57;231;985;805;1169;831;15867;20195;53533;99735];
[51537;1;1;3;13;19;15;19;39;99;31;421;755;7439;4927;19893;15449;47937];
[51547;1;3;3;9;1;17;71;37;289;537;69;3687;6537;12295;28403;6627;72991];
[51559;1;3;3;15;31;53;21;223;451;309;895;3923;3149;5167;1979;31425;53485];
[51565;1;3;1;1;29;7;5;197;445;455;185;633;897;4561;28833;39477;46665];
[51568;1;1;3;9;29;19;45;239;323;1005;101;2083;7403;10401;987;32301;58141];
[51580;1;3;3;5;31;17;7;141;245;301;1607;3381;7517;6663;6327;15321;19963];
[51583;1;1;7;5;5;37;109;31;285;767;1689;2961;5511;15415;32011;14889;7237];
[51584;1;1;3;7;31;35;47;157;407;719;1213;1241;2475;10321;11547;52641;21603];
[51593;1;1;1;7;5;45;35;137;403;321;1151;529;6297;3059;27791;18387;101431];
[51594;1;1;3;11;21;19;97;121;377;325;741;1601;1115;6233;19089;40491;53259];
[51607;1;1;1;9;3;13;83;243;443;91;1455;1875;3327;7245;12735;14943;44163];
[51608;1;3;5;11;1;15;107;211;25;125;623;1319;6133;12177;1377;32547;110919];
[51620;1;1;3;3;7;39;23;99;433;581;53;3421;733;12767;23595;22957;88821];
[51624;1;1;1;13;5;53;103;127;409;379;1155;3097;6529;11685;22147;46003;59771];
[51642;1;3;3;3;15;37;9;67;237;79;697;1943;1021;3217;16013;14727;105729];
[51649;1;1;7;1;9;43;55;79;63;553;871;2881;6487;4667;24263;41995;60907];
[51652;1;1;7;7;23;31;55;23;451;593;85;43;965;12491;15121;16129;90639];
[51659;1;1;7;13;11;53;21;123;237;147;511;2105;5961;4465;4015;19069;89203];
[51661;1;3;5;1;1;39;59;239;391;91;923;85;1047;1489;31119;58485;129171];
[51670;1;3;5;13;3;21;35;205;219;795;901;2465;5887;275;22003;29659;50589];
[51674;1;3;1;5;1;35;127;147;159;791;1643;1811;1199;3851;9681;19845;127075];
[51698;1;3;3;7;17;19;13;223;395;971;125;181;4455;13305;30433;46161;122277];
[51707;1;3;1;3;19;1;15;71;425;459;655;2251;5525;7611;5819;1255;43107];
[51725;1;1;5;15;3;9;83;191;439;663;399;2263;1857;15421;2079;2381;59193];
[51737;1;3;5;5;1;7;9;77;347;419;1329;3173;7295;3631;13435;3217;18053];
[51753;1;3;3;7;29;39;35;71;119;745;603;2247;377;3297;30983;27857;105739];
[51754;1;1;5;13;9;59;57;239;247;921;1383;2315;241;4435;24661;6129;122727];
[51779;1;1;5;7;3;15;39;165;27;803;609;3081;6009;12665;24155;51647;3857];
[51791;1;3;5;11;27;41;61;255;195;169;557;1739;4029;1791;471;16321;49801];
[51796;1;3;7;13;17;45;35;177;109;113;551;219;4065;303;15489;25427;12349];
[51809;1;3;5;5;25;15;79;165;231;867;483;3563;6611;11277;3193;37455;127373];
[51816;1;3;3;11;25;21;47;255;27;543;485;2675;5893;3029;3857;50967;14681];
[51819;1;3;7;11;3;23;81;135;77;227;417;1733;5175;15295;15985;50329;48641];
[51827;1;3;5;1;3;47;33;67;201;235;1299;3703;1959;8091;11115;10869;9595];
[51829;1;3;7;13;1;45;61;49;471;923;1827;2175;1433;3473;3781;7923;121525];
[51834;1;3;5;7;25;59;113;19;415;839;167;3549;7435;6573;767;2751;18383];
[51836;1;3;3;1;5;11;125;241;395;423;955;2551;963;8197;30253;10473;28505];
[51846;1;1;1;3;5;31;69;103;153;505;1507;2827;165;4943;8343;54253;87593];
[51849;1;3;3;1;7;37;27;75;251;623;965;1907;6063;761;765;10103;43479];
[51855;1;1;1;13;7;21;53;219;267;57;959;579;2951;13797;3249;29895;47467];
[51858;1;1;5;9;13;7;85;107;3;635;1235;1339;3263;3895;25911;7521;34149];
[51869;1;1;5;15;29;37;73;43;413;993;499;719;1557;14397;11245;58197;127901];
[51870;1;1;5;15;9;37;87;57;63;337;927;1887;6407;11237;23233;53567;120449];
[51874;1;1;3;7;27;11;85;227;159;849;647;1977;4623;7343;8089;4251;26609];
[51918;1;1;5;11;11;3;105;191;189;627;367;3935;6647;13069;26195;23137;56427];
[51926;1;1;3;3;29;51;39;3;437;1011;1061;1747;3051;11165;8155;9723;41035];
[51932;1;3;7;15;9;43;79;195;265;395;1349;337;911;15767;3593;42859;70181];
[51936;1;3;7;7;11;47;11;85;489;801;1177;3861;3517;9209;27505;12291;35691];
[51948;1;1;3;9;15;61;71;123;287;419;1079;3489;3519;12739;21341;24323;33961];
[51954;1;3;7;3;9;17;119;137;389;391;601;1875;2197;5271;13289;43597;43279];
[51959;1;3;7;15;29;35;41;171;183;701;1673;981;5479;21;11353;64953;88189];
[51971;1;3;3;13;15;35;35;81;297;245;475;393;5401;12369;21129;65213;125013];
[51983;1;1;7;13;15;57;25;143;389;111;1219;2195;769;9005;10367;39435;3631];
[51992;1;3;3;13;9;29;9;47;127;377;1195;1221;5751;15481;10537;29909;112691];
[51997;1;1;3;5;17;47;29;1;299;651;1023;1601;5917;3781;18421;42393;51789];
[52016;1;3;3;15;31;51;101;147;367;159;359;705;3773;8649;31373;5733;58287];
[52021;1;3;5;11;11;51;55;79;147;917;1945;1725;289;12777;30099;3013;91527];
[52031;1;1;7;13;1;51;33;27;169;573;117;2479;761;1283;32723;13589;88821];
[52033;1;1;1;3;23;13;33;207;137;391;1309;4093;6889;827;9331;57113;110193];
[52034;1;1;1;13;15;57;115;53;59;443;1;3545;6923;6603;8631;41703;8519];
[52048;1;1;5;5;25;29;53;153;107;423;1829;2469;1843;889;31727;20701;6343];
[52053;1;1;7;13;11;41;7;219;77;663;329;2639;1111;1293;16771;20731;46973];
[52057;1;3;3;15;23;19;45;107;111;155;1595;1821;471;6089;21587;49259;85393];
[52067;1;3;1;3;27;21;39;227;359;885;449;2615;3519;5377;16017;57159;82399];
[52076;1;3;3;15;31;33;77;33;87;821;701;2859;1777;3007;16757;5447;3557];
[52079;1;1;1;15;11;31;127;79;363;341;169;3451;6351;6867;13511;833;103151];
[52081;1;3;5;7;27;23;5;67;159;535;103;843;8187;6891;19169;22565;95255];
[52109;1;3;5;5;15;27;53;49;343;815;1203;1031;6359;1337;1629;47783;103391];
[52127;1;3;1;1;13;19;51;185;45;549;619;2247;2541;10421;31507;60785;87139];
[52128;1;3;1;15;29;9;47;127;41;767;1375;2183;7169;12855;15021;377;69327];
[52133;1;1;3;9;5;23;23;203;101;809;1155;2885;3901;3081;1827;65373;106133];
[52148;1;3;3;13;3;21;73;135;353;905;1757;1361;3801;15541;2261;17159;18037];
[52155;1;1;7;7;27;23;57;33;225;407;1709;1159;6353;13341;15883;17339;50423];
[52157;1;1;3;15;13;21;33;91;183;975;1623;3187;5495;8947;7031;19687;104483];
[52172;1;3;5;7;17;25;77;1;335;85;1783;2617;4463;3807;12883;24487;66205];
[52178;1;1;3;15;23;37;83;93;211;757;903;2681;49;435;21057;63635;36489];
[52184;1;3;1;13;3;45;63;57;65;21;627;1467;51;15887;27465;59227;108233];
[52199;1;1;7;5;15;41;53;57;301;677;803;1675;6937;3159;14281;22355;37783];
[52200;1;1;5;13;15;43;39;245;191;875;1505;2085;3903;185;24461;28939;98771];
[52205;1;1;7;9;17;25;29;31;439;159;533;3177;4155;403;23735;61817;121909];
[52206;1;1;3;15;29;43;111;47;483;513;63;2423;4979;5159;15499;33391;51575];
[52232;1;1;5;15;15;43;13;41;445;929;1365;2023;6173;6067;30969;51457;51179];
[52237;1;3;3;11;15;17;93;235;159;599;635;1113;1017;7413;7737;20051;79127];
[52243;1;1;1;15;5;19;81;65;479;119;1831;2515;2929;15395;31607;29969;49935];
[52246;1;3;1;13;23;47;45;151;51;217;803;3265;5907;14371;8287;25659;27655];
[52252;1;1;1;13;13;53;11;63;501;487;1683;1147;4693;2761;19359;2215;112393];
[52261;1;3;3;1;31;15;61;237;129;119;135;39;6509;3753;16997;3841;24521];
[52265;1;3;5;7;5;27;113;251;217;923;229;2259;5241;6331;6773;41929;89605];
[52266;1;1;5;9;17;41;21;185;95;137;1151;195;913;531;15731;22893;93521];
[52273;1;1;5;1;29;57;123;11;345;581;227;1539;7527;8537;16429;8437;18953];
[52274;1;1;3;7;7;21;103;239;115;513;1287;3717;331;5453;18943;17247;64975];
[52288;1;3;7;11;21;37;79;83;93;155;1297;1371;1109;6569;21137;29237;24007];
[52300;1;1;1;13;17;11;127;89;397;497;1017;721;2837;5623;31745;52243;107225];
[52303;1;1;7;9;15;43;29;215;449;233;313;2587;2903;2735;4539;50481;85279];
[52321;1;1;3;15;13;35;109;211;299;255;1595;533;1801;13965;25277;52347;13447];
[52322;1;1;1;15;9;23;115;119;207;973;1339;1315;6465;9917;4593;65435;2515];
[52328;1;3;3;3;7;25;115;115;213;845;1445;1217;1563;12491;5197;44409;79895];
[52333;1;1;1;3;9;33;31;203;19;895;1145;2893;4807;7501;6999;54883;13797];
[52351;1;1;3;1;19;51;73;29;451;533;83;2477;335;9703;9747;57427;69443];
[52357;1;1;7;5;21;11;53;133;165;291;591;1419;3661;4697;21363;53467;84063];
[52372;1;1;7;3;13;7;85;49;193;289;1531;709;2351;12085;28553;57145;129517];
[52381;1;1;1;1;17;19;13;213;75;977;811;1813;7293;13795;28569;28133;11949];
[52386;1;1;5;1;27;11;47;89;271;65;1651;2331;3289;6227;15027;19959;22945];
[52395;1;3;7;9;17;37;17;245;249;501;405;951;3005;9757;10265;35575;70529];
[52403;1;3;1;15;21;47;15;75;113;45;125;1393;3361;13477;24325;39743;67409];
[52423;1;3;5;1;13;3;33;51;463;241;1421;1607;3937;3405;26653;33955;97915];
[52427;1;3;7;13;29;17;41;193;461;787;459;4019;1887;13831;9387;25215;69801];
[52432;1;3;1;11;31;55;13;235;85;953;109;233;1893;13225;26165;59237;15845];
[52438;1;1;1;13;11;43;127;193;143;831;875;2471;7011;3063;21979;42113;80581];
[52444;1;3;7;1;5;1;63;55;349;525;441;2695;3301;15737;13355;16727;25001];
[52457;1;3;7;7;31;23;87;99;331;101;1341;3;1447;9507;18627;2503;57597];
[52468;1;1;1;9;11;19;89;141;269;31;1933;429;7765;5905;15327;25913;17281];
[52480;1;3;1;9;23;61;75;15;121;635;1409;615;7841;11993;1637;26073;70763];
[52498;1;3;3;1;5;63;85;3;443;87;1201;275;3457;16187;26839;16593;36335];
[52516;1;1;5;5;27;61;1;145;287;563;1135;2703;733;10209;3937;23807;56857];
[52520;1;3;3;7;1;41;97;155;305;395;1607;1171;1061;12301;8041;12111;66831];
[52525;1;3;7;15;9;61;127;225;125;231;87;2433;6951;2999;24859;61685;111943];
[52531;1;3;5;15;13;39;87;57;305;469;1929;1559;1383;2779;3883;845;45181];
[52540;1;1;1;15;19;1;23;41;207;731;501;1147;6543;5011;483;56889;48993];
[52545;1;3;3;15;21;35;75;129;441;497;953;201;6849;2893;6351;62163;84127];
[52546;1;1;1;9;21;31;91;79;345;649;1529;805;4931;12887;30167;52305;92561];
[52552;1;1;5;1;3;21;121;223;67;185;801;889;7443;8419;19929;11451;11487];
[52557;1;1;3;15;21;51;119;31;197;773;617;2055;799;9105;12353;33635;27589];
[52569;1;3;5;3;27;11;41;105;289;877;1175;3111;3161;12537;18001;38061;59089];
[52575;1;3;3;5;3;27;101;253;225;915;1757;1601;3391;10443;3983;58427;93391];
[52582;1;3;1;7;9;43;85;115;169;285;1267;3791;2701;5599;10099;48105;45219];
[52594;1;1;7;13;25;57;35;223;265;451;1913;2715;8017;3725;7079;34611;61159];
[52615;1;1;3;7;23;27;93;195;449;845;865;655;4263;12743;7467;7929;7095];
[52619;1;3;5;5;29;51;109;123;227;693;2033;3829;7187;4027;17861;45093;7355];
[52624;1;1;1;11;27;31;127;75;443;479;865;1377;711;3791;27235;17405;25975];
[52645;1;3;5;7;1;49;79;167;471;453;211;265;8163;6517;3413;17283;51961];
[52663;1;3;1;5;17;29;15;239;385;239;425;2197;3553;14913;14889;31645;67477];
[52664;1;3;3;5;1;11;25;105;367;253;1395;2077;2613;4535;18215;37657;48283];
[52675;1;3;3;1;1;41;7;161;437;659;833;3175;2063;14497;6655;8817;127321];
[52687;1;3;1;11;17;27;3;51;75;183;1889;287;5429;14007;14445;47395;94543];
[52696;1;1;7;13;29;9;109;19;73;3;1529;457;6413;4113;14733;24455;44623];
[52701;1;3;1;15;15;31;83;25;263;229;1801;377;1703;8571;10393;52021;100937];
[52706;1;3;5;9;25;57;79;19;117;437;275;3439;6393;2111;8317;3521;96927];
[52708;1;3;1;13;27;43;103;171;361;949;347;809;5819;2763;10447;35129;46985];
[52711;1;3;5;11;17;1;27;37;473;851;1057;831;4373;5179;18193;48731;64317];
[52726;1;3;1;7;17;5;19;217;439;549;1983;2473;6059;5271;10279;7793;114357];
[52748;1;3;1;5;25;19;99;65;507;527;825;2517;2299;1725;9913;5779;12207];
[52754;1;3;1;1;29;41;119;27;411;475;461;1885;2339;4945;24665;13621;78129];
[52756;1;3;1;11;27;29;119;155;487;29;1545;675;1417;6119;12451;21345;39377];
[52759;1;1;3;7;19;5;111;227;49;307;549;737;4793;13885;22971;18653;69573];
[52769;1;3;3;1;27;59;87;7;379;497;903;591;6105;1957;25849;55957;120181];
[52784;1;3;5;15;19;31;43;1;35;341;311;1343;3625;16181;31047;59679;89231];
[52790;1;1;1;15;21;19;93;229;49;597;1465;2027;5935;12269;20239;17861;26311];
[52804;1;1;1;1;3;31;115;87;129;419;871;2469;3807;4473;25025;36923;67959];
[52807;1;1;1;3;23;31;41;247;295;369;1131;2183;8097;7609;4387;37565;50177];
[52808;1;3;1;11;9;17;111;249;417;775;217;1435;6295;5065;2967;55361;91933];
[52819;1;3;5;7;19;21;71;219;411;31;335;2915;3687;5691;12405;34659;76721];
[52826;1;3;5;13;29;31;95;203;149;399;547;2529;2485;3371;20219;33647;34217];
[52828;1;3;5;13;31;41;97;115;427;35;1319;2335;715;2541;4507;49395;33895];
[52832;1;3;7;15;3;49;3;49;153;93;1343;1035;5685;15855;15751;27663;99553];
[52835;1;1;7;5;27;7;53;135;453;981;1767;3503;1259;11973;23259;41051;96593];
[52849;1;1;7;9;5;59;57;141;41;639;1681;145;7019;6621;14221;12051;71871];
[52859;1;1;3;1;13;39;7;187;7;919;1555;2111;6507;2099;10643;22851;82033];
[52877;1;3;7;9;25;59;27;225;239;715;1115;2309;7785;11849;8991;54305;107305];
[52880;1;1;7;11;21;51;1;223;481;195;2005;2651;6797;12201;11013;1843;65167];
[52896;1;3;3;11;27;3;117;5;255;595;399;1329;1437;12061;32679;16655;76235];
[52899;1;1;7;13;21;1;35;159;329;37;1247;2663;3889;14603;25799;45363;87963];
[52905;1;1;7;7;7;11;53;215;351;329;1039;969;4449;14785;28617;25953;78663];
[52913;1;1;7;7;27;17;19;223;143;433;789;1941;5527;711;25097;4571;121975];
[52933;1;3;1;13;11;47;31;249;325;1003;509;2741;3953;1691;12661;16097;80211];
[52934;1;3;7;9;27;11;21;129;25;57;1523;3631;2639;2541;14249;34539;70551];
[52938;1;1;5;3;31;47;47;73;71;783;1353;2157;2563;14015;997;31611;118649];
[52957;1;1;5;5;25;35;25;207;349;503;121;3455;5783;10899;12745;35117;36679];
[52979;1;3;1;3;11;39;123;177;19;441;1979;1257;1351;4253;15145;44559;59379];
[52981;1;3;7;3;7;35;41;203;439;1013;1055;1165;1043;11183;1795;31253;113693];
[52986;1;3;1;13;7;43;57;1;229;345;631;841;7923;5971;20489;47917;66833];
[53005;1;1;1;15;27;5;31;117;153;755;1207;619;8185;4329;9979;57255;79045];
[53008;1;3;3;7;23;1;7;227;337;417;1895;765;7799;13599;27253;4485;112391];
[53024;1;3;5;13;27;63;5;87;101;351;953;2235;1587;5479;26529;34165;83303];
[53029;1;1;5;15;1;43;63;193;143;711;1779;3531;1355;16253;14595;32343;131021];
[53054;1;1;1;9;29;37;29;71;11;877;1301;2415;5593;1855;25223;6805;12901];
[53073;1;1;7;9;31;5;49;63;185;373;129;1695;7841;4477;17809;42771;120221];
[53083;1;1;5;3;15;43;49;45;47;775;699;2787;7831;4189;18317;63933;83669];
[53086;1;3;5;3;23;33;85;255;119;685;1245;1647;1999;13063;9241;49017;32619];
[53095;1;1;7;15;29;15;125;233;189;411;1251;3459;7213;10081;4403;56819;17103];
[53102;1;3;3;11;21;13;93;125;213;793;1057;2363;661;12213;2259;3787;91451];
[53107;1;3;5;5;19;35;5;153;507;691;1743;1777;7579;14229;10155;18529;35945];
[53126;1;3;7;5;27;35;13;77;189;793;877;643;2787;5817;22589;58363;49059];
[53130;1;3;7;9;9;37;21;251;119;895;1023;91;4317;10943;7355;36961;36903];
[53138;1;3;3;13;19;49;15;105;399;29;1903;3503;3453;15429;31503;57815;34009];
[53144;1;1;5;1;19;35;49;97;335;665;1871;887;4713;517;9571;41601;9673];
[53156;1;3;5;13;29;45;111;233;251;407;1135;2791;6525;11633;22295;65381;117511];
[53163;1;1;3;3;17;7;65;43;391;91;315;3559;479;7337;25629;785;19855];
[53165;1;1;5;9;29;31;67;17;381;875;1001;415;2263;4415;11263;309;117623];
[53173;1;1;7;11;25;1;59;61;247;649;687;907;1037;13935;7229;39769;92755];
[53177;1;3;5;15;21;51;27;79;343;785;1567;1349;7991;8531;11243;61351;21297];
[53183;1;1;1;3;31;41;67;169;83;959;813;1953;2467;12369;31431;50761;75731];
[53192;1;1;5;11;25;37;83;163;3;161;1249;3009;7167;5473;10561;44899;130879];
[53195;1;1;7;11;9;61;61;113;81;205;731;3887;5525;13415;25181;11557;59343];
[53200;1;3;7;5;19;27;107;89;295;715;1439;1285;5813;8895;7233;32905;3273];
[53212;1;1;5;1;29;11;125;253;445;295;1721;1271;2203;2215;7613;55655;112157];
[53219;1;1;5;11;11;13;111;55;19;551;1365;477;2513;12311;22485;23291;92447];
[53221;1;1;7;11;9;5;3;109;507;441;1767;1781;3077;219;29293;21237;71159];
[53245;1;1;3;11;3;45;99;113;367;569;1907;1281;51;13693;14639;32999;77461];
[53254;1;3;5;11;5;19;97;11;473;937;1623;1507;3245;9331;16005;37505;40085];
[53257;1;1;7;13;21;61;103;111;35;141;61;1043;1989;1311;29021;2617;89915];
[53265;1;3;7;15;19;31;39;175;371;459;1293;1645;1125;1199;4811;55721;76071];
[53266;1;1;7;3;3;35;17;7;91;317;1615;3559;191;2579;15027;58711;36009];
[53268;1;1;1;13;1;27;45;87;443;443;853;3917;1437;4053;14861;2897;109853];
[53275;1;1;5;3;21;47;73;195;115;517;1781;2341;805;5679;12053;29113;100479];
[53277;1;1;7;1;25;27;61;167;203;57;527;1071;7131;8403;9943;11503;33081];
[53284;1;1;5;13;31;43;35;195;177;229;1401;4011;2363;15787;21125;32103;62337];
[53294;1;1;5;11;19;13;3;249;119;35;747;1419;5451;13043;19813;54859;94825];
[53308;1;3;1;9;17;13;51;125;391;157;1199;1805;1763;11831;20915;38547;14221];
[53314;1;1;7;1;23;61;25;69;435;183;1379;1211;5529;9447;4575;14127;91867];
[53319;1;3;3;15;11;15;101;135;419;685;1097;787;2045;3393;26221;23653;116917];
[53326;1;3;1;11;29;23;13;153;27;683;1569;413;261;10291;23763;15579;39337];
[53328;1;3;7;7;19;23;121;23;339;165;1137;2791;319;16111;14847;28171;79237];
[53340;1;3;1;5;9;59;33;19;191;707;1883;1683;1161;12905;12299;22201;19811];
[53364;1;3;1;3;27;11;69;199;415;251;1079;1709;4539;7867;21321;33617;53459];
[53367;1;1;3;9;19;59;21;95;275;213;1819;721;6271;11845;9573;16105;12755];
[53377;1;1;1;15;23;7;91;235;43;95;913;715;3229;12339;23089;30963;129525];
[53395;1;1;7;9;7;41;43;131;485;621;1293;1955;5215;6545;29225;53587;46901];
[53398;1;3;1;5;7;57;97;199;225;707;1223;1829;497;12587;24551;12907;82411];
[53407;1;1;3;7;21;9;63;15;263;957;155;4021;4455;2025;16981;19743;88619];
[53413;1;1;7;5;31;3;27;45;369;747;1559;1429;8049;15069;19897;50067;52861];
[53414;1;1;5;13;23;35;91;139;73;275;207;2709;3801;12755;19155;61629;5513];
[53417;1;1;5;7;5;25;33;45;325;847;81;891;3191;14115;25095;39867;3839];
[53443;1;3;5;13;9;31;31;113;507;833;691;2041;4873;81;21365;35265;37627];
[53473;1;1;5;13;9;51;127;131;285;683;593;3411;6685;3601;12255;8337;80597];
[53476;1;1;5;15;29;13;79;199;157;421;1697;2063;2213;4141;21045;45785;124023];
[53480;1;3;1;11;19;5;79;57;71;373;487;671;3671;9093;20989;48477;104951];
[53486;1;3;5;15;13;7;39;243;507;739;1905;3431;4141;9345;27877;64735;112997];
[53506;1;3;3;5;17;25;31;243;393;61;199;2825;6981;5887;22289;9201;77689];
[53542;1;3;5;15;15;63;77;39;463;883;671;3285;6925;15085;1665;64005;130619];
[53546;1;3;3;11;21;15;7;115;9;879;1097;3993;3929;9809;22105;9549;31819];
[53554;1;1;7;15;3;9;19;97;327;105;1915;205;3873;1229;29915;57375;108217];
[53563;1;1;3;11;29;41;77;11;183;73;1651;3739;3911;8695;15339;19293;1827];
[53580;1;1;1;5;23;49;35;175;99;49;615;1733;6901;2351;18765;55553;99791];
[53591;1;3;7;3;25;17;67;161;507;941;35;2619;339;791;6485;64277;123867];
[53598;1;1;3;13;11;9;79;193;75;391;1753;3537;6971;6607;11933;4447;87793];
[53611;1;1;1;5;19;9;63;203;51;395;1365;2393;7265;11709;13721;4519;118765];
[53621;1;1;3;9;17;53;29;103;325;973;903;785;7535;9951;8121;12603;38679];
[53625;1;3;1;7;7;63;1;123;439;181;1373;2705;995;10789;7495;54543;120109];
[53628;1;1;7;3;17;13;79;179;165;965;1537;3753;3497;12127;6983;48605;113057];
[53632;1;1;5;7;3;7;41;25;267;633;19;1317;3445;12377;27881;55249;40841];
[53650;1;3;5;1;31;55;43;129;411;281;1;851;2419;7943;13721;39371;114557];
[53655;1;1;7;7;23;19;83;37;9;161;125;3179;7973;9703;23199;32723;130915];
[53675;1;1;7;5;27;21;11;219;403;239;1723;2957;3029;9911;10981;35421;74025];
[53677;1;3;1;1;31;59;69;77;395;1;157;1259;4913;2089;17619;51033;130899];
[53680;1;3;3;3;19;11;83;237;103;921;487;1833;8187;3811;18887;9389;80927];
[53683;1;3;7;3;17;51;107;209;187;831;1501;1337;803;10361;11347;65291;42219];
[53700;1;3;3;15;7;29;61;25;413;257;1185;4009;7463;1839;6645;28389;14449];
[53709;1;3;1;9;5;31;83;55;375;399;945;997;7649;12631;7691;53325;50173];
[53724;1;1;5;9;13;9;83;37;487;975;487;3587;7285;7505;10155;673;126505];
[53731;1;3;5;7;21;3;35;21;367;323;1579;3351;5465;13719;17033;42573;55079];
[53733;1;3;3;15;11;27;121;109;267;855;1417;3839;6535;1051;29355;23815;76031];
[53738;1;1;7;9;5;31;35;53;369;137;1545;927;825;1333;13637;11003;96963];
[53762;1;1;5;3;29;41;31;85;35;477;227;3325;1213;681;14591;31325;12199];
[53767;1;3;7;11;11;11;33;255;335;747;855;31;6101;293;20423;47521;62573];
[53785;1;1;1;15;31;15;33;175;321;441;1197;3579;4989;9275;30485;1077;122947];
[53786;1;3;5;15;23;21;127;223;249;373;1309;1469;5701;9097;29897;26627;38489];
[53795;1;3;7;3;3;35;83;149;259;315;1467;1953;6035;7961;10901;25171;130713];
[53802;1;1;3;9;7;63;55;33;375;421;151;1721;1999;14937;17539;48323;97345];
[53812;1;1;5;5;3;21;47;19;227;131;1591;3779;929;13879;13489;19805;20135];
[53821;1;1;7;1;31;25;87;125;213;135;809;3067;5035;7407;2193;31423;123973];
[53827;1;3;5;13;17;19;77;169;345;115;227;649;3609;15063;1895;17533;95859];
[53833;1;3;5;15;17;29;17;11;145;601;1871;851;8161;14029;10039;4247;62393];
[53841;1;1;7;13;25;5;49;231;261;71;335;4081;7915;11367;17087;26041;128737];
[53848;1;1;1;13;13;21;77;113;373;1005;109;2877;3001;15011;2465;37015;69049];
[53869;1;1;3;15;31;33;119;121;41;9;1567;577;1687;12117;17049;675;10729];
[53897;1;3;5;11;31;7;47;41;127;81;273;1649;975;3953;17021;24163;12599];
[53905;1;3;1;3;27;41;75;237;317;85;1995;2255;2191;6441;26629;25797;97681];
[53912;1;1;1;3;11;5;31;109;227;977;59;793;3305;10905;16529;21345;2403];
[53921;1;3;5;9;9;37;107;129;421;383;1415;885;3383;9547;7303;41745;59919];
[53928;1;1;7;7;29;27;59;177;97;299;1019;1393;7763;5715;9253;58035;23431];
[53948;1;3;3;3;23;13;51;101;75;857;1699;2687;3983;10427;19845;49503;96033];
[53954;1;1;1;7;21;51;25;71;265;999;1259;625;775;11045;20769;42597;115521];
[53968;1;3;1;13;25;47;21;245;201;667;1193;1087;407;6057;14929;35291;57615];
[53977;1;1;1;7;27;25;93;85;321;1009;1045;1901;349;11393;10917;10413;94125];
[53983;1;1;1;15;3;63;59;51;307;135;785;1921;6921;5689;8487;21061;69903];
[53984;1;3;7;1;13;47;59;155;107;573;843;2849;6685;5927;31747;21541;94271];
[54002;1;1;7;15;23;7;85;169;209;527;1027;3745;4773;14893;10789;1243;87133];
[54007;1;1;5;9;1;1;53;57;245;899;1785;1951;7651;10909;30167;40789;66965];
[54013;1;1;1;7;17;33;65;79;455;677;157;1313;1573;9697;4161;4609;42783];
[54014;1;3;7;7;27;15;109;113;239;521;563;2493;1471;15817;14515;48465;66009];
[54021;1;3;5;3;29;33;125;169;483;593;1665;657;3799;15829;29591;25813;40987];
[54026;1;3;1;11;15;25;21;215;341;241;1599;3807;6633;15137;15377;56881;47499];
[54028;1;3;3;3;15;49;89;117;191;641;675;2671;4243;1617;20261;42669;119173];
[54031;1;1;1;13;13;43;73;103;183;239;555;2121;4889;1431;20601;21545;11809];
[54036;1;3;1;9;9;9;121;51;77;455;1481;427;1961;12149;21273;16295;21909];
[54067;1;1;5;11;19;55;37;63;493;663;945;2191;2491;11545;7407;36295;94293];
[54069;1;3;5;15;25;35;103;33;171;425;409;5;2519;2239;30557;20007;69079];
[54074;1;1;5;11;13;29;71;21;35;833;191;365;7013;12413;10227;56705;61705];
[54076;1;1;1;1;21;13;87;113;63;537;283;925;2147;1683;31239;2775;131021];
[54105;1;1;3;9;23;1;117;19;487;235;877;149;369;9615;12501;60175;35741];
[54111;1;1;7;9;5;25;107;199;339;755;245;2861;1119;14683;2221;5227;81479];
[54118;1;1;1;15;5;15;37;63;511;219;783;3245;5563;13231;22311;16803;10393];
[54129;1;3;7;5;1;15;9;21;287;991;555;771;7683;1661;6553;43735;118713];
[54145;1;3;1;3;3;29;119;157;13;599;537;2921;5207;11621;1515;6351;118429];
[54157;1;1;5;1;27;39;111;117;481;25;549;913;6427;7703;23099;50501;7617];
[54158;1;1;7;5;29;63;43;151;63;43;197;3165;3879;12435;461;64475;60597];
[54163;1;3;1;11;31;35;59;207;387;441;1293;2117;3751;12653;2811;42585;33297];
[54166;1;3;7;15;27;47;13;15;135;433;615;1;171;11503;27117;64635;122191];
[54172;1;1;7;1;23;23;107;135;311;395;373;2771;81;12513;16739;6715;94999];
[54185;1;3;5;7;19;9;21;139;307;231;65;59;7767;2897;3503;58163;48807];
[54186;1;3;5;13;23;5;51;247;125;911;1395;1337;3215;15811;12729;21495;22597];
[54188;1;3;5;5;1;19;123;125;197;533;1699;1397;3473;15201;24493;3395;98261];
[54208;1;1;3;7;29;39;69;97;353;293;1103;543;5015;9913;6965;61921;122073];
[54223;1;1;3;13;19;41;117;253;449;231;865;3055;4751;3277;22863;3249;38359];
[54237;1;3;5;13;9;7;107;17;251;501;1925;3733;5035;13213;12535;13705;73047];
[54241;1;3;7;5;23;5;83;45;457;667;913;1167;7063;10915;10911;20501;61823];
[54244;1;3;3;13;7;15;29;223;503;713;667;3989;5927;5909;27633;17615;97931];
[54259;1;3;7;13;19;53;25;41;311;327;1323;3361;1095;12701;1065;34155;34705];
[54273;1;1;7;7;11;35;63;73;179;477;467;4043;3097;16089;12749;18233;50299];
[54276;1;3;3;13;5;27;31;207;357;469;607;961;7393;6707;25833;22337;119083];
[54280;1;1;3;3;7;53;47;55;267;107;1307;2151;793;15605;12153;13075;76529];
[54294;1;3;5;1;13;35;63;191;375;221;1603;2049;5363;1481;32271;22635;118603];
[54298;1;1;1;11;17;63;13;3;353;943;443;141;7441;12335;4499;15923;63677];
[54303;1;3;7;13;21;51;125;61;203;1;707;3893;4627;3125;14629;62721;85101];
[54304;1;1;3;5;31;23;63;241;41;721;599;1761;2593;1685;31247;7811;87561];
[54309;1;1;7;9;7;53;51;9;303;675;1261;1591;4363;15;29723;54533;103869];
[54310;1;3;5;7;27;21;103;113;463;379;635;2363;607;11445;22475;58433;93071];
[54316;1;1;5;5;5;63;23;67;399;279;829;945;6545;14951;5135;22889;87625];
[54336;1;1;7;15;1;59;69;123;169;821;1125;2051;3375;11691;1379;57461;124209];
[54354;1;1;5;15;31;57;51;59;297;459;701;241;2801;11893;4007;13165;79403];
[54359;1;1;5;9;11;41;79;47;19;529;21;1871;371;6269;7433;36183;96113];
[54375;1;1;7;5;29;3;33;191;119;501;1637;2903;3347;4581;17407;18169;10595];
[54376;1;3;5;11;9;35;95;193;413;727;1157;3331;5993;1781;22653;3975;110557];
[54381;1;1;1;1;23;5;35;65;57;515;569;4031;7983;4603;29419;44847;63601];
[54390;1;3;1;7;21;5;77;23;317;803;723;3229;7171;2883;10943;50323;108579];
[54396;1;3;5;11;15;53;75;127;177;19;501;1201;5113;9069;8817;14725;104737];
[54399;1;3;7;9;7;39;5;121;409;103;1075;451;7603;16023;32557;43159;94385];
[54409;1;3;1;11;29;57;123;141;57;945;1777;2427;2359;12839;7325;7945;129811];
[54424;1;3;5;15;5;3;17;55;467;61;131;2891;6331;5859;20437;49425;80731];
[54434;1;1;1;15;29;13;127;181;361;1019;1675;2755;6533;8957;14691;4285;65459];
[54436;1;1;7;11;23;43;111;183;103;269;229;3291;1873;11349;29319;64829;19639];
[54439;1;3;7;11;15;63;1;253;489;863;1707;2769;3201;7901;18161;12515;130237];
[54445;1;3;1;7;1;25;43;159;505;511;1745;1421;6779;11103;23535;61129;124571];
[54448;1;1;3;13;19;33;17;243;481;617;1061;1891;7165;6821;18505;8965;70179];
[54457;1;1;7;13;17;17;65;23;255;361;1873;1605;2041;11119;11419;63131;49207];
[54465;1;1;5;13;15;57;27;223;199;529;1115;1513;8083;11713;21005;50741;122223];
[54471;1;3;5;15;29;35;107;85;141;505;1553;1283;4581;5077;9461;59853;23219];
[54472;1;3;5;11;11;45;53;195;199;773;1911;721;1563;3769;3267;30673;80313];
[54485;1;3;7;7;21;37;9;129;431;79;1559;2125;7781;6441;23533;46919;25315];
[54508;1;1;5;15;11;61;77;231;349;647;225;85;6789;12557;6505;21985;54965];
[54513;1;1;5;1;19;21;33;211;347;491;1119;1619;3739;11255;26705;59691;35337];
[54528;1;1;3;3;29;15;7;23;279;145;699;289;475;1681;3201;64477;24919];
[54534;1;1;7;7;23;53;75;71;315;403;1521;1417;3749;11243;3951;61039;51143];
[54537;1;3;7;3;15;21;81;219;249;387;1405;3495;7143;2599;25435;15259;66069];
[54540;1;1;5;7;31;9;63;55;409;421;1851;847;1593;10447;2833;13209;47285];
[54551;1;1;3;7;15;3;35;49;253;21;1705;357;2751;9671;12429;4549;118691];
[54561;1;1;5;15;1;3;97;197;43;923;1273;663;4291;12357;28221;15291;60989];
[54573;1;1;7;7;15;3;35;115;449;641;743;1855;359;10983;2831;43983;56465];
[54579;1;3;7;11;1;51;69;27;29;187;1673;1273;7987;1223;8971;53805;4413];
[54586;1;1;3;11;1;55;91;241;35;97;1027;3967;703;3535;21681;55825;50423];
[54591;1;1;7;11;21;53;111;125;11;355;1585;3603;1705;16311;7045;15503;63625];
[54596;1;1;5;15;25;47;31;29;333;361;1831;1545;7751;8679;32453;61755;94637];
[54599;1;1;3;3;23;3;79;11;367;551;281;1273;5097;12527;473;33855;85783];
[54605;1;1;1;15;27;21;107;121;187;495;1877;1957;3647;13263;30729;18131;33689];
[54613;1;1;5;13;3;43;41;53;127;299;839;3327;7929;9921;29471;18075;34283];
[54623;1;1;7;13;31;5;59;75;335;929;379;139;7121;9281;31161;3177;2615];
[54654;1;3;7;1;11;19;81;199;425;639;497;693;1271;7363;10543;52513;130549];
[54667;1;3;3;7;21;41;101;67;363;5;1455;1433;81;15609;16231;13285;38995];
[54681;1;1;3;15;11;19;123;177;429;27;141;3095;5379;2241;29877;59383;25199];
[54684;1;1;7;7;19;63;93;217;279;349;149;2479;2355;6475;29993;37941;58715];
[54687;1;3;7;3;21;23;59;177;489;817;1209;1629;5805;3137;23767;62967;16609];
[54694;1;3;3;7;9;55;59;31;191;891;833;1059;3007;2331;385;58247;110697];
[54706;1;1;3;3;11;61;9;189;79;621;209;2785;2959;4133;20691;45605;117089];
[54712;1;3;3;5;5;47;31;1;451;765;2027;2327;1725;14341;7997;6449;77893];
[54715;1;1;7;1;7;27;27;129;227;505;1461;783;945;12653;17913;61631;41875];
[54723;1;1;1;11;13;41;41;221;483;825;451;493;1717;10389;7805;37707;30733];
[54725;1;1;5;3;31;31;75;3;323;83;563;919;7387;1673;6157;7415;14947];
[54726;1;1;7;13;19;37;29;93;153;491;1033;1389;6361;11133;20049;24585;107325];
[54740;1;1;1;15;3;35;79;251;383;665;2033;3165;3411;15965;28281;56521;56479];
[54750;1;3;1;15;23;1;87;145;443;405;635;1597;1455;5983;12741;55133;2815];
[54760;1;1;1;13;11;25;19;129;23;913;1121;223;1991;13449;30443;50573;108467];
[54768;1;1;7;11;29;31;49;51;415;293;173;4091;159;2679;30643;58725;109287];
[54771;1;1;1;7;15;53;69;231;387;693;1299;1383;7935;10313;22403;59341;3347];
[54773;1;3;3;5;9;21;111;11;469;109;1565;3107;2975;12491;26773;33245;27589];
[54796;1;1;3;5;3;9;103;127;345;301;857;2035;3269;13819;7555;5197;94557];
[54801;1;3;7;3;31;3;61;253;221;359;1281;1405;4819;1329;17773;29539;127043];
[54808;1;1;7;11;17;47;105;253;253;531;119;2009;6125;9387;13141;29079;28361];
[54814;1;1;3;5;21;13;21;223;79;819;1425;1001;6517;8883;29997;30637;7717];
[54837;1;3;1;3;1;23;113;69;235;95;1873;689;4611;13209;12681;16057;114071];
[54847;1;3;3;13;25;21;93;55;253;373;1659;829;6539;7453;28195;33131;92559];
[54849;1;1;3;11;25;29;81;235;429;811;1867;2923;5949;4423;93;64631;48357];
[54864;1;3;5;13;29;27;35;15;105;849;247;3999;6441;12443;19817;49897;21515];
[54867;1;1;5;15;13;59;3;199;267;463;655;3875;2895;13411;5081;22069;6053];
[54889;1;1;5;9;5;13;111;83;281;543;629;1349;1863;9523;19201;39229;78265];
[54895;1;3;7;1;29;23;109;75;347;643;97;1981;2797;11201;28355;54105;45551];
[54907;1;3;1;7;9;5;77;17;179;957;621;779;7117;1491;11563;10131;98335];
[54919;1;3;3;1;3;53;39;217;309;105;485;3123;3143;2359;4923;22307;120319];
[54923;1;1;7;7;11;5;65;165;321;455;625;2417;999;14999;6777;13319;43399];
[54926;1;1;7;3;11;55;43;119;135;129;581;3593;3475;14667;30509;5007;120135];
[54940;1;1;1;11;7;17;95;169;401;87;1425;1821;7619;3605;10993;35837;87311];
[54950;1;1;7;11;11;35;29;63;395;301;373;2457;6859;1915;11215;41075;78219];
[54954;1;3;5;7;25;3;97;43;273;459;103;3441;71;10269;29893;46053;104801];
[54961;1;3;3;7;31;3;121;255;73;783;977;513;6527;1189;8925;23245;22287];
[54973;1;3;3;13;15;53;51;135;465;341;263;1687;4085;14257;18745;46945;115475];
[54974;1;3;1;5;31;1;1;91;511;771;1501;2613;991;3859;28911;65417;201];
[54976;1;1;7;1;27;21;107;153;163;949;811;3087;3443;5621;28795;58311;63763];
[54986;1;1;7;5;29;29;57;175;29;821;1545;2643;725;16225;29111;19675;129995];
[54993;1;1;7;3;31;31;61;155;265;323;1829;3891;6393;8573;10627;10839;78683];
[55000;1;3;5;7;29;7;67;181;313;731;1761;1681;3673;8939;811;48931;82021];
[55010;1;3;1;3;11;51;81;67;173;881;855;3627;1613;4825;7035;36261;64899];
[55019;1;3;7;7;15;53;123;41;265;817;807;3875;7675;16225;13313;62217;47647];
[55021;1;1;3;13;23;47;125;155;403;651;1693;2185;5565;9947;20893;11287;118943];
[55030;1;3;7;3;19;47;69;5;209;259;367;3929;7579;12687;18109;51885;128281];
[55033;1;1;7;5;27;41;45;41;205;1001;1509;2649;1141;5355;10265;34131;112111];
[55039;1;3;7;5;19;41;103;63;49;25;271;793;3217;4741;2563;61333;113205];
[55047;1;3;3;15;15;35;13;233;277;673;545;545;7419;6707;1867;58873;110027];
[55048;1;1;7;3;9;23;67;55;3;1019;2001;2909;7311;9295;26953;43217;54597];
[55054;1;3;5;7;13;33;67;27;75;569;1777;791;1223;1805;19167;60537;60039];
[55059;1;1;5;13;15;61;49;59;289;907;1055;3579;8169;12119;25479;32867;65343];
[55068;1;3;5;9;5;63;91;225;377;469;891;891;5115;11487;30151;44357;120077];
[55071;1;1;1;15;29;59;19;51;295;585;149;497;5837;11629;7825;18129;113797];
[55075;1;1;3;7;31;25;77;209;183;337;1753;2703;2559;11847;17349;27359;21771];
[55077;1;1;7;7;13;23;69;61;353;339;833;1935;4333;10521;20331;62145;59245];
[55081;1;1;5;13;19;57;35;59;203;99;487;2747;637;8213;27053;29;64335];
[55095;1;3;5;7;27;5;71;147;339;313;913;2845;5713;4383;18969;54871;51931];
[55099;1;1;1;5;7;23;19;11;111;543;311;1519;387;10175;18209;14115;123421];
[55110;1;3;7;11;7;7;123;193;417;65;1317;3821;2315;14527;14113;25873;23977];
[55116;1;1;3;15;21;11;3;37;115;395;877;1227;6997;4357;11397;52855;24899];
[55122;1;1;7;5;15;45;45;17;441;605;429;739;4759;5249;11311;55049;56909];
[55134;1;1;1;5;3;5;77;31;407;703;385;235;7751;617;16013;27269;66971];
[55144;1;3;3;15;25;27;19;251;465;197;1039;3261;4557;4821;16083;43997;61371];
[55147;1;3;3;15;21;45;13;139;213;797;619;2125;3805;4149;11427;59807;104587];
[55158;1;3;1;1;29;27;25;7;371;535;1613;1083;4221;8913;10601;6447;17619];
[55162;1;1;3;3;13;35;37;127;285;899;307;123;129;14035;26503;64103;27155];
[55171;1;1;7;7;27;25;45;245;271;281;69;3505;7087;1529;7121;30327;89131];
[55185;1;1;3;11;13;57;31;23;455;427;1683;3019;5827;8817;12943;321;39951];
[55192;1;3;1;3;31;41;69;211;385;275;1569;2265;4017;11057;15;16619;126967];
[55197;1;3;3;1;27;27;21;145;125;929;1371;1469;1591;5283;4651;1265;17161];
[55207;1;3;7;5;29;31;41;141;49;967;1421;663;6089;3831;11353;38809;108605];
[55228;1;1;7;15;11;23;91;31;9;717;265;1729;3563;8145;20441;22933;103683];
[55246;1;1;7;3;17;13;47;13;241;1017;1803;2091;7379;2941;11783;36189;53513];
[55253;1;3;1;11;31;63;107;79;427;385;1497;1265;5135;13597;27343;56733;100595];
[55254;1;3;7;3;9;15;119;29;205;151;1453;3575;3627;7815;3553;31457;14267];
[55281;1;3;1;7;15;21;73;47;417;29;1231;2477;161;15997;4457;3939;43929];
[55300;1;1;5;5;19;49;103;251;359;69;669;299;8161;10579;13999;26859;92199];
[55303;1;1;3;1;9;27;81;7;115;29;1067;1933;3061;2885;27883;65227;59365];
[55307;1;1;1;5;23;17;1;113;495;155;1673;3945;8053;7935;3537;65141;11809];
[55312;1;1;1;15;15;59;61;213;303;851;1893;615;6659;9351;16621;6097;114383];
[55328;1;3;1;7;19;11;95;127;277;677;1631;2563;3295;7029;4059;44079;128857];
[55331;1;3;7;11;27;49;99;43;279;771;123;2969;699;12915;22039;62257;79359];
[55337;1;1;7;3;19;45;45;113;251;883;715;1541;1573;3345;23855;62681;57591];
[55348;1;1;5;15;11;1;51;15;135;519;961;1447;4425;2139;3309;35111;74143];
[55352;1;3;7;7;17;39;109;25;11;549;315;2175;685;11837;9151;6277;45011];
[55357;1;1;1;9;27;7;95;1;385;167;453;1027;4105;16351;19;10375;62833];
[55372;1;3;7;13;17;19;107;11;441;171;185;3567;1245;12161;30257;48105;87105];
[55375;1;3;3;9;15;5;109;225;85;919;513;3559;5411;9009;27391;25115;84875];
[55377;1;3;3;7;11;37;81;51;121;25;1897;2121;6425;16087;4259;29501;118067];
[55394;1;1;7;3;5;53;73;127;137;739;543;1723;1163;2791;18519;1459;50869];
[55406;1;1;3;11;29;51;101;189;193;839;25;3109;3035;3917;23929;38577;129705];
[55424;1;3;7;15;9;29;93;101;271;791;1257;1843;2701;8205;15195;9109;120835];
[55429;1;3;3;5;29;47;31;135;483;385;1395;2955;7291;12885;9491;14581;66293];
[55430;1;1;7;1;5;37;105;149;63;617;1611;3025;3177;15463;3373;3503;95001];
[55436;1;1;5;13;1;57;19;35;127;423;1221;1547;4083;347;17131;60087;27437];
[55439;1;3;7;9;25;1;105;39;25;921;1897;1729;2207;7761;24197;457;64241];
[55447;1;3;7;9;15;21;13;113;379;1021;489;1757;5869;4833;24717;52227;3209];
[55453;1;3;1;5;9;61;25;41;183;473;383;2259;6939;3;32161;6319;93099];
[55458;1;1;5;13;13;47;97;3;357;837;1655;485;4251;12153;9013;25121;51877];
[55460;1;1;1;15;7;59;65;119;467;313;1333;2007;5165;13935;13679;3999;81811];
[55478;1;1;5;13;13;1;63;117;449;13;1017;1583;7599;3669;32699;59455;32363];
[55489;1;1;7;9;7;15;37;251;167;25;1085;2067;2771;5737;20661;19231;59547];
[55501;1;1;5;13;29;11;63;37;281;657;1567;2879;7601;15617;16527;51695;5583];
[55502;1;1;5;3;31;17;19;65;315;413;927;3617;4089;11899;3759;47991;1685];
[55519;1;1;1;1;13;47;89;91;379;429;283;3765;2923;14955;26399;9579;39817];
[55525;1;1;1;9;1;17;91;119;327;291;39;2883;6265;553;7559;60577;34393];
[55530;1;3;5;5;9;33;123;219;103;529;181;1321;6815;2411;10555;43911;18889];
[55544;1;1;5;7;9;13;7;45;427;523;1189;255;2103;7217;16249;14631;90409];
[55550;1;1;1;9;11;35;55;71;89;637;1417;411;5305;10125;20715;62927;4993];
[55558;1;3;1;9;1;59;27;221;267;797;1081;951;1369;2677;20763;63301;61963];
[55561;1;3;5;5;17;9;67;177;89;953;1329;1649;989;7773;28747;26231;42331];
[55569;1;3;3;9;23;35;17;145;53;519;1173;2079;2593;3633;32005;30573;55651];
[55586;1;1;7;7;17;41;47;253;107;843;9;323;2391;3267;25813;1741;93493];
[55591;1;1;1;9;31;43;47;91;235;569;2017;2385;5055;5747;26471;48819;47315];
[55598;1;3;5;9;1;17;87;91;55;287;995;2577;1151;9119;22791;50899;16423];
[55605;1;3;7;1;3;29;9;193;269;201;325;2209;1061;7957;23265;65083;27575];
[55609;1;3;7;15;27;23;37;239;165;959;1965;2105;1581;6621;17315;49255;62487];
[55618;1;3;7;7;11;31;73;145;429;421;571;3375;2797;15889;26523;12315;48061];
[55630;1;3;3;15;23;27;105;75;497;137;475;1343;537;10499;27807;46623;32435];
[55642;1;1;7;15;15;11;51;107;225;557;1461;3447;1243;13827;23675;26139;54603];
[55644;1;3;5;5;7;25;51;3;85;371;1503;3217;1779;7141;29471;42247;107699];
[55653;1;3;7;15;23;53;127;229;241;165;1985;1921;5917;15743;18349;23981;58241];
[55654;1;1;3;13;9;63;49;67;21;57;377;1807;5603;13651;28039;3745;4903];
[55660;1;3;7;11;1;43;17;95;79;343;1939;2349;5195;3047;4325;27829;53809];
[55671;1;1;5;9;7;43;111;221;493;151;1635;3949;6661;4861;17661;61909;4975];
[55693;1;3;1;3;31;47;63;45;401;153;1139;2125;6639;14093;31607;20645;52245];
[55706;1;1;3;1;19;31;59;139;285;749;751;775;7795;14917;30295;61037;12315];
[55712;1;3;3;9;15;55;79;183;373;663;497;2589;4955;5409;23527;2683;5487];
[55718;1;3;7;11;25;47;53;225;197;109;1937;1375;7347;7353;2335;21775;14877];
[55739;1;3;1;9;23;61;51;221;129;57;115;1031;6793;14773;3331;24951;94761];
[55747;1;1;5;15;31;9;69;117;295;147;673;3627;7167;13835;20593;53163;83033];
[55754;1;3;7;9;15;63;111;225;147;863;691;629;7485;483;21835;46251;94645];
[55771;1;3;3;3;11;41;23;159;133;787;1617;629;5047;4465;29051;47499;7211];
[55774;1;1;3;13;21;61;29;159;73;165;917;2577;7237;11807;3767;56861;51395];
[55780;1;1;5;3;15;31;37;233;283;265;1645;3843;1971;4989;26823;15243;74931];
[55783;1;3;7;11;9;51;7;119;237;905;1211;3041;7641;3387;8373;38961;68925];
[55784;1;1;7;3;17;53;55;195;57;957;2027;3965;2993;411;13947;58349;32169];
[55789;1;1;7;9;7;37;55;93;173;769;1381;3977;5293;5051;21455;45547;64653];
[55798;1;3;5;7;1;41;89;161;315;361;1675;2993;3281;13043;19003;22129;130379];
[55802;1;3;1;9;13;37;85;197;465;177;661;943;541;11117;9751;4193;98291];
[55823;1;1;3;7;21;7;67;17;41;817;1159;1483;6937;10079;3639;27887;14541];
[55828;1;3;3;15;17;63;69;215;437;883;1857;3319;3107;16279;10709;30433;52551];
[55837;1;1;3;11;1;5;69;37;419;999;1711;875;3807;10811;16345;61155;116043];
[55838;1;3;7;13;17;7;57;237;81;691;1143;4075;2481;643;8091;8243;80111];
[55847;1;1;7;7;17;61;73;215;113;885;159;2243;1177;10981;10123;48995;123349];
[55848;1;1;1;7;31;47;99;15;371;343;1483;1985;25;11125;8357;10677;130895];
[55885;1;3;1;13;25;41;83;37;129;493;641;185;6607;7213;13285;10439;73227];
[55897;1;1;5;7;17;15;93;53;281;91;115;3675;3081;9825;23653;40095;91803];
[55904;1;1;1;5;3;25;39;207;419;361;953;2823;8105;15763;29199;61607;32633];
[55910;1;1;3;1;31;51;55;3;277;639;191;1783;139;29;16659;30199;69109];
[55919;1;1;1;7;31;59;25;13;239;617;115;1787;5757;9927;2417;37313;115135];
[55922;1;1;3;5;19;35;5;187;483;823;1875;163;4235;853;23679;50899;94981];
[55931;1;3;3;11;9;39;121;201;189;543;1493;1215;351;16063;1701;56559;108053];
[55933;1;3;1;7;1;39;31;163;347;307;349;4081;1729;16265;363;28297;50631];
[55937;1;3;7;13;21;55;127;161;75;9;1285;1839;5283;5667;10979;22185;7581];
[55943;1;1;3;5;13;45;17;181;117;395;1685;663;3441;5359;7157;27759;102343];
[55955;1;3;1;7;7;31;97;187;383;769;1469;4007;5521;13973;49;43823;75649];
[55957;1;3;5;7;31;13;47;11;335;961;321;3367;1903;503;8409;1101;58215];
[55968;1;1;7;7;25;49;39;1;453;419;333;1759;2287;6243;10723;13687;56853];
[55980;1;3;3;7;11;55;125;197;19;591;1969;511;2501;8429;29467;27917;63457];
[55986;1;1;3;11;11;43;35;213;231;119;379;3761;4891;5677;20317;5459;55487];
[55992;1;1;5;7;21;9;127;59;97;963;847;2131;7907;11409;8785;48197;96907];
[56005;1;3;5;3;23;7;45;95;179;691;1571;3091;6359;9105;26021;26925;43];
[56034;1;3;3;7;21;7;11;219;439;465;1983;117;4639;8387;27637;15883;5567];
[56051;1;1;7;3;1;3;51;205;425;133;563;1317;533;1227;8361;23407;39825];
[56054;1;1;5;3;3;39;19;69;477;605;3;1887;2077;13673;2763;64415;104519];
[56065;1;1;5;15;11;45;89;245;177;591;1313;587;4781;5103;26401;12643;38959];
[56080;1;1;1;5;11;13;15;95;271;99;2001;2701;6065;3527;7423;37525;117161];
[56101;1;3;7;7;21;17;111;149;373;591;1461;809;3877;8635;13209;31439;64285];
[56113;1;3;1;15;25;51;55;161;357;181;41;2345;3553;9917;30123;40683;122497];
[56126;1;3;7;15;5;55;119;239;291;665;1537;3309;2519;12397;25897;51529;28673];
[56131;1;1;1;9;25;45;21;119;19;145;313;2509;1031;3319;14863;10759;22577];
[56134;1;3;1;15;1;61;87;229;511;83;79;51;1407;16293;26217;25839;86207];
[56143;1;3;7;7;23;43;89;11;43;801;569;3273;315;9537;681;34783;97101];
[56148;1;1;5;1;13;31;77;115;501;669;27;3765;6789;9139;30587;45995;102433];
[56152;1;1;7;1;15;21;57;197;243;353;71;341;7319;8467;9779;15755;4185];
[56174;1;1;1;1;17;21;3;185;277;585;265;3189;3975;353;8541;23905;21881];
[56181;1;3;5;3;5;23;113;253;343;73;1419;2529;4333;2007;14307;60591;55411];
[56182;1;1;7;3;25;35;109;173;351;487;1551;3207;1189;5091;3581;4699;22085];
[56185;1;1;3;11;9;9;71;173;17;595;2015;2543;4889;6025;15265;6459;3977];
[56192;1;3;5;15;11;13;11;189;431;307;317;3131;1421;10863;5311;25273;43187];
[56201;1;1;1;7;7;41;103;231;321;327;1849;2485;6461;10259;4577;52951;33053];
[56215;1;3;3;15;11;33;73;155;453;597;575;2119;327;4227;32271;7429;102007];
[56219;1;1;3;7;15;9;95;177;21;245;257;3637;821;16351;1733;10635;59885];
[56222;1;1;3;7;23;41;107;147;57;877;1609;3275;339;12997;5989;62293;21549];
[56258;1;1;7;13;19;39;111;229;321;487;873;3365;4915;251;30629;45775;73549];
[56264;1;1;1;13;25;61;43;111;135;463;1921;1723;7505;13805;30633;51683;7353];
[56269;1;1;1;1;31;41;35;205;375;189;635;3589;3507;8131;13437;22823;68451];
[56272;1;3;7;5;31;47;13;229;105;195;685;529;39;2651;6821;11043;112123];
[56278;1;3;7;13;3;23;21;203;89;957;1577;1711;585;3937;17681;55577;61075];
[56282;1;3;3;3;17;37;49;7;287;183;1185;2979;2103;1217;22105;11677;19603];
[56306;1;1;1;9;29;35;93;179;403;563;441;3485;6909;12647;3885;60089;29275];
[56308;1;3;3;9;15;37;49;103;509;77;495;921;2599;14735;30951;22779;47747];
[56318;1;3;3;11;17;45;43;235;379;51;925;89;2241;10273;27649;8101;93977];
[56329;1;3;3;3;11;7;25;163;405;997;847;2743;4705;7041;10997;50189;10775];
[56356;1;1;1;13;19;43;3;125;37;41;5;965;2681;3737;29057;37777;119537];
[56360;1;1;1;1;11;27;101;67;73;199;1739;2835;5837;10595;9865;38493;99323];
[56383;1;3;1;13;27;43;21;79;419;847;843;2563;8133;10295;10127;30839;104863];
[56388;1;3;3;11;15;37;71;251;157;971;165;1647;2583;205;23555;55297;106893];
[56391;1;1;5;15;1;21;113;107;287;727;71;2655;1435;11125;15257;18899;37737];
[56405;1;1;3;3;27;49;17;85;57;237;349;4049;1103;2523;3919;36587;128595];
[56406;1;3;5;9;13;1;65;13;361;409;413;2153;5953;10651;25383;49777;65399];
[56416;1;1;7;9;19;47;69;127;121;925;57;2775;4981;3643;4077;3081;56093];
[56426;1;3;3;13;1;53;45;13;489;445;623;3547;1659;1899;11971;3725;12445];
[56439;1;3;7;11;13;9;59;157;125;975;1283;297;3609;3179;31341;54727;112515];
[56446;1;1;1;13;23;63;69;249;159;593;47;3957;757;14693;26345;18839;111263];
[56450;1;1;1;1;31;37;37;199;7;425;337;1475;271;16215;12089;16765;13519];
[56459;1;1;7;11;31;59;121;139;413;807;737;1235;3505;5859;14205;31939;4713];
[56461;1;1;1;9;21;51;113;159;345;807;635;523;5535;13307;4239;14847;23711];
[56464;1;3;5;13;31;7;33;1;293;271;1829;2535;6333;12037;29401;35009;37789];
[56469;1;1;7;3;7;57;31;45;177;475;843;1265;585;16099;29293;52407;56131];
[56489;1;3;3;11;1;25;117;205;139;141;1229;903;1883;11269;30493;3979;4263];
[56490;1;1;5;13;25;43;9;237;347;869;1765;1389;1931;13331;17325;45999;121201];
[56497;1;3;3;11;3;13;95;49;389;53;491;1467;5105;16053;6305;15759;51991];
[56509;1;3;5;15;1;53;85;69;75;409;1299;1245;7951;10709;9157;3509;103975];
[56515;1;1;1;13;1;33;97;235;463;413;1759;1891;1781;5261;5759;201;69199];
[56518;1;1;3;13;21;27;101;143;123;705;969;2461;6057;13091;6077;38311;30379];
[56524;1;3;3;1;13;11;73;33;495;513;763;3089;421;13663;30169;56599;38847];
[56535;1;1;7;13;13;31;91;63;233;137;859;2449;539;12461;13477;31605;58919];
[56542;1;1;1;9;13;49;107;45;451;707;1735;1881;3451;9131;25481;10841;116067];
[56545;1;3;7;1;27;21;51;117;63;53;575;3325;1099;11181;23609;47141;115421];
[56551;1;3;1;13;25;29;53;135;165;319;1695;341;8157;10671;7095;60749;31513];
[56555;1;1;7;5;3;53;123;137;449;87;951;693;6943;15331;1515;24019;56613];
[56560;1;3;7;5;25;17;43;251;301;203;633;1271;6253;4475;10773;25003;67599];
[56569;1;1;3;9;1;25;117;159;13;155;851;2497;6155;6549;27909;24423;82357];
[56580;1;1;1;1;21;59;103;43;291;111;1355;401;5129;16017;25947;15391;46745];
[56584;1;1;1;13;13;51;95;111;17;963;1535;3003;6163;11377;6787;57275;109559];
[56598;1;1;5;11;11;3;85;207;489;117;269;747;5719;8501;7307;59223;18941];
[56601;1;1;5;1;9;53;41;255;271;995;1939;2739;2221;14841;22617;10643;6427];
[56602;1;3;3;9;7;55;109;143;427;45;579;115;2061;8447;29469;5523;129063];
[56623;1;3;7;5;23;63;119;31;53;821;135;2677;807;4685;24391;55165;88079];
[56637;1;3;5;9;15;11;73;177;243;375;115;1633;7983;15039;21169;25325;128479];
[56638;1;3;3;5;21;51;13;51;75;993;77;209;2761;451;11987;40297;2383];
[56643;1;3;7;1;19;9;11;161;19;851;1313;1169;4405;7493;23935;37323;107387];
[56650;1;3;5;15;5;11;79;129;507;247;811;1145;3893;5205;11309;38205;2051];
[56673;1;1;5;1;11;13;33;155;21;185;771;3261;981;743;12479;22611;25321];
[56676;1;1;5;9;7;25;11;235;429;563;1647;1429;1385;14411;3831;19769;67599];
[56686;1;3;3;5;5;7;109;117;251;823;669;2043;1843;11829;27051;35865;11461];
[56704;1;3;5;5;7;3;45;63;305;99;393;1765;1711;15569;27295;16555;77631];
[56710;1;3;5;11;23;33;49;125;85;677;1589;2667;5723;15619;30415;39561;122763];
[56721;1;3;7;13;27;21;99;209;481;123;1285;115;6517;11753;11365;44959;89];
[56731;1;1;1;7;15;15;45;151;489;169;933;2987;657;3095;6745;131;37767];
[56738;1;3;1;15;1;37;99;137;151;891;715;383;1293;719;10957;5557;92841];
[56747;1;1;1;3;27;59;93;49;473;313;431;1129;5995;13101;13185;7091;109677];
[56750;1;3;3;7;1;41;55;135;271;527;1919;1093;2579;3725;22853;31613;4729];
[56752;1;1;7;1;7;13;63;255;219;837;117;2323;4295;15697;8607;47047;117869];
[56757;1;1;1;7;29;29;55;171;437;733;491;1037;7221;5705;31819;19583;103991];
[56787;1;3;7;1;31;19;65;39;151;517;1985;2251;6147;12983;28263;35891;7545];
[56796;1;1;7;7;21;41;97;253;427;391;849;611;4827;10807;6267;22513;62803];
[56803;1;3;7;7;25;9;49;245;491;39;603;1853;5655;3517;10745;55069;121497];
[56812;1;3;1;5;9;39;109;195;283;141;2007;3;1267;13053;8387;48665;48877];
[56815;1;1;3;7;27;61;49;43;229;497;2015;1345;3195;7139;13453;56993;15099];
[56824;1;3;5;11;31;53;87;97;385;387;1107;3287;2517;7421;1007;37421;124113];
[56829;1;3;3;11;9;55;51;215;181;419;863;3149;5815;15579;28527;34715;61375];
[56833;1;3;3;3;31;57;5;35;445;957;1897;105;2533;10255;19795;49127;38491];
[56839;1;3;3;13;25;53;1;159;443;541;439;3377;5511;9667;26777;32599;36981];
[56840;1;1;1;3;23;29;97;131;59;143;1601;2765;4569;11081;6027;38641;100745];
[56845;1;3;3;15;9;15;19;35;321;935;465;2707;4799;7455;12743;31029;114149];
[56853;1;1;1;1;11;51;23;79;387;701;107;623;231;12571;7719;3061;79605];
[56854;1;3;5;15;17;49;109;83;185;295;853;219;3615;535;32001;6655;4185];
[56858;1;3;3;15;15;7;35;151;305;705;1383;1595;5595;11995;15491;49119;83383];
[56863;1;3;7;9;3;25;57;47;359;719;1937;1403;1399;10827;24181;29141;79017];
[56864;1;3;5;1;1;21;21;245;361;485;1521;3935;1587;8653;25871;49449;103413];
[56881;1;3;3;3;9;61;31;69;401;261;1217;3069;4045;12437;32017;15113;10769];
[56882;1;3;1;1;21;33;123;87;481;793;625;4087;1361;11077;18835;13287;40107];
[56896;1;3;7;3;9;49;101;213;467;77;1691;2621;4411;8025;30247;13691;20559];
[56901;1;1;1;9;29;49;47;135;1;337;1649;389;3845;7213;19527;2619;78841];
[56902;1;3;7;9;23;23;47;97;493;767;137;1467;7015;2883;12749;9267;12441];
[56908;1;1;3;15;9;57;53;19;401;385;1159;1185;6977;14027;3183;59119;42065];
[56923;1;1;1;15;21;33;83;251;147;395;321;443;6893;1877;6687;28863;86531];
[56925;1;3;3;1;3;47;27;247;121;827;1399;4079;7545;11691;27915;28811;17099];
[56926;1;3;5;7;5;59;73;69;117;897;905;3273;2935;11077;32443;60959;16081];
[56932;1;1;7;5;27;49;107;169;75;435;1913;2089;5733;2361;5163;52239;87411];
[56939;1;1;7;13;1;13;123;89;427;301;1217;1491;5361;10381;28971;57655;108607];
[56947;1;1;7;11;13;5;23;151;117;369;623;2263;2609;109;32485;52133;69391];
[56954;1;3;7;11;7;33;127;43;123;203;775;3215;5115;1805;14581;46791;128781];
[56970;1;3;3;1;7;23;37;99;1;719;293;2727;6859;683;13241;17839;4215];
[56972;1;1;1;13;27;41;93;25;59;947;971;1523;4443;1209;32317;58651;11121];
[56977;1;1;1;3;31;33;23;87;349;265;445;3489;783;7833;5767;59295;45057];
[56980;1;1;1;1;15;47;19;15;217;837;2043;2805;4701;5873;1517;46743;61655];
[56993;1;3;7;1;27;27;9;107;25;897;955;3763;821;1535;14557;38537;128737];
[57013;1;3;3;7;19;49;121;217;401;975;1189;715;3113;4219;4885;57861;6833];
[57017;1;3;3;1;17;59;53;15;259;791;2035;499;7707;13685;14367;20155;91033];
[57018;1;3;5;5;11;11;69;237;139;73;541;1135;2647;14109;18113;8051;31917];
[57031;1;1;1;15;11;23;89;181;295;743;29;4009;4683;13989;4575;38865;30449];
[57059;1;1;1;11;21;63;31;121;55;153;1143;4059;3247;11725;17659;48935;118369];
[57062;1;1;7;9;17;29;27;167;69;957;2009;2795;3161;3493;16365;43637;102321];
[57065;1;3;5;13;27;23;17;7;345;253;631;1389;2523;9993;32619;46731;4757];
[57071;1;1;1;11;17;1;41;107;25;183;1361;1211;3607;12713;16011;42987;36415];
[57083;1;1;7;5;13;29;33;69;261;213;73;3737;3867;503;28225;53735;91695];
[57093;1;3;7;7;21;63;75;39;259;367;487;2087;5411;1925;29589;39019;73283];
[57097;1;3;1;7;29;29;25;191;91;509;1485;853;7011;13321;27769;10249;87341];
[57106;1;1;7;7;1;9;115;71;321;913;1679;2129;771;9217;4731;24353;35631];
[57118;1;3;1;13;5;45;53;255;429;805;1983;1437;2677;6337;22221;55455;39855];
[57133;1;1;1;1;1;5;111;231;321;961;371;3825;3623;3985;32151;6113;130687];
[57134;1;3;7;3;15;29;103;181;261;149;1161;1745;1765;1677;20051;47033;84997];
[57141;1;3;7;1;25;21;7;229;407;673;1525;1207;3099;14849;22103;45695;85951];
[57146;1;3;7;1;9;5;105;149;181;81;1589;3477;5387;7943;29203;50355;39001];
[57156;1;3;7;1;21;31;39;121;397;1023;711;623;6193;12315;11101;11911;50033];
[57174;1;3;7;3;7;19;73;69;201;337;1037;3663;2679;5153;28171;24455;74685];
[57183;1;3;1;1;21;35;121;111;217;809;507;1347;4439;4601;26371;23595;3583];
[57189;1;3;3;7;1;51;83;231;419;597;305;3405;5831;11845;1861;48671;105315];
[57190;1;3;1;15;25;37;103;141;495;727;1919;2821;4689;6727;27117;2259;54559];
[57193;1;3;5;3;27;55;5;117;199;979;1745;401;7967;5345;29747;54085;124765];
[57196;1;3;3;15;23;61;1;29;489;131;583;389;6033;8007;22933;44513;111845];
[57207;1;1;7;13;3;55;119;147;181;485;793;3593;6971;2227;28507;62393;127303];
[57211;1;1;5;3;29;53;37;59;213;283;1809;3685;2677;5761;19705;47079;3477];
[57214;1;1;1;7;21;63;91;13;347;605;589;415;5737;10281;30941;25609;67973];
[57218;1;1;3;1;27;49;87;161;507;693;59;1375;6737;1029;14731;32335;51961];
[57230;1;3;3;9;11;15;121;121;151;335;221;3099;1999;1047;20891;23015;95809];
[57235;1;1;7;7;1;49;63;227;113;161;863;801;2559;7737;27619;27419;128009];
[57241;1;1;7;1;25;59;67;111;435;309;807;2107;8077;9671;6739;53757;41259];
[57251;1;3;7;3;3;19;7;111;237;981;1717;3131;6631;467;13103;61435;126469];
[57260;1;1;7;9;19;31;59;185;199;111;351;611;6355;1095;28549;32871;44537];
[57263;1;1;3;11;23;25;31;1;461;83;1723;1711;3679;10963;14927;17377;911];
[57265;1;1;5;13;3;37;127;159;199;223;1097;3033;5825;13777;22189;44305;20509];
[57271;1;1;5;15;13;49;17;79;289;601;1023;657;1687;14477;15929;4279;68007];
[57272;1;1;5;7;29;3;45;225;65;711;1039;3585;4957;9041;22761;26649;95627];
[57290;1;3;5;5;13;29;33;211;461;799;1437;1057;485;9535;8133;57527;12873];
[57295;1;1;3;3;15;43;53;15;395;561;1371;3543;7707;2399;13311;25641;58865];
[57298;1;3;1;7;1;9;115;39;249;87;835;97;8137;6665;11951;21045;76387];
[57325;1;3;3;9;5;63;115;163;331;1007;733;4027;2911;5329;6967;3535;107293];
[57328;1;3;1;11;5;55;81;63;345;535;1093;207;4053;9129;10397;26641;95171];
[57340;1;1;3;3;13;27;65;37;255;69;19;2565;4329;11223;18131;18701;31111];
[57344;1;3;7;7;25;57;81;189;227;377;829;1583;1343;4643;23485;47463;83535];
[57353;1;3;5;9;13;33;103;75;501;803;427;1171;1187;2655;24187;32907;120239];
[57368;1;3;1;7;31;63;21;137;241;63;1925;2193;1135;11159;14685;28397;59];
[57371;1;1;7;1;15;7;85;87;493;63;561;1069;5481;12253;25149;35283;16123];
[57383;1;3;3;5;19;17;23;95;429;805;1343;2243;233;7219;6549;21477;83679];
[57402;1;3;3;1;3;55;83;107;131;311;741;781;6227;10059;3903;235;45971];
[57407;1;1;3;13;21;43;79;149;367;755;463;221;5117;7015;17599;64665;37443];
[57419;1;1;7;15;3;59;107;13;213;287;1505;2131;6965;12873;23973;8449;24829];
[57424;1;3;5;11;25;45;39;17;175;749;1179;3349;6723;12543;3557;34521;103197];
[57433;1;1;3;13;23;41;21;25;91;941;879;4015;137;12949;17245;41903;39803];
[57452;1;1;7;15;11;33;45;127;321;895;1543;4013;6179;14209;13317;46803;99891];
[57458;1;3;3;13;13;11;101;11;177;869;509;2323;449;16379;31965;2899;59229];
[57467;1;1;5;7;15;37;113;237;463;489;1145;1629;3101;10305;31705;29957;99665];
[57470;1;3;5;7;21;29;45;133;367;657;1315;537;6069;8141;31479;32983;57];
[57473;1;1;3;9;13;39;109;125;467;975;829;4007;773;6639;8793;4579;60547];
[57479;1;1;1;15;21;5;113;51;159;501;1921;4095;5603;16055;16649;50229;49863];
[57480;1;1;5;13;9;21;77;187;355;299;1017;491;6725;4177;16739;15909;84069];
[57486;1;3;7;5;13;13;51;19;159;339;735;933;2523;11435;20793;21975;19007];
[57491;1;1;7;5;1;11;61;111;129;643;1741;945;7349;11579;24793;1751;2367];
[57493;1;1;5;5;29;45;63;177;507;277;1789;729;4277;10099;28985;43009;2319];
[57524;1;3;3;13;19;53;73;227;487;131;1227;3735;3979;7383;6923;31979;6651];
[57528;1;3;3;15;7;47;31;255;317;621;497;4069;5249;15093;18013;6891;81893];
[57534;1;1;7;5;17;23;119;27;55;555;221;2693;1757;11117;23409;21135;122977];
[57542;1;1;5;1;15;17;127;109;75;1017;1167;2975;3249;5399;12599;50779;78215];
[57560;1;3;5;5;1;13;65;199;101;75;513;493;6931;9363;5607;16331;69219];
[57565;1;1;1;15;19;37;63;177;397;645;905;1599;609;14291;14681;46719;117745];
[57570;1;3;7;13;3;57;63;49;67;913;1659;1857;3595;9219;11341;39735;82275];
[57579;1;1;5;11;19;1;5;181;55;763;469;2417;2349;12437;22589;17867;95701];
[57590;1;3;7;13;1;9;11;159;103;737;1989;59;4711;8093;31703;45663;92913];
[57601;1;3;3;11;15;9;35;217;299;479;1539;2605;2003;8841;27261;28853;98877];
[57604;1;1;5;5;15;45;73;159;205;1017;159;3659;2377;3651;6489;19711;109959];
[57607;1;1;3;15;7;41;7;47;357;433;211;111;2565;8637;15917;47887;128513];
[57621;1;3;7;3;25;9;33;33;5;805;1541;3333;7257;9011;4813;53195;52469];
[57635;1;1;7;15;27;3;11;57;415;371;563;2515;149;6555;31273;51465;2989];
[57642;1;1;1;11;3;41;25;175;499;879;1145;1083;7857;10497;16991;23351;115353];
[57650;1;1;3;15;15;9;39;239;285;413;989;2927;7205;79;20101;30115;113933];
[57655;1;1;7;5;13;29;29;69;25;533;1731;1391;4065;12597;19167;51989;101273];
[57670;1;1;5;3;9;41;83;127;197;627;173;273;593;15733;19285;26517;107877];
[57676;1;1;1;5;29;17;89;163;125;473;1577;2435;3379;3057;1829;64325;111719];
[57682;1;3;1;11;1;29;97;53;421;941;1737;3337;2715;1633;28485;30369;116047];
[57687;1;1;5;13;25;43;39;85;385;129;819;1647;3527;12319;573;58703;29463];
[57691;1;3;3;9;23;59;31;215;49;451;645;3687;4507;9359;28161;34609;123409];
[57700;1;3;1;9;13;25;97;239;203;31;1465;1089;7665;3007;22465;28389;119869];
[57704;1;3;3;1;29;51;19;83;443;193;647;3125;7269;3031;9967;40447;102179];
[57707;1;3;5;15;5;63;125;55;295;787;559;3309;7491;9907;5775;15155;41793];
[57721;1;3;7;7;21;61;125;207;43;159;539;435;1945;725;797;47489;43099];
[57731;1;1;5;7;11;11;61;103;23;693;493;1045;4435;9009;22075;24839;125431];
[57733;1;3;1;9;13;61;83;181;373;949;1397;247;5079;10933;31887;14147;55121];
[57738;1;1;7;15;31;47;87;219;357;409;943;2993;7615;7071;14179;41489;104401];
[57745;1;3;3;1;11;15;87;241;389;761;1523;3049;2111;11581;5493;11301;32017];
[57748;1;1;7;11;29;39;37;63;411;671;1789;3541;5651;11721;10871;53867;112895];
[57751;1;3;3;1;23;21;99;161;467;197;1263;451;5469;7667;22139;31599;8345];
[57757;1;3;1;3;11;41;13;79;3;377;1865;2297;1383;14033;17141;24787;127911];
[57761;1;1;1;1;5;11;5;181;323;853;831;1599;3939;6391;22817;37969;9997];
[57774;1;1;3;11;29;61;11;171;181;631;757;3879;4779;16183;5969;7909;42855];
[57779;1;3;3;15;19;17;107;187;19;743;909;1963;2131;2107;659;35829;57905];
[57786;1;1;7;1;31;29;67;99;353;715;65;3907;1931;1289;9217;60635;32737];
[57808;1;3;3;13;3;17;19;173;263;203;1233;1407;933;8905;26905;63343;64963];
[57814;1;3;1;13;21;43;97;79;163;529;1571;1027;4339;16235;9189;29203;36789];
[57817;1;1;7;1;31;1;117;247;193;333;1797;3515;285;2803;25345;9101;110569];
[57824;1;1;5;11;17;63;45;167;35;925;569;3687;6739;12453;26171;28249;73827];
[57827;1;1;5;1;19;49;107;183;435;305;1191;2711;891;15813;13449;23489;89749];
[57848;1;1;1;11;7;53;105;17;433;351;1151;4077;5371;10183;18895;13229;101219];
[57853;1;3;7;9;21;33;27;125;177;607;817;2689;2123;2037;29643;27219;44591];
[57857;1;3;5;11;27;51;29;161;469;349;1445;3613;1487;961;29017;2235;45905];
[57858;1;1;3;11;7;15;37;195;329;875;559;1361;7373;7143;15059;59205;37167];
[57867;1;1;5;1;7;25;27;211;301;369;227;123;4415;15993;4829;43801;83639];
[57872;1;1;3;5;25;37;31;205;69;275;855;1407;2989;11001;16963;31497;3505];
[57887;1;1;7;7;25;33;81;181;197;717;207;535;8083;5765;2523;40347;27245];
[57894;1;3;1;5;13;3;107;143;233;419;1831;2149;7277;13449;31609;48345;82621];
[57915;1;3;5;9;31;35;39;113;415;803;1479;3169;8015;4659;2445;9159;91625];
[57920;1;3;1;5;27;25;83;165;459;955;1535;377;5531;2945;18285;18097;21589];
[57923;1;1;1;15;13;23;11;159;471;951;1971;677;2641;3227;14761;39421;29841];
[57932;1;1;7;11;19;37;101;97;373;559;105;905;897;15309;14979;52029;38989];
[57937;1;1;5;15;31;43;71;75;481;997;5;1005;4987;7907;16237;43075;94827];
[57943;1;3;5;11;23;55;123;91;183;307;97;1999;3341;4717;19643;9455;26555];
[57950;1;1;7;3;29;61;75;197;125;579;145;1333;85;15655;28177;6169;43289];
[57960;1;3;7;13;21;15;1;221;293;991;35;2701;2909;7333;27319;32281;77861];
[57971;1;1;3;1;17;11;81;209;499;125;105;2987;3891;9531;27963;39611;43633];
[57974;1;3;3;3;29;45;51;63;209;75;1321;4055;7851;12329;8371;59513;49105];
[57983;1;1;7;5;9;63;59;127;445;899;1857;3737;625;15021;25177;21007;25935];
[57987;1;1;5;9;9;57;25;63;235;191;1527;1783;1401;1813;2553;1241;100029];
[57994;1;3;1;11;27;5;49;39;505;653;1083;921;1045;11337;25499;36211;75851];
[58001;1;3;3;1;29;19;71;93;223;153;561;1657;5821;14181;1275;24633;114787];
[58002;1;1;1;9;7;13;17;239;457;731;1811;3015;4465;5865;2387;30455;17405];
[58013;1;3;5;1;7;45;117;207;7;645;131;863;6443;14455;11885;39257;126431];
[58023;1;1;3;5;17;23;3;27;475;731;431;1967;981;12727;1301;17647;62481];
[58027;1;1;1;13;11;53;105;109;105;461;1787;2851;1299;9925;13055;58301;24483];
[58029;1;1;1;11;7;35;11;173;247;289;1269;361;2059;5051;25731;58085;21387];
[58032;1;3;1;5;9;31;59;151;435;519;1863;2255;2585;10033;29189;27189;25023];
[58041;1;1;5;5;25;17;53;189;187;847;369;3287;6047;2385;26045;48821;23335];
[58047;1;1;1;9;15;55;79;21;433;131;1677;3681;6173;9189;15053;12971;81135];
[58062;1;1;3;5;29;5;11;213;151;77;1493;3959;7675;7689;10381;15871;123463];
[58086;1;3;7;11;19;47;31;81;207;789;1945;2671;1987;6363;26401;9799;59531];
[58092;1;1;1;7;17;7;83;181;339;423;267;2251;1847;14883;13423;27223;81799];
[58095;1;3;5;15;9;9;73;95;197;267;743;2369;6417;3555;9885;6373;87651];
[58097;1;1;3;13;21;29;57;59;395;631;993;17;2939;14117;27521;61387;74927];
[58100;1;1;3;13;1;29;23;151;381;591;1217;2295;4403;15865;4325;31329;56989];
[58117;1;3;5;1;27;7;111;79;287;945;1237;2857;1461;2477;10929;17117;98677];
[58121;1;1;1;5;15;35;109;39;391;57;1783;3133;5563;7721;12651;3437;46697];
[58132;1;3;5;5;13;47;123;51;383;91;641;1607;4461;7;6427;42755;130097];
[58142;1;1;5;5;25;49;33;59;351;1003;301;2721;7705;5447;21367;63007;112465];
[58145;1;1;5;13;31;11;73;1;359;201;1465;187;7385;12817;12911;17775;77937];
[58152;1;3;1;15;29;5;117;69;79;93;947;133;1049;13907;3611;42123;8041];
[58155;1;1;7;7;29;17;71;171;357;619;1199;3817;6889;9607;19075;15539;54939];
[58163;1;1;1;7;23;29;91;227;119;865;943;381;5289;189;15917;13875;31095];
[58166;1;1;7;1;9;49;93;175;105;61;1285;3659;2383;505;12337;43801;67035];
[58170;1;3;5;1;31;47;75;17;455;231;1887;2295;2533;733;29001;22001;119423];
[58175;1;3;7;3;5;5;69;205;459;805;1257;3283;3305;6845;1405;56051;63453];
[58184;1;3;3;3;19;57;65;149;175;683;1719;637;4951;13645;30455;22379;105369];
[58197;1;3;1;11;31;27;69;13;191;645;1563;3897;2387;2269;12999;42217;100853];
[58202;1;3;1;13;31;7;11;227;267;373;1249;2591;4769;303;5865;59911;4991];
[58204;1;3;7;11;7;31;87;205;45;785;1947;1965;5851;7501;89;38897;91939];
[58208;1;3;5;9;21;37;79;181;163;355;1129;3439;5103;15903;2935;22505;97451];
[58213;1;1;3;9;7;37;107;255;69;133;551;1357;31;7059;29195;30151;81785];
[58220;1;3;3;5;3;51;3;143;305;697;1041;1267;7635;1483;649;28275;65059];
[58226;1;3;1;7;11;13;113;81;159;993;797;3207;3787;13005;29393;51107;42709];
[58231;1;1;3;13;7;11;113;195;349;377;2033;197;147;13839;5405;29577;64535];
[58235;1;3;1;9;1;1;77;73;383;463;1871;1589;1805;2085;5195;17805;33159];
[58254;1;1;1;9;25;37;123;119;507;515;1547;139;7501;4725;30195;18199;41145];
[58261;1;3;3;7;17;33;99;11;487;343;403;337;3831;6031;20375;2071;39795];
[58271;1;1;5;1;13;57;59;11;391;953;597;1411;3929;13963;15003;59385;12293];
[58278;1;3;1;15;23;61;67;129;63;555;433;631;2725;317;10121;9217;124371];
[58287;1;1;5;7;19;23;17;45;75;819;1879;2315;1439;2643;26561;19209;16081];
[58327;1;3;5;7;5;35;121;233;91;89;1741;3015;4223;9605;22795;55845;47167];
[58333;1;3;7;7;13;23;11;51;91;367;773;1303;2151;14423;22263;28413;107461];
[58337;1;1;1;11;29;17;49;53;379;819;1551;2907;5805;2167;16123;9263;43903];
[58357;1;3;1;13;19;27;33;127;131;697;489;3289;1895;3243;19497;32419;55741];
[58362;1;3;1;15;7;51;91;45;251;829;2015;2659;151;3327;25281;49291;106343];
[58364;1;1;5;5;27;11;85;45;203;413;293;3067;4109;959;22337;38767;75829];
[58375;1;1;3;5;21;35;65;173;315;423;171;3837;817;10153;5517;18115;117437];
[58384;1;1;1;7;9;29;101;55;253;37;1717;7;3181;1067;20637;54773;106777];
[58387;1;3;7;11;13;11;87;83;83;969;589;3625;3373;3921;24487;34235;96289];
[58405;1;3;1;11;25;35;65;131;491;167;449;2949;5807;5649;7569;37363;106819];
[58406;1;1;5;1;9;37;33;237;79;163;1791;3499;4951;2009;16183;10121;40221];
[58417;1;1;5;15;21;49;123;53;27;273;1655;3713;5699;1659;31985;6779;10195];
[58424;1;3;5;11;27;37;93;17;263;41;1583;703;7689;6667;15497;15255;67153];
[58435;1;1;5;9;19;13;121;39;321;177;711;3223;3859;14775;19061;40587;97199];
[58450;1;3;7;9;23;11;93;243;3;811;679;1103;7579;14147;20255;22485;117179];
[58452;1;3;3;5;23;9;21;243;27;501;1273;1501;5331;15663;19483;10637;90905];
[58459;1;3;1;15;13;11;89;37;63;463;731;3615;3923;4677;21329;1069;57565];
[58461;1;1;1;13;19;39;63;59;389;367;1285;2005;8103;4179;3805;55475;126589];
[58466;1;3;5;11;27;57;27;63;365;171;665;2035;2831;15955;11551;26741;121059];
[58468;1;3;3;3;23;19;13;7;331;613;1783;733;7465;1089;4683;15695;31125];
[58485;1;1;5;3;3;23;95;157;303;987;307;2679;6173;6633;17727;30901;76109];
[58489;1;1;1;1;11;21;111;81;31;727;1133;4083;5811;2707;31749;42939;92225];
[58492;1;3;1;11;29;21;31;115;351;213;201;3511;3707;12821;8845;59789;59721];
[58495;1;3;5;9;7;27;65;1;305;937;1201;2045;2431;12275;24431;3317;119671];
[58505;1;1;7;11;19;43;107;107;261;933;1125;1875;1943;7477;20759;57853;29459];
[58523;1;1;3;3;17;43;79;19;167;341;237;677;725;2353;12003;48921;20707];
[58535;1;3;3;5;31;39;91;81;121;59;737;1767;4407;9159;10237;25361;38891];
[58536;1;1;5;7;31;47;37;47;171;623;597;2807;4875;15139;18809;24279;36563];
[58549;1;3;5;3;3;7;31;135;81;777;1055;337;4309;9575;11075;54429;30097];
[58550;1;1;5;1;3;57;53;25;117;961;947;257;2645;6935;27511;54051;129095];
[58561;1;1;1;15;23;45;11;173;407;373;1051;3519;1875;1291;4393;9047;102159];
[58562;1;1;3;5;9;51;23;253;261;339;505;3601;265;8375;7241;40715;114439];
[58573;1;1;7;7;3;63;5;233;259;947;1367;2699;6029;9371;6567;39961;31621];
[58576;1;1;3;3;25;43;73;61;305;257;235;421;6621;1025;18831;44525;87665];
[58592;1;3;5;7;19;33;77;163;191;115;1275;3551;3521;6767;30209;48895;114185];
[58601;1;1;3;3;29;37;3;165;267;807;967;2893;3287;12249;21411;19291;91781];
[58622;1;1;5;5;27;55;51;137;429;775;1525;3911;5367;5981;24373;16331;31887];
[58627;1;1;5;11;17;49;37;243;509;563;1381;2013;7341;10509;10049;29135;32709];
[58629;1;1;3;13;1;33;119;5;477;701;1329;1023;2091;12895;6443;1053;44741];
[58634;1;3;5;7;13;19;1;113;3;481;1555;2857;3519;7903;16153;62909;78877];
[58639;1;1;7;11;7;27;47;175;87;605;411;4065;8059;5023;27719;3111;62247];
[58641;1;3;1;15;27;37;71;77;297;647;1651;2543;3925;4827;28587;49663;56581];
[58644;1;3;5;1;19;49;63;9;43;243;931;3577;2371;10513;13691;27739;61011];
[58654;1;1;3;1;23;27;53;149;157;735;1087;1529;6613;2493;4879;26771;123711];
[58663;1;3;7;13;5;3;43;3;343;497;943;3443;4335;4779;4033;25871;10965];
[58667;1;3;5;1;5;11;93;73;199;455;421;3495;4381;717;21033;41287;44743];
[58677;1;1;3;9;13;33;77;143;81;57;1061;3205;2411;1347;23149;21913;119331];
[58682;1;3;1;7;1;15;45;247;119;905;457;3939;4865;11191;27705;46315;68367];
[58690;1;3;3;15;31;5;55;169;381;1009;1893;2751;411;8653;30367;54919;23541];
[58692;1;3;7;1;29;27;77;239;109;125;355;2759;2229;3435;16241;53309;613];
[58695;1;3;1;3;11;27;33;167;311;1003;1635;2479;1831;6225;17711;30185;87043];
[58710;1;3;7;13;7;61;3;243;55;259;461;3357;121;9107;19393;3719;71403];
[58713;1;1;7;15;23;25;55;89;241;297;113;59;4799;381;29127;811;91149];
[58723;1;1;3;3;13;35;43;163;69;69;1949;2383;887;2349;12539;167;23697];
[58740;1;3;3;11;3;45;23;149;55;963;1293;2715;1401;16081;12821;2129;26835];
[58749;1;3;3;13;29;47;21;249;141;179;627;329;6377;12049;11715;1447;119359];
[58760;1;1;5;13;7;59;103;189;401;169;455;1197;1881;12679;4533;25561;79281];
[58766;1;1;7;15;21;59;97;77;397;487;647;2277;269;713;17741;37387;100143];
[58773;1;3;5;1;1;43;31;201;21;805;1533;1407;4719;2673;22757;7605;72485];
[58780;1;1;3;11;27;25;99;135;225;367;1311;683;7193;8209;17081;55709;3029];
[58787;1;3;5;5;17;9;59;27;153;353;647;2919;1877;5359;19787;46237;7];
[58796;1;3;3;15;11;39;75;223;489;57;1355;3941;6603;12883;20909;24065;53543];
[58816;1;1;3;9;17;47;61;49;397;23;2019;37;23;8967;10357;54419;27279];
[58822;1;1;1;7;31;43;87;111;293;969;1431;2275;3131;2915;24595;63049;71517];
[58831;1;1;3;11;11;63;89;33;95;299;593;3353;7389;841;1895;64835;19915];
[58839;1;1;1;3;13;63;51;3;327;401;1289;2699;5599;5101;3189;23415;53429];
[58849;1;1;7;13;27;15;57;201;365;643;171;2417;1763;7567;5323;50911;24281];
[58859;1;3;3;13;31;37;31;243;225;431;379;1565;1567;11477;4641;58823;88565];
[58870;1;3;3;7;13;39;79;169;401;177;2023;1703;5563;15619;21445;59287;30141];
[58879;1;3;3;15;17;47;13;163;361;353;1435;2083;4109;14105;28585;1721;119133];
[58889;1;3;3;3;29;41;97;131;501;415;1735;2315;6499;11417;3879;3957;47117];
[58904;1;1;3;13;5;25;29;65;235;949;1571;927;515;7519;23123;4127;71019];
[58914;1;1;5;13;1;41;5;137;487;711;561;2495;5367;6955;9453;54499;118373];
[58923;1;3;3;5;27;15;23;237;95;873;1949;1579;7089;8837;30463;9903;61919];
[58940;1;3;1;13;5;5;15;5;429;617;383;2495;409;15541;11209;20625;58493];
[58945;1;1;7;11;25;21;113;219;459;777;289;2435;6665;83;22997;6561;82923];
[58952;1;1;1;7;19;53;37;249;273;639;2007;1463;7819;9013;19539;41235;58059];
[58960;1;1;3;11;13;51;97;55;237;159;1305;3705;2527;13065;13873;10275;3769];
[58965;1;1;5;7;13;49;41;13;301;461;1169;3805;7163;4133;17255;48283;87059];
[58986;1;3;7;15;9;19;45;195;445;145;543;2839;315;10991;3317;46501;29209];
[59000;1;1;3;5;23;51;53;119;217;747;1307;3039;5523;5891;21035;56471;80305];
[59006;1;3;1;3;23;17;97;71;7;839;229;3407;3025;1989;16599;38755;11139];
[59027;1;1;7;7;7;19;67;43;293;191;1549;1621;7083;11633;1899;4515;89753];
[59034;1;3;7;11;1;23;17;63;265;709;453;1309;6861;7257;17705;28565;15231];
[59052;1;3;5;13;1;53;99;79;241;771;497;987;2353;6931;227;57781;109583];
[59058;1;3;3;5;31;47;17;97;93;119;2045;3597;7983;4993;30659;3419;32803];
[59081;1;3;7;1;11;41;3;7;155;627;979;2405;7467;6763;28523;56493;1291];
[59082;1;1;1;7;3;43;13;187;415;1001;667;1371;8075;12855;27215;9399;70657];
[59089;1;3;1;9;29;53;117;17;443;381;507;643;5891;10725;20251;497;101313];
[59096;1;3;3;1;31;47;59;75;173;347;1;117;3639;10231;863;56795;56107];
[59118;1;3;1;15;11;41;97;251;177;275;1849;1281;3659;9709;16239;7445;47661];
[59123;1;3;3;5;13;1;27;251;89;863;685;3915;2201;4313;32083;37171;120885];
[59126;1;3;3;3;3;11;77;135;147;475;505;611;4763;9445;28639;51343;119093];
[59132;1;3;7;1;11;9;67;73;375;977;1011;1621;6623;8077;26321;7461;130637];
[59135;1;3;5;15;15;59;63;217;117;375;1151;3451;5843;13221;20673;10817;57711];
[59150;1;1;3;5;19;5;9;101;321;815;451;719;523;1299;27823;48041;45939];
[59174;1;1;1;9;5;49;59;59;409;5;1075;21;7837;4543;3085;55473;89309];
[59177;1;3;3;13;9;31;93;181;153;795;713;933;6001;9075;29781;14029;46361];
[59185;1;3;5;3;9;21;79;129;361;627;743;3041;5381;3627;12581;35183;83183];
[59195;1;3;3;3;29;29;93;187;341;727;181;133;6525;5673;2739;23349;62505];
[59203;1;3;5;13;27;59;127;149;321;613;1543;1537;2909;5139;3755;49285;35183];
[59206;1;3;3;9;5;31;19;173;137;19;799;1847;3897;15775;22411;55405;95713];
[59234;1;3;5;5;31;1;87;97;481;797;459;793;4339;5443;31717;6691;68841];
[59248;1;3;3;5;3;9;123;21;393;683;1007;971;729;7113;2811;51183;37093];
[59258;1;3;5;5;27;31;19;227;123;937;763;2117;3825;9151;95;54963;62919];
[59260;1;3;1;3;23;21;21;7;7;165;99;3073;91;8725;17613;47119;41441];
[59270;1;3;7;9;29;49;117;49;205;605;1567;3323;1559;10949;14349;34951;99901];
[59284;1;1;1;1;15;41;31;133;439;305;719;147;6849;5947;31749;45171;15265];
[59291;1;1;5;11;19;37;13;253;385;625;1801;1191;547;12025;17971;54127;97323];
[59293;1;3;5;5;27;9;57;245;59;211;1195;763;6743;6309;25759;26633;27497];
[59297;1;3;5;5;9;51;49;29;213;855;305;3961;3187;6815;19015;2539;81705];
[59312;1;1;5;7;11;61;123;163;127;871;463;2279;5931;2913;23215;40215;91373];
[59315;1;1;7;1;29;57;55;189;285;603;747;3753;3359;10277;25319;17569;80125];
[59327;1;3;1;9;7;53;9;55;117;495;2045;2487;1625;775;17773;62159;79537];
[59332;1;1;5;1;1;11;67;79;57;677;2045;3913;853;3581;10509;35097;24585];
[59347;1;3;7;7;19;15;13;237;297;807;657;2229;2931;10283;49;56485;113889];
[59354;1;3;5;13;11;23;37;229;253;411;39;1069;3683;12141;11087;64875;62991];
[59363;1;1;1;1;13;11;21;227;305;1021;1039;3095;4621;5723;31989;30681;58487];
[59369;1;3;3;5;17;47;127;65;85;961;277;549;2111;4183;771;11921;111489];
[59377;1;3;3;5;31;39;89;51;277;705;375;1603;2793;7425;25065;44945;48391];
[59406;1;1;5;7;9;45;21;217;183;65;625;1239;4241;8043;13615;5611;82501];
[59413;1;1;7;13;15;51;29;35;73;601;233;3117;3031;4229;4299;62761;45291];
[59423;1;3;5;5;27;55;7;1;333;501;913;1939;5131;5597;1271;30195;20947];
[59434;1;3;5;15;19;27;43;111;435;615;811;2113;2503;7553;1619;24773;40881];
[59441;1;3;5;11;11;31;21;147;151;141;527;1839;339;1225;29621;19691;22031];
[59442;1;1;3;13;23;35;61;181;221;837;241;3033;1849;12563;11387;3027;33419];
[59456;1;3;3;7;1;39;125;249;231;575;1847;197;3969;12945;10257;27227;94097];
[59465;1;3;1;11;19;7;85;119;37;253;1575;447;6947;14399;32095;15385;62917];
[59479;1;3;7;11;23;53;113;193;253;651;1717;447;4055;13675;18479;28375;66475];
[59501;1;1;7;3;17;27;13;209;67;271;121;1565;2589;8033;3939;14181;111787];
[59504;1;1;3;3;5;57;75;87;165;947;967;3353;2055;16195;3701;62637;58343];
[59507;1;1;7;13;31;41;125;111;253;257;57;679;3333;8259;26331;15883;95023];
[59514;1;3;7;11;1;47;5;249;353;271;1121;1935;4971;8447;9983;55959;66179];
[59523;1;3;5;11;1;61;101;43;97;241;687;4027;4319;4905;12357;51099;97093];
[59525;1;1;3;15;25;25;117;139;475;961;1585;2795;2411;11049;18209;15511;43193];
[59526;1;3;3;9;9;11;107;15;189;27;289;3111;851;3401;31981;7181;47533];
[59537;1;1;5;15;31;57;37;77;205;707;1505;1343;629;13335;6719;35405;38905];
[59543;1;3;7;7;21;63;35;125;507;285;621;2257;3009;13703;9761;54927;16925];
[59560;1;1;1;11;11;53;37;17;167;663;1349;1395;7721;9329;2161;37093;52425];
[59563;1;1;7;9;1;15;113;53;87;133;131;847;609;14737;1639;15511;46987];
[59566;1;1;7;7;25;21;125;149;201;791;1323;2817;1141;289;14349;64461;76575];
[59577;1;3;3;7;15;1;123;227;83;967;2039;3205;715;10787;11235;50375;66911];
[59580;1;3;3;11;9;45;41;57;327;903;1705;3947;3173;1035;25529;15217;80795];
[59586;1;3;1;13;15;63;69;57;479;277;1641;3465;2629;9901;5781;55101;33049];
[59597;1;1;3;3;31;25;57;189;491;335;373;3069;1623;10781;6559;27057;111491];
[59612;1;3;3;15;19;57;67;225;343;93;315;1011;4437;10371;27927;51269;65653];
[59615;1;3;5;5;21;43;105;153;65;167;369;3167;785;7509;3753;9035;29039];
[59622;1;1;7;3;17;9;113;21;175;967;13;2701;5667;9761;20267;33497;88819];
[59631;1;1;1;7;9;61;121;205;283;259;2027;2361;3995;6787;26867;61681;96149];
[59657;1;3;3;13;31;37;125;151;317;947;423;2907;6905;13247;27997;4755;73173];
[59660;1;1;7;13;1;63;85;75;33;483;85;1583;4783;14003;31147;12643;99447];
[59665;1;1;1;7;31;5;93;179;213;857;3;1015;1481;2413;28759;13941;24851];
[59671;1;1;5;5;5;35;73;57;469;885;1951;3599;5555;7259;22599;7627;109227];
[59675;1;1;5;13;1;1;69;107;473;793;1851;887;2241;7851;21821;25431;118565];
[59688;1;1;1;3;15;51;57;175;91;113;1671;925;2187;1097;28793;45819;41855];
[59706;1;1;3;3;15;51;99;177;379;713;1273;3245;5515;14657;28981;1197;29283];
[59708;1;3;3;15;13;27;29;7;17;373;779;1589;3077;13673;31029;43765;74339];
[59713;1;1;3;1;25;17;15;223;219;569;155;1307;7143;7975;22581;53223;44271];
[59714;1;1;1;7;11;23;67;177;189;267;1799;2453;2367;4193;1827;10191;12265];
[59720;1;3;3;11;3;29;121;231;211;191;1803;1171;6801;4007;14111;42951;8311];
[59737;1;3;3;11;9;23;11;231;349;47;1645;345;3681;12227;29955;32131;391];
[59743;1;1;3;11;27;17;17;49;463;173;1993;2339;3763;1931;29969;55579;114805];
[59744;1;3;5;15;5;21;105;69;173;771;815;3807;577;12589;32193;37601;23961];
[59749;1;1;3;9;21;63;57;213;327;765;333;2065;719;6159;15769;49335;2289];
[59756;1;3;3;1;27;51;13;87;465;729;507;2811;6721;14279;31733;56165;78169];
[59783;1;1;1;9;25;1;47;37;407;623;1409;3703;4491;3037;8129;13547;50517];
[59784;1;3;5;13;5;51;127;225;215;377;1013;2387;4237;1317;5245;17535;100707];
[59787;1;3;5;13;31;25;123;243;317;505;483;1743;3097;4139;4525;63143;47665];
[59795;1;3;3;13;27;19;21;187;211;471;1931;2877;3635;9233;12385;15741;50843];
[59804;1;1;3;13;23;33;71;45;371;621;1057;1605;6329;3763;8613;2965;8141];
[59811;1;1;5;7;7;17;33;209;293;35;1665;3721;6245;14567;15349;16195;59757];
[59814;1;1;7;7;31;19;47;83;277;323;1225;969;2193;10175;27657;50265;9817];
[59823;1;1;5;7;15;21;103;95;189;737;309;357;5953;9701;15757;20753;88647];
[59838;1;1;5;13;5;13;61;235;333;889;1559;1653;1871;10631;18067;47037;9507];
[59840;1;3;7;1;31;61;69;159;41;107;807;1517;3551;3435;6151;50025;126949];
[59846;1;1;7;15;7;41;55;103;9;105;1397;3955;7723;3389;32435;36005;73733];
[59849;1;1;1;13;15;59;43;151;321;215;411;3103;7455;14041;1673;56425;59085];
[59855;1;1;1;1;5;39;81;183;509;455;753;3743;227;7807;23747;42289;122765];
[59860;1;1;7;3;9;29;89;131;141;851;1221;67;3117;1329;13151;36827;34313];
[59867;1;3;1;5;9;29;11;189;389;79;1903;835;6043;8953;18985;8305;51939];
[59869;1;3;5;3;9;49;47;43;193;917;795;2719;5709;9993;30637;26841;93113];
[59885;1;3;7;5;13;15;85;169;315;963;617;1191;6739;11535;3423;6695;2047];
[59888;1;3;1;3;5;49;41;255;131;255;825;1485;7005;10107;3913;4731;33199];
[59893;1;3;1;9;27;63;109;29;183;381;591;617;1187;4381;30543;9933;109785];
[59904;1;3;7;7;13;29;125;105;353;677;623;1553;5435;10853;16663;42277;64333];
[59919;1;3;3;11;3;47;49;41;249;497;963;237;625;11303;6871;60441;39559];
[59922;1;3;3;1;1;27;107;253;59;445;1761;2865;7117;2363;4007;46047;10811];
[59927;1;3;5;5;25;13;17;107;321;691;351;577;5001;9437;12451;44997;42727];
[59937;1;3;1;9;1;31;87;117;111;379;1989;1155;4777;8563;14585;33375;66985];
[59940;1;3;5;5;9;51;79;135;89;929;277;763;5569;15545;28393;56921;102093];
[59944;1;1;3;7;7;55;15;37;3;439;577;2051;101;13655;11959;38127;6639];
[59947;1;1;3;9;21;11;27;221;465;565;1313;1405;2421;10543;18369;33751;87785];
[59949;1;3;5;11;21;39;105;231;469;711;997;427;5797;3249;15141;29413;66509];
[59961;1;3;7;5;25;31;111;37;229;773;193;553;673;4693;24441;8713;121203];
[59975;1;3;1;9;23;27;103;7;183;549;1433;2831;3383;13229;10005;14135;15967];
[59981;1;3;3;11;11;59;11;251;373;399;255;1177;5493;13559;29037;23405;79495];
[59994;1;3;1;11;25;45;69;115;153;259;527;9;5807;6015;3765;61621;8645];
[59999;1;3;3;9;19;5;113;191;345;655;429;3975;4297;5723;5345;64457;79031];
[60018;1;3;7;7;15;59;5;87;289;1005;931;2403;485;16043;15623;39253;61377];
[60023;1;3;3;9;17;53;31;9;217;711;1007;1375;2733;13735;19825;59741;83827];
[60024;1;1;3;15;11;11;41;195;79;1013;1353;1961;7365;7533;13315;8441;90705];
[60039;1;1;5;7;23;17;93;165;371;495;865;2753;15;10729;16553;6039;96721];
[60043;1;3;3;3;25;25;67;119;485;63;75;2365;4711;16129;5589;50621;1203];
[60048;1;1;7;1;27;57;49;79;479;79;683;753;345;2007;18983;42729;56369];
[60054;1;1;7;7;1;23;9;155;425;735;1625;2271;7875;11219;12147;52351;55845];
[60073;1;1;1;9;13;11;67;139;259;59;1593;1207;237;11683;24719;27689;115617];
[60079;1;1;5;7;7;15;9;171;35;131;133;3939;1401;6347;4051;64235;68581];
[60082;1;3;3;1;27;21;29;119;201;527;763;203;1139;3951;3341;17023;13493];
[60102;1;1;1;15;27;31;97;203;255;573;781;4095;3381;363;32733;34517;77973];
[60108;1;1;3;9;29;9;115;207;267;513;1071;3943;5045;10071;6627;18043;44289];
[60111;1;1;7;7;29;25;51;31;305;239;197;3825;2363;4903;16237;37571;66545];
[60120;1;1;5;11;29;11;63;145;185;359;249;1179;105;1745;28819;40513;74525];
[60149;1;1;7;1;15;35;39;5;139;119;2047;3369;2857;11037;30523;24813;89209];
[60153;1;1;5;11;9;41;97;15;357;95;361;3;3227;8445;16541;30661;84215];
[60161;1;1;7;5;11;55;77;19;331;621;893;577;1025;1561;32331;59469;67065];
[60168;1;3;7;7;17;53;55;65;295;391;445;33;5361;669;6447;3833;129463];
[60176;1;3;7;5;21;5;83;207;485;597;1429;581;6831;2885;24669;35211;69549];
[60182;1;3;3;1;3;33;69;199;427;893;1823;1291;4533;11779;18515;17597;79159];
[60185;1;3;1;1;17;41;91;21;509;875;777;639;4009;12103;12947;58395;36625];
[60204;1;1;7;15;13;11;19;243;365;661;1193;279;6055;13921;5811;14337;105375];
[60212;1;3;7;3;3;51;101;175;83;921;523;3909;8003;1295;4153;4757;107881];
[60215;1;1;1;3;19;15;39;125;401;399;381;1123;2339;12231;13387;50829;79263];
[60219;1;3;1;1;15;13;55;181;53;671;1929;1003;521;15279;1837;11877;79241];
[60222;1;3;3;9;23;45;21;37;1;701;1253;2595;6261;4139;24443;6655;109755];
[60229;1;3;7;1;1;13;57;41;95;985;1613;3487;7509;213;32139;27869;123589];
[60234;1;3;7;11;15;27;27;97;167;755;1331;3961;3067;13827;8983;8755;77847];
[60241;1;1;5;13;5;59;51;193;339;837;137;3807;2617;14449;11035;16827;24531];
[60248;1;1;7;15;17;37;67;99;261;743;275;33;8107;4959;9683;19757;36471];
[60277;1;3;5;5;29;7;107;95;235;761;1205;3125;4791;4645;25623;6463;121887];
[60282;1;3;1;1;19;19;73;189;243;669;489;1927;1651;11391;30699;64719;60359];
[60287;1;3;7;3;29;47;7;21;299;739;1605;749;5755;11579;793;36845;14695];
[60303;1;1;5;15;17;53;107;49;103;505;1191;2881;7435;7515;24237;5397;47003];
[60306;1;1;7;15;25;45;121;157;313;709;1519;2195;5487;1789;32401;4197;9329];
[60327;1;3;3;11;21;17;77;153;275;765;1943;3395;5807;12809;29891;42579;75565];
[60333;1;3;5;11;11;3;63;9;223;441;1047;441;867;3399;15813;13;25293];
[60334;1;1;7;1;17;25;1;7;211;117;1417;1057;3369;13211;11437;20877;114867];
[60336;1;1;1;15;5;41;89;165;343;447;55;1013;8179;12295;18615;23885;46149];
[60345;1;1;5;1;15;37;109;141;323;151;1669;1365;3047;13145;30355;12377;102467];
[60359;1;1;3;15;15;49;83;127;285;715;981;1153;3019;11071;24229;63807;16315];
[60368;1;1;3;1;23;35;21;179;83;929;1033;643;3591;10363;7739;259;106879];
[60380;1;1;5;7;19;9;63;241;387;851;1709;1161;7469;2093;6169;6085;29851];
[60389;1;3;7;5;17;59;99;87;189;853;193;1191;5683;15865;27791;55575;13479];
[60390;1;3;3;3;25;51;81;129;365;319;179;2863;511;14471;3689;59505;80105];
[60394;1;1;1;15;5;33;69;35;429;715;1781;783;1089;8969;26987;23519;34227];
[60407;1;3;5;9;1;51;9;121;325;945;2025;1985;7337;10837;21299;20591;76905];
[60414;1;3;7;3;15;51;19;109;297;491;15;1905;1479;1997;18129;43861;84925];
[60419;1;1;3;5;7;21;1;137;207;943;1171;2019;6687;10683;20937;34033;43907];
[60426;1;1;1;11;25;21;47;227;247;933;471;955;4299;5605;18469;62357;98273];
[60428;1;1;5;13;21;39;41;23;493;311;1401;537;2919;11519;12597;58321;41401];
[60431;1;1;7;5;31;55;93;151;219;765;1247;2775;7167;13413;17071;57969;114069];
[60440;1;3;1;15;31;41;85;161;379;337;1639;933;3511;925;3523;52379;18421];
[60450;1;3;3;11;17;17;71;11;291;305;1295;1175;1803;6247;26523;46467;126999];
[60469;1;1;1;13;9;43;113;7;1;443;719;3045;2527;5233;13969;50463;115629];
[60473;1;1;1;13;9;31;87;119;351;53;985;2017;1187;10429;13719;41383;12749];
[60474;1;1;1;15;23;17;5;215;383;299;305;3577;7707;6927;28591;44287;65697];
[60484;1;1;5;7;23;61;89;235;97;463;237;2117;5503;13693;28231;7745;73631];
[60496;1;3;7;3;17;43;73;245;145;267;855;187;6167;3999;9935;14347;57727];
[60502;1;1;7;3;25;47;11;221;425;527;1341;3973;4635;16321;30021;48547;109409];
[60508;1;3;1;13;5;11;41;191;121;219;1315;583;2997;5883;31689;64835;35351];
[60511;1;1;3;3;15;47;49;115;107;757;329;1653;4633;14605;1579;62413;88685];
[60522;1;1;1;5;19;47;63;131;427;335;269;3581;7613;15685;16957;30487;94965];
[60529;1;1;3;15;31;11;77;115;467;249;247;651;3769;3701;21627;36219;77309];
[60530;1;3;1;5;5;29;45;21;37;733;1773;2467;2747;9391;5449;23285;20089];
[60536;1;3;5;13;29;31;51;199;77;711;1313;3303;2675;177;7915;37129;123641];
[60551;1;3;7;15;17;17;99;43;9;699;491;669;1313;1377;30015;59261;97321];
[60557;1;3;1;13;9;13;21;199;249;775;399;897;2205;15357;17281;3193;255];
[60566;1;3;1;13;7;23;7;181;65;253;199;333;6507;4409;13319;30165;95191];
[60576;1;3;3;1;31;9;31;71;301;867;1655;2065;597;15247;3019;31763;91889];
[60579;1;3;5;5;3;35;113;133;39;1013;991;3521;5805;87;32393;28619;34325];
[60585;1;3;1;9;15;27;45;85;61;99;1085;3251;7085;4137;27443;42581;94031];
[60588;1;1;5;7;11;49;97;129;339;259;821;165;833;11383;21629;17473;2947];
[60600;1;3;3;3;11;7;27;231;169;847;1767;1823;3855;14277;12457;55825;14377];
[60613;1;1;7;3;27;5;47;193;207;747;271;3155;1097;2229;4919;22327;12659];
[60628;1;1;5;3;27;29;105;199;31;73;1741;2173;4577;3917;31513;45983;118015];
[60631;1;1;3;1;19;5;23;249;35;891;1105;1907;5453;1877;1965;3169;107091];
[60648;1;1;7;9;11;47;57;171;255;661;1925;2223;525;4775;12327;8067;47083];
[60651;1;3;3;11;29;43;37;33;459;117;7;1739;3585;7429;2217;9533;95299];
[60653;1;1;5;11;23;3;33;13;45;201;467;597;4891;2673;32407;56935;121991];
[60671;1;1;7;5;29;63;7;59;417;547;17;3701;5775;1079;26527;47187;14827];
[60673;1;1;5;3;27;11;85;129;377;497;1659;1965;581;15075;31265;195;62307];
[60691;1;1;3;9;3;57;33;57;279;955;741;955;6501;8069;27305;15363;34715];
[60697;1;3;7;13;29;23;25;171;201;529;661;4089;5755;12459;31269;9763;53217];
[60700;1;3;7;1;3;19;27;201;261;421;1487;2907;547;15791;7661;42871;116343];
[60714;1;3;7;9;5;59;51;91;7;399;2001;661;6577;7473;5439;29073;3391];
[60724;1;1;7;1;23;39;119;105;113;913;1097;2547;8143;11409;23197;59527;55677];
[60728;1;3;3;15;31;35;103;207;247;801;1821;1995;4437;12891;659;15687;53];
[60733;1;3;3;5;13;5;45;187;231;661;1553;2909;3715;4499;14773;5957;24171];
[60736;1;1;1;11;3;53;93;29;379;713;299;445;2815;9825;30941;22413;91563];
[60745;1;3;1;1;27;31;111;83;349;895;1007;2649;7139;5863;27739;53099;6837];
[60746;1;3;1;5;23;57;121;229;487;405;2001;2761;3011;2219;10711;31139;83809];
[60753;1;3;7;5;13;51;37;181;359;909;2001;793;1143;9219;5111;23021;126081];
[60754;1;3;1;13;27;27;99;25;189;129;1831;1005;8119;2557;26985;63447;89693];
[60782;1;1;7;5;1;21;79;33;99;7;433;1343;3121;3705;477;41191;13749];
[60784;1;1;5;5;29;53;75;243;35;461;1399;129;177;6533;22209;23503;43819];
[60790;1;3;7;7;31;37;109;9;255;263;35;3451;7629;9849;10387;3165;120623];
[60793;1;3;5;3;27;53;93;111;239;723;293;1481;4427;13623;1989;47705;122069];
[60805;1;3;7;7;31;37;37;213;191;627;1821;3621;2875;15759;17525;50969;35311];
[60830;1;3;5;5;11;41;87;233;79;251;25;1385;3527;7853;5541;36519;42779];
[60836;1;3;1;5;9;1;117;11;61;879;553;383;6237;15207;3057;28051;59149];
[60846;1;1;1;15;15;7;37;133;81;815;893;2281;2459;15325;20107;2289;34535];
[60851;1;1;5;11;17;3;45;159;409;643;969;1289;4353;10465;16233;55561;111667];
[60880;1;1;5;13;23;1;79;127;485;1013;629;791;853;9247;26333;1123;17313];
[60896;1;1;5;11;27;17;97;157;479;421;1739;3257;2419;6673;2759;19399;120305];
[60905;1;3;5;1;3;43;71;55;111;949;1957;3777;3409;8229;26585;49221;33639];
[60923;1;3;7;9;17;45;71;71;417;1007;213;1069;2693;5065;23489;33363;120459];
[60925;1;1;1;1;25;47;81;251;341;101;1941;1133;3205;4141;26561;56095;37193];
[60932;1;1;3;7;25;45;97;95;135;871;949;3489;7593;10717;26163;12711;76989];
[60939;1;3;1;9;3;11;35;7;471;509;1335;385;1297;11201;28553;51609;45351];
[60942;1;1;5;11;21;23;105;31;125;5;1721;1503;7807;13093;24873;18467;30183];
[60953;1;3;7;15;15;57;61;213;79;655;517;1031;6719;4807;12805;2605;35407];
[60956;1;1;3;15;21;5;93;61;103;945;935;115;1281;7735;20723;37211;50039];
[60959;1;3;3;15;19;51;79;187;127;205;121;701;6065;15185;29343;58249;25331];
[60963;1;3;3;15;17;49;23;163;201;809;1203;687;1777;695;18779;31571;118383];
[60969;1;1;1;5;25;45;121;223;233;193;1459;1889;5537;4421;13659;4591;112563];
[60978;1;3;5;3;31;37;109;15;381;373;993;3633;641;4411;32265;46481;49195];
[60980;1;3;3;11;19;21;39;67;447;829;1163;55;2153;15045;6643;48235;59261];
[60987;1;3;3;1;7;63;37;71;35;601;1719;447;8009;7235;13225;44103;82409];
[61007;1;3;3;7;13;33;69;115;207;807;109;2989;3727;9017;29095;11377;122401];
[61012;1;1;3;15;9;9;57;197;115;73;1277;1727;5275;11897;12157;34763;58273];
[61015;1;1;3;15;19;19;127;105;289;663;877;1303;4901;8897;4803;36853;93361];
[61025;1;1;3;7;23;29;121;29;439;795;1469;523;7767;12061;15613;57343;21291];
[61026;1;1;1;9;25;29;15;165;383;233;91;2065;2741;7809;5325;48581;65551];
[61038;1;1;5;15;29;19;103;143;283;597;1055;3525;6115;11083;22497;42893;86849];
[61040;1;1;1;15;13;43;75;157;267;519;1231;929;1585;16137;1045;4353;63473];
[61052;1;1;1;9;17;25;73;227;145;921;1845;2057;3099;15523;8993;14135;37811];
[61061;1;3;3;15;17;57;107;215;271;841;1543;2803;625;15359;13341;36879;83191];
[61074;1;3;5;13;3;17;127;81;193;253;71;3205;1157;1313;27341;49657;96539];
[61083;1;3;1;5;27;43;1;111;23;963;1853;925;7401;13999;29797;47125;59955];
[61085;1;3;3;1;31;55;107;121;37;159;61;577;5711;6745;20077;42333;37105];
[61086;1;1;5;3;31;11;1;7;295;515;203;707;2919;9619;8877;45143;101861];
[61096;1;3;7;11;5;23;71;9;99;947;1141;1651;1903;13607;15433;55005;127639];
[61119;1;1;7;3;13;61;25;111;239;243;1069;3551;3339;743;29921;21313;54953];
[61124;1;1;3;3;23;7;21;47;367;871;1647;2183;2615;2257;30447;25761;110221];
[61127;1;3;7;15;13;51;115;19;277;463;475;3467;7313;2477;10841;13585;61449];
[61128;1;1;7;9;1;27;111;209;391;621;1047;549;2013;549;24213;6369;68691];
[61133;1;1;1;11;19;59;11;107;79;1013;357;1729;889;12823;6537;35717;42761];
[61134;1;1;3;15;29;41;49;177;309;293;1035;1481;1395;2009;7917;365;28981];
[61146;1;3;7;11;31;19;51;113;479;347;353;929;1089;3373;2807;55201;23137];
[61155;1;3;1;15;7;55;79;191;267;701;1885;1241;7085;9835;24239;7609;13967];
[61161;1;1;3;15;25;33;69;5;93;375;435;2401;1591;8173;17293;20281;63809];
[61162;1;3;5;3;9;49;63;47;217;773;1241;1131;7521;15607;24341;20353;122801];
[61169;1;3;7;15;21;1;57;159;279;987;1641;3883;1659;7875;24857;33273;88933];
[61179;1;1;3;11;3;23;45;31;279;643;1285;471;137;15871;13927;52361;118901];
[61182;1;3;1;15;27;51;83;19;299;213;1001;897;2751;13085;20841;24891;113173];
[61190;1;1;7;5;5;27;77;77;165;489;359;1607;3903;16241;641;25999;29279];
[61201;1;3;3;7;15;23;103;49;259;519;641;1577;3713;12181;287;29483;58505];
[61208;1;1;7;13;11;29;125;45;45;167;261;2735;2421;15457;5965;44005;82141];
[61238;1;1;3;9;25;21;9;3;57;1017;1359;79;6789;7805;20683;25695;38893];
[61241;1;1;7;1;29;53;87;171;51;5;9;3033;787;10611;15913;35703;70459];
[61247;1;1;3;5;1;33;111;139;477;33;1287;3615;5235;15491;2915;47821;55257];
[61259;1;1;1;13;5;23;55;225;303;587;1595;307;3809;8093;13297;63213;104317];
[61267;1;1;3;15;31;29;13;33;267;481;1039;3805;2549;861;12483;61829;127725];
[61269;1;3;5;11;23;17;23;117;333;167;1965;1387;5453;15545;123;12991;36281];
[61295;1;3;5;1;3;9;25;55;497;951;1377;993;6089;4801;32719;31579;126663];
[61304;1;3;5;11;15;37;103;51;509;585;769;425;835;14027;30265;55735;36655];
[61309;1;1;1;13;9;49;105;61;493;3;1663;815;8105;16361;32477;30437;61519];
[61310;1;3;7;11;29;23;105;87;119;399;1405;1515;7017;12729;13769;29741;30921];
[61313;1;3;7;13;13;7;93;227;489;843;923;3373;759;5105;9059;21079;101335];
[61320;1;1;1;1;29;53;119;227;171;363;289;827;425;12827;25791;21587;109567];
[61325;1;1;5;11;29;29;53;127;441;219;1049;275;525;5535;20907;9299;76319];
[61334;1;3;7;15;3;53;109;61;275;391;1147;2953;1439;4417;679;10949;35101];
[61337;1;1;5;13;9;1;109;137;249;835;721;129;2883;13043;31827;36741;107167];
[61386;1;1;5;9;27;17;117;121;111;433;743;1987;6839;8439;2533;62135;54281];
[61399;1;3;5;15;11;61;117;103;409;485;1047;469;2245;7193;2541;9399;88127];
[61422;1;3;1;9;3;49;111;201;87;181;1243;3261;1827;10385;13045;58331;107729];
[61429;1;3;5;15;13;29;61;223;227;733;1757;755;4231;13537;1509;54623;120221];
[61436;1;1;1;15;13;9;7;233;391;689;355;1203;5811;7759;2647;54949;51891];
[61439;1;1;3;1;3;27;95;51;497;315;915;1055;2917;167;1849;26591;102729];
[61466;1;3;7;13;1;51;3;113;437;449;1889;2887;4735;5693;8191;12847;52651];
[61477;1;1;7;13;1;45;41;221;403;185;1653;1809;6405;9193;1381;36677;43255];
[61478;1;1;5;1;25;51;109;245;291;809;1381;3235;5933;10185;18663;15589;39539];
[61490;1;3;3;1;27;29;3;227;275;705;489;681;323;7453;26005;13791;115219];
[61495;1;3;5;1;3;51;101;75;157;529;45;3105;3617;13081;21665;50065;117823];
[61504;1;3;5;15;9;43;41;169;391;455;1375;253;1257;14427;16325;11571;26361];
[61514;1;1;5;7;5;41;81;173;275;225;301;335;5473;1509;20897;21951;103967];
[61516;1;3;5;1;13;27;107;19;221;609;823;1193;665;4947;11967;57373;21665];
[61521;1;3;7;13;7;11;109;59;193;103;943;595;5121;6159;2103;52863;57541];
[61527;1;3;5;3;5;51;85;227;465;1013;601;1687;7615;5991;8635;64487;69967];
[61531;1;3;1;11;29;49;79;25;447;119;569;383;5261;6209;21965;40863;96593];
[61540;1;1;3;13;9;49;59;93;369;789;1373;425;3565;13357;17783;46435;129653];
[61550;1;3;7;5;5;39;51;15;421;531;1855;2105;5335;8509;20841;44997;48235];
[61557;1;3;7;3;27;47;113;1;453;565;1843;243;7663;10697;7725;24485;49435];
[61562;1;1;1;11;25;25;47;1;475;831;1833;391;5173;14873;14263;36061;26781];
[61577;1;1;7;15;21;13;5;169;241;235;547;1565;2053;6877;12811;22213;106907];
[61583;1;3;7;1;21;11;101;115;243;985;1389;2189;563;12453;14951;58889;48079];
[61597;1;1;5;7;9;37;33;241;337;453;1955;1731;4445;8887;27715;63975;95891];
[61602;1;1;5;1;23;21;95;237;241;991;1159;2417;2279;8941;20987;39773;79327];
[61604;1;3;3;1;19;39;73;253;137;1009;1793;4007;2017;7503;16689;29013;41571];
[61607;1;3;7;15;3;63;77;11;293;495;339;3525;5747;1807;11705;55807;54163];
[61622;1;3;7;3;25;41;127;23;113;807;387;3529;2173;11217;21257;61169;47749];
[61625;1;3;3;5;27;5;43;55;207;995;811;1473;481;4317;2015;49161;94711];
[61633;1;3;1;9;21;61;41;147;425;353;1943;2455;379;10729;3045;16013;44527];
[61640;1;3;1;5;17;43;109;231;313;277;939;3491;5883;2297;4763;33403;62395];
[61643;1;1;3;9;1;49;37;145;383;467;621;2873;873;6163;16475;49045;115599];
[61651;1;1;1;9;5;15;125;157;459;727;807;2769;5531;11531;4277;42301;16969];
[61658;1;1;3;1;15;23;39;121;163;537;409;1217;8007;5671;19681;25371;69227];
[61670;1;3;7;9;23;1;93;41;267;995;1917;3441;6237;7233;30215;31945;33967];
[61674;1;1;1;15;7;5;123;53;359;677;1061;1649;651;14079;30211;14827;123175];
[61676;1;3;1;5;11;19;121;135;167;293;493;949;5459;11785;21445;57161;129737];
[61679;1;1;3;13;19;39;43;55;149;549;479;925;341;1151;12007;23473;10671];
[61688;1;3;5;9;7;41;37;103;381;373;1767;3959;3001;7903;24033;55123;93627];
[61693;1;3;3;3;31;27;93;175;393;575;703;3715;6043;11763;7613;15907;56821];
[61701;1;3;3;13;3;13;75;85;89;851;1171;3075;5265;10293;14745;32153;89877];
[61711;1;1;7;11;1;25;101;149;187;197;1485;1555;1599;7413;23275;27093;73483];
[61714;1;3;1;1;19;15;63;111;211;197;77;1683;3159;235;32601;35715;59537];
[61723;1;3;5;11;23;61;91;135;403;669;267;2507;2931;7813;5047;40027;111705];
[61725;1;1;5;13;7;5;65;37;87;405;335;1095;3717;1717;31551;28181;47407];
[61726;1;1;5;13;3;43;67;99;507;861;1063;3003;6095;11079;6919;41597;97709];
[61729;1;1;3;1;7;23;109;161;321;499;549;363;2061;6519;1531;1969;83845];
[61741;1;3;7;5;17;39;55;59;455;433;601;365;7987;2207;3463;31755;94203];
[61761;1;3;5;5;29;61;79;101;125;1011;867;2935;3269;13601;21935;50355;65883];
[61779;1;1;1;5;3;41;101;107;299;125;81;2421;2937;787;19479;25803;74473];
[61781;1;3;3;1;3;15;73;13;167;387;75;601;415;6927;32277;16709;12477];
[61782;1;1;5;1;19;37;53;45;139;737;159;2299;6219;11613;22873;18303;56875];
[61797;1;1;3;9;23;15;17;37;373;445;1369;2997;49;13901;13155;37375;29063];
[61809;1;3;3;11;17;1;45;91;445;631;1297;1907;3765;13893;29379;17939;36573];
[61810;1;1;7;13;11;31;101;165;413;305;361;4019;3183;2321;7819;49275;101041];
[61816;1;1;7;1;13;43;125;165;357;293;1343;2219;4189;6095;28509;27763;53871];
[61822;1;3;3;11;29;33;105;71;297;637;1493;3797;5525;15093;21647;57647;1467];
[61849;1;1;1;13;19;7;5;141;71;221;923;1039;4777;9481;1267;55345;116061];
[61876;1;1;7;11;19;43;57;243;21;217;1075;569;3735;10477;18595;34133;70391];
[61893;1;3;3;1;21;61;7;135;401;101;321;2959;7371;3303;23023;28163;19833];
[61905;1;1;3;9;31;43;27;243;297;145;663;3951;4283;10421;9355;30381;68317];
[61908;1;3;7;13;29;53;101;253;49;129;831;513;5567;5063;157;6465;90983];
[61911;1;1;5;15;27;29;3;231;503;173;913;3971;7685;9679;32243;967;73195];
[61912;1;1;1;15;19;55;127;3;405;239;1063;3473;7543;4049;14509;22657;5611];
[61928;1;3;7;1;21;39;61;249;421;401;1667;1981;5503;9191;24027;35049;12199];
[61934;1;3;5;5;27;1;99;83;287;997;721;1345;2197;6335;4245;42575;102635];
[61957;1;3;3;1;31;7;103;107;387;273;951;2475;1275;15607;2159;55083;86107];
[61961;1;3;3;5;21;59;69;55;121;601;5;1871;7161;4583;23867;7933;3125];
[61969;1;1;1;15;17;41;51;45;383;579;713;275;1395;11665;30521;11683;126493];
[61979;1;1;1;15;17;47;15;139;175;283;1377;827;5753;8855;26437;59219;105601];
[61982;1;1;7;11;13;3;27;141;137;851;767;2575;7685;11719;24401;52547;127299];
[62003;1;3;3;9;11;41;75;69;167;897;1213;3723;6773;12141;28033;19695;128545];
[62006;1;1;5;13;7;61;55;131;465;169;1669;711;5901;10769;11273;23809;63625];
[62010;1;1;5;1;27;25;35;167;83;921;251;2571;6723;14767;26715;21699;60779];
[62015;1;3;1;9;15;5;59;241;405;323;1917;1161;6079;13443;13079;58617;63381];
[62020;1;3;1;5;9;5;79;123;87;395;667;2787;3711;3613;1803;17885;78975];
[62024;1;3;3;5;17;45;61;107;485;163;33;1491;7131;59;27327;8043;14907];
[62029;1;3;1;11;27;37;5;251;115;339;1621;2013;3517;2213;10145;47121;84485];
[62032;1;3;3;1;9;11;71;25;363;867;1485;3897;3339;7599;20777;52009;127097];
[62035;1;1;3;9;25;37;29;231;183;315;399;879;6169;6355;3729;9187;19405];
[62038;1;3;5;3;31;37;127;71;171;687;1237;151;7391;2395;11979;23381;117879];
[62047;1;1;1;13;13;43;71;235;131;79;1321;235;2221;1133;13509;12205;44771];
[62068;1;3;7;5;29;51;125;191;153;35;1657;2141;3701;7177;31723;15189;55441];
[62071;1;1;5;1;5;35;13;165;461;255;1825;1531;6195;7717;973;12367;71747];
[62082;1;3;1;9;13;57;25;83;389;405;227;1037;3805;15653;25365;47991;54315];
[62088;1;1;1;13;17;55;113;151;145;951;1849;2205;6513;7845;7947;59429;44911];
[62096;1;3;5;3;25;9;99;159;183;445;153;3053;2537;1787;19029;60047;128203];
[62108;1;1;5;5;31;37;13;11;271;491;1141;1827;3751;9471;7579;35969;95245];
[62124;1;3;3;15;1;43;9;109;13;991;345;1577;947;3197;16747;8127;116937];
[62142;1;3;3;15;11;17;103;89;33;741;1855;2879;3899;9535;15119;56165;86055];
[62147;1;3;5;1;31;41;57;205;69;163;1383;2087;6483;6281;32079;40825;28709];
[62153;1;1;1;13;23;57;103;247;421;773;1733;3249;6681;9675;11669;51673;86189];
[62159;1;1;5;15;7;37;63;123;77;941;277;1061;803;2135;15745;47413;73843];
[62161;1;1;3;5;19;15;35;59;321;527;1669;2929;513;4453;20521;19781;115501];
[62171;1;1;7;3;23;1;99;251;129;271;1555;1191;2445;11533;11921;19131;80653];
[62189;1;1;7;15;15;33;79;89;113;517;1655;43;6255;15415;19559;63309;16857];
[62207;1;3;5;1;13;61;87;159;65;875;163;663;7651;8775;32505;39313;83331];
[62227;1;1;7;15;27;19;63;117;427;233;1243;755;3201;5153;31959;64545;69219];
[62230;1;1;5;3;3;27;15;11;427;431;107;2433;6923;7503;31347;64849;14541];
[62234;1;1;3;11;7;23;53;253;483;63;1749;2989;5219;7361;6423;1503;95431];
[62236;1;1;5;9;1;19;23;25;301;665;1457;2423;6623;9771;2755;8963;51037];
[62239;1;3;3;7;21;1;3;131;377;897;15;437;4075;7669;31529;64123;101249];
[62257;1;3;5;3;31;41;99;27;397;393;1895;2249;3925;6393;2839;375;56721];
[62270;1;3;7;15;1;45;65;113;85;557;857;2281;1395;2055;2405;34541;63719];
[62278;1;3;1;15;7;43;21;29;15;229;1287;3005;339;5833;21867;21643;37557];
[62287;1;3;7;3;3;51;67;119;423;539;1995;4039;2999;2787;29327;62687;11893];
[62295;1;3;7;3;25;23;85;11;105;523;889;2983;2031;2049;16119;41925;38345];
[62301;1;3;7;3;13;63;59;65;183;695;293;3301;7895;13915;25847;22819;92189];
[62306;1;1;3;3;7;27;101;229;435;227;1759;1275;5781;6079;25125;64833;69577];
[62312;1;1;3;1;29;1;61;45;193;441;687;841;4491;10683;13989;60461;78071];
[62317;1;3;1;9;5;33;99;229;181;675;1629;1855;4719;9585;8059;26363;31161];
[62330;1;3;1;11;11;37;79;53;163;49;1173;1715;8087;6535;14985;24069;118597];
[62342;1;1;7;15;9;59;123;79;237;131;1693;2525;6339;9843;24309;24969;37645];
[62359;1;3;3;7;19;49;85;133;415;239;555;2581;6523;2733;19665;19989;105585];
[62365;1;3;3;7;23;37;31;121;59;7;2031;2893;6429;10305;21221;20105;38879];
[62366;1;3;1;13;23;21;93;93;343;641;411;971;1777;2135;22895;9055;114457];
[62370;1;3;5;3;15;33;23;7;59;413;277;3551;7737;2285;7951;5013;94469];
[62375;1;3;1;15;25;1;109;245;153;187;1099;1071;145;6735;10327;3921;62123];
[62376;1;1;7;11;11;53;51;123;277;281;1763;3161;7639;14515;29725;3919;5525];
[62387;1;3;3;15;27;47;109;121;317;221;187;617;1331;5401;861;62465;9227];
[62404;1;3;3;15;27;25;101;111;469;85;1285;1621;5393;1367;17115;35141;126989];
[62411;1;3;5;1;15;23;25;249;69;17;1103;2603;59;15637;22051;29243;53113];
[62435;1;3;1;9;17;49;73;13;207;963;379;3561;6447;7895;18651;8109;3943];
[62441;1;3;5;11;7;41;55;85;481;831;593;4093;1151;12353;24231;46091;80967];
[62442;1;3;7;7;5;39;47;187;427;1007;813;3617;6063;12981;18573;34061;85741];
[62452;1;3;3;11;9;17;29;141;341;485;1075;4067;7247;11295;31803;18347;54985];
[62459;1;1;3;7;17;25;7;29;355;35;1753;669;4123;4293;22875;36677;61201];
[62461;1;1;5;9;13;45;29;153;169;387;1275;3161;4937;5331;16203;43925;129231];
[62473;1;3;3;9;19;27;109;95;499;929;1627;3215;6097;15837;5655;29877;122513];
[62474;1;3;7;11;1;25;15;41;65;411;289;883;5069;8405;11159;57357;114253];
[62493;1;1;3;11;31;57;39;89;77;321;1667;871;6429;1005;18905;13877;9305];
[62510;1;1;7;7;27;57;23;37;281;625;1871;565;5979;13925;22591;2375;8577];
[62518;1;1;1;7;31;35;91;221;495;811;1321;2235;4287;3009;5745;35013;93715];
[62524;1;1;7;3;11;53;17;13;319;225;117;3365;537;5249;14219;23879;4321];
[62549;1;3;5;1;31;57;35;95;257;933;471;627;6733;8707;25173;44291;105041];
[62556;1;1;3;3;31;53;69;19;277;669;497;3957;2781;14107;27741;53519;41057];
[62565;1;1;3;15;11;21;11;25;257;665;491;2119;3893;14401;29147;3369;116569];
[62566;1;3;1;1;13;49;31;231;217;711;1987;1487;7073;473;28781;51283;86049];
[62580;1;1;1;5;23;31;119;115;381;179;1725;2323;8013;15191;13255;57813;95437];
[62584;1;1;3;15;15;37;83;223;259;605;2013;4089;395;2063;11735;51931;74677];
[62589;1;1;7;3;1;61;107;169;213;789;425;2309;225;1305;20697;26281;60129];
[62596;1;1;5;15;27;15;69;169;289;931;1491;3711;6875;7723;21103;31795;53955];
[62608;1;1;1;3;3;43;49;205;247;817;2037;2305;7935;255;18835;49423;90727];
[62636;1;3;7;9;17;3;95;239;431;665;1271;3559;5703;14607;9723;11807;122937];
[62642;1;3;5;13;5;15;13;111;375;895;833;813;5451;13841;1321;25273;25443];
[62651;1;1;3;1;11;49;3;97;467;631;51;3577;1777;15965;6837;38827;68627];
[62654;1;1;7;1;3;11;73;155;77;623;811;337;6837;10925;2097;28325;97487];
[62659;1;1;1;3;29;35;9;215;415;143;1837;3723;73;11305;23187;19995;52987];
[62666;1;1;7;1;25;39;35;67;245;295;1143;2043;1049;629;14111;62893;86899];
[62680;1;3;7;5;3;41;123;97;241;743;259;3163;2289;6363;24033;10789;44117];
[62692;1;3;1;7;25;33;33;17;359;567;901;3595;179;8671;841;24787;4367];
[62701;1;3;1;13;5;13;57;185;321;727;789;3081;5345;9721;32029;11663;55695];
[62702;1;1;7;7;5;51;85;255;329;263;297;1687;6799;10973;8265;19615;115333];
[62714;1;1;1;5;29;27;55;167;465;73;661;137;7831;2571;15373;64223;27335];
[62716;1;3;7;13;5;23;77;15;345;21;1729;3231;967;12573;31415;24249;110525];
[62733;1;1;7;9;31;37;41;119;169;891;1845;2139;1747;1147;21983;11617;25963];
[62762;1;3;3;7;23;5;1;11;95;795;1371;2631;3241;6935;17353;25013;89765];
[62769;1;3;1;7;19;3;121;19;389;117;1905;3135;7601;12541;20855;38613;15005];
[62770;1;3;3;5;17;43;91;99;113;545;1955;37;3411;15173;24961;28761;15245];
[62787;1;3;3;13;25;9;83;17;17;271;1133;3851;4607;11017;14867;20677;42881];
[62794;1;1;5;15;5;9;99;179;263;623;441;2577;189;11595;21505;27215;54081];
[62801;1;1;7;1;1;63;123;119;245;467;169;3075;909;3581;14571;33071;6261];
[62807;1;1;1;13;9;35;47;161;47;893;57;703;3373;4167;26555;51265;1391];
[62808;1;3;1;13;9;61;9;5;47;259;579;113;355;14539;25757;10119;96869];
[62813;1;1;5;11;3;5;61;231;291;21;1711;2981;4727;14287;12149;40275;51809];
[62817;1;3;5;3;21;5;87;251;373;679;949;1023;5183;14549;4135;54927;20369];
[62818;1;3;3;11;7;43;127;97;469;81;1843;3955;125;8607;27185;50761;122753];
[62832;1;3;5;5;25;61;1;55;333;949;1005;1051;6291;8343;9627;37739;116911];
[62841;1;3;3;13;21;9;67;225;179;837;2009;3171;217;5629;23451;63171;53225];
[62857;1;3;7;1;23;15;91;163;351;883;579;3923;2641;12735;24955;1131;65119];
[62860;1;1;1;11;29;5;113;217;171;535;913;2419;3843;12365;8287;27367;57369];
[62871;1;1;5;11;9;41;57;243;123;159;1517;2653;4307;4243;2801;43131;18435];
[62882;1;1;7;9;23;59;83;159;57;723;1635;7;1463;121;541;7657;83917];
[62888;1;3;7;7;23;27;125;103;247;1019;1063;3979;8085;6449;12443;63427;106235];
[62913;1;1;7;5;9;31;23;83;503;605;1731;3341;7427;14571;5981;39043;42965];
[62919;1;3;5;1;17;49;109;171;301;951;1879;1317;457;8085;6803;62521;67871];
[62920;1;1;7;11;11;27;1;71;335;137;265;1267;6399;14823;925;49895;19731];
[62925;1;3;1;13;3;35;75;253;211;483;1495;3695;3033;14643;1861;51269;32655];
[62933;1;3;7;1;5;17;63;1;83;435;2007;2023;57;8639;27067;4039;1955];
[62938;1;3;5;15;27;51;59;47;77;131;507;559;645;16067;20989;15565;39925];
[62940;1;3;3;5;11;15;63;121;39;1019;1027;2821;3297;13769;18587;14199;82251];
[62949;1;1;5;1;31;11;89;75;147;1007;917;3519;5097;5695;15185;14819;38597];
[62956;1;3;3;3;15;7;127;55;83;887;1901;75;639;713;13631;27447;106707];
[62971;1;3;3;15;27;25;85;163;187;959;815;1403;6129;6515;31597;28307;30077];
[62978;1;3;1;13;5;19;117;89;11;489;845;2899;3695;3279;22355;38759;85849];
[62990;1;3;1;7;25;59;109;185;87;591;825;1119;7439;5451;17959;51299;76693];
[62995;1;1;7;5;25;29;115;249;185;529;593;103;1739;4769;25925;3317;102445];
[62997;1;1;3;1;3;35;19;255;279;295;1075;2817;3513;7501;15885;21653;113447];
[63004;1;3;1;5;27;1;21;137;303;981;631;2339;397;13075;28815;50925;44379];
[63011;1;1;7;7;31;31;59;129;105;181;1041;2685;1061;1721;30365;6873;30011];
[63032;1;1;3;1;19;31;125;39;9;631;1239;1061;6313;9639;5991;27293;84635];
[63038;1;3;3;11;17;59;17;241;195;175;1845;251;3323;13399;20493;15241;69303];
[63067;1;1;5;3;9;19;59;25;49;359;263;4045;1527;6703;555;26413;42757];
[63069;1;1;5;9;23;5;7;223;247;407;1079;1069;3417;14795;5015;2965;99059];
[63076;1;3;7;5;27;47;9;37;47;181;819;2049;2643;9231;8173;33495;91321];
[63083;1;3;5;11;5;27;5;237;349;653;1443;137;7969;5961;24749;37523;88921];
[63088;1;3;7;13;11;51;49;71;339;195;1239;3479;2771;15217;23729;7839;32633];
[63094;1;1;5;5;5;13;103;185;13;273;1793;761;5327;8659;32599;38181;121115];
[63097;1;3;7;15;17;55;69;151;231;421;1679;3657;8001;12599;13761;13517;130199];
[63100;1;1;5;3;5;15;15;61;489;219;925;2329;3415;10779;31297;63805;13375];
[63104;1;1;7;9;7;11;87;45;39;885;87;1877;8135;1247;25685;23631;65579];
[63114;1;3;3;7;1;17;31;75;455;535;509;2151;1737;7579;12727;25139;32659];
[63116;1;3;5;7;15;27;111;145;99;767;167;3391;2155;7895;3405;47451;65185];
[63122;1;1;1;3;23;31;15;53;59;787;431;2691;71;2843;13469;54029;2233];
[63128;1;1;5;1;5;39;57;31;75;507;811;2747;317;13545;7395;65161;87987];
[63149;1;3;5;5;13;17;11;89;371;337;913;2775;27;4923;24013;62955;65185];
[63150;1;3;3;7;9;27;91;187;17;443;807;853;6243;12351;8123;4203;61021];
[63157;1;1;1;5;9;33;101;211;205;701;1289;1253;653;8591;13009;48525;77051];
[63167;1;3;5;11;5;19;1;67;259;355;15;2169;6785;2019;8675;1019;85903];
[63187;1;3;7;5;27;31;103;163;369;685;659;2009;5819;10437;17311;35083;122125];
[63200;1;3;5;7;19;13;93;113;377;359;1697;4063;4379;9321;7335;25491;85939];
[63220;1;3;3;5;7;25;41;225;355;257;743;2067;7627;14317;7385;25187;63103];
[63223;1;1;7;7;17;43;75;1;95;547;1937;2263;1709;5067;22651;55733;44619];
[63229;1;1;7;3;5;27;45;23;107;547;1733;1169;6709;861;4439;55381;96447];
[63235;1;1;7;11;25;23;127;159;489;945;843;3715;5215;2131;9681;35515;108109];
[63247;1;1;3;7;5;1;67;59;83;745;1337;855;6087;14319;13405;36261;49091];
[63252;1;3;1;1;13;27;41;155;463;709;1111;2017;4701;8663;29703;45311;113347];
[63255;1;1;7;5;1;11;83;101;283;505;893;705;2331;5127;21793;28095;59055];
[63289;1;1;5;9;25;7;97;155;71;569;1481;897;6177;13367;12163;18171;24785];
[63298;1;3;5;11;19;25;7;15;511;369;957;1247;6097;11181;17265;24777;87377];
[63303;1;3;1;7;11;9;39;191;9;793;867;2779;3447;3805;21025;64719;15669];
[63327;1;1;3;1;31;43;107;103;175;131;1525;993;635;14383;26835;15929;109977];
[63328;1;1;1;3;19;17;99;249;47;467;853;2805;3155;1565;17291;18865;11039];
[63348;1;1;5;13;25;61;91;67;361;947;1909;3403;945;3481;16703;50227;43963];
[63355;1;3;1;3;19;27;31;219;185;579;1539;315;4421;9473;30289;48477;61365];
[63357;1;1;3;1;23;11;101;1;133;305;1107;1145;1733;13275;221;5071;81987];
[63368;1;1;1;13;7;61;47;5;137;979;1183;2049;5263;6515;5585;6093;119689];
[63391;1;3;1;5;19;47;83;115;215;901;1685;755;2327;13297;6847;40329;19225];
[63402;1;1;3;3;3;13;31;127;199;655;55;2183;5031;945;6073;54729;108281];
[63409;1;1;1;1;11;51;37;19;73;205;1377;1881;3679;4487;14693;41735;27349];
[63416;1;3;7;13;1;35;37;73;45;973;209;529;5283;9765;26367;12697;8685];
[63419;1;3;3;9;3;45;115;35;475;663;487;3613;4151;15623;3057;31519;87545];
[63430;1;3;7;5;23;13;25;255;355;433;1671;667;7463;14189;14107;1531;11695];
[63442;1;1;7;3;15;25;37;127;265;493;1763;2721;4335;13753;5947;18375;29911];
[63457;1;1;3;15;1;55;25;69;335;157;1923;1757;5689;6731;723;6471;57415];
[63458;1;3;3;3;1;15;127;227;401;395;503;3783;1737;8785;16287;34949;91683];
[63482;1;3;5;15;23;29;55;119;115;855;657;3729;5309;14773;5647;25953;67303];
[63487;1;3;5;13;23;25;1;187;67;389;359;619;2523;11203;11049;60345;53931];
[63488;1;3;1;7;7;45;99;123;495;797;939;3387;7563;16289;8309;14917;99867];
[63500;1;3;5;11;29;49;89;205;447;541;1279;1153;7277;5393;8743;41057;100119];
[63511;1;1;1;9;1;7;43;165;259;311;993;1381;3363;577;4023;443;101785];
[63517;1;1;7;9;25;55;93;63;423;787;549;1039;383;15855;6013;51399;60007];
[63528;1;3;3;1;5;17;103;91;309;85;1319;3869;559;3993;18111;17753;66681];
[63531;1;3;7;9;1;11;87;151;311;597;811;3955;275;6555;17005;26763;31227];
[63559;1;1;3;11;19;51;41;101;183;1003;1635;2061;3305;12925;7223;4859;24433];
[63566;1;3;7;11;7;43;79;53;43;429;947;2533;7005;15147;13435;33997;21201];
[63578;1;1;3;5;15;17;61;41;383;465;1439;3503;3981;14469;5075;25953;70461];
[63580;1;1;1;13;21;53;25;59;59;195;665;3367;2777;9179;24207;56729;94241];
[63584;1;3;7;15;27;13;41;147;415;351;961;3811;1605;14231;31789;41189;50265];
[63587;1;3;3;7;31;39;85;219;323;657;423;1579;3623;7663;14631;47169;88795];
[63594;1;3;1;3;1;3;125;65;259;3;1897;2203;347;4101;23841;20217;117407];
[63607;1;1;3;7;29;1;75;255;413;237;1531;2103;6847;10395;9817;9383;60679];
[63611;1;3;5;3;7;63;17;83;375;835;1707;3227;327;2205;25025;47471;39967];
[63630;1;3;7;7;9;51;23;189;157;351;755;2695;3923;3481;12159;1041;94563];
[63632;1;1;3;11;25;27;39;19;221;795;523;695;3257;8045;2643;43239;13291];
[63641;1;3;3;5;29;1;33;117;477;147;1117;1943;7967;15999;10673;13349;89471];
[63647;1;1;3;9;17;51;55;115;147;687;1751;3685;3099;15369;371;55673;67951];
[63651;1;1;7;1;5;25;67;31;103;439;1581;705;3855;15985;7151;56511;23697];
[63666;1;3;5;3;21;7;11;123;121;1009;277;623;7913;7525;4759;19245;16735];
[63668;1;1;5;11;7;57;103;147;199;209;233;3665;4215;13511;16393;37873;120857];
[63695;1;1;7;9;27;45;29;97;279;379;1683;1965;1183;11389;20445;38435;56893];
[63697;1;3;5;5;27;23;89;169;329;659;393;903;6217;6459;27327;2843;44889];
[63709;1;1;1;15;3;53;109;83;195;5;1865;729;3627;13307;20761;50375;60379];
[63723;1;1;1;13;25;57;17;185;359;797;469;2637;973;2731;25299;15169;90187];
[63737;1;3;5;1;19;39;87;161;117;565;1737;3995;6487;5067;18531;38803;45453];
[63746;1;1;1;5;19;3;93;85;479;369;469;1407;475;7775;12273;34417;65611];
[63752;1;1;3;15;31;11;105;19;281;711;713;3423;797;11215;31409;44891;110413];
[63755;1;1;3;11;13;17;59;111;59;431;1517;2159;1697;12309;16293;2097;107273];
[63775;1;3;5;15;25;19;97;107;97;563;247;3691;2775;10631;15113;25721;12995];
[63781;1;1;5;3;31;25;47;201;231;123;1923;2287;1711;12271;1573;6605;72991];
[63794;1;1;5;5;27;17;109;125;423;1;819;3041;685;8791;19697;13107;67681];
[63796;1;1;5;3;5;63;115;95;117;715;1523;1231;8171;1615;9819;14361;87075];
[63808;1;1;7;7;7;35;35;175;349;853;1665;3101;6051;10737;933;40591;9419];
[63817;1;1;1;3;23;49;65;23;103;837;403;3799;6515;15363;28079;36381;59523];
[63820;1;3;1;15;15;25;119;181;229;685;1047;2397;4855;15393;2371;42441;30151];
[63826;1;3;7;11;15;5;13;93;219;203;475;523;5827;6579;26759;29795;108463];
[63838;1;1;7;13;25;53;75;195;443;1003;501;2543;5453;3119;19225;59631;16413];
[63848;1;1;7;13;13;25;93;211;191;1005;1567;3057;3001;1125;6237;35725;108257];
[63861;1;1;3;7;21;11;57;205;487;263;1801;3235;1819;10875;6063;26211;54699];
[63862;1;3;3;7;11;59;89;217;15;991;1343;1247;277;13377;18499;64987;26053];
[63866;1;3;3;1;15;51;111;69;137;817;1207;1729;3877;9873;18449;50749;57457];
[63878;1;3;3;5;3;39;97;147;327;257;1547;769;7077;5221;13679;44237;70053];
[63889;1;1;5;11;19;15;79;187;335;645;1235;4041;4831;10847;28135;48353;64921];
[63892;1;1;7;9;3;43;41;149;71;205;1513;2801;6785;3187;25401;55367;114491];
[63901;1;1;7;1;25;11;37;205;365;435;147;1303;587;14563;32461;28983;86157];
[63915;1;1;7;1;31;11;51;37;401;343;1677;991;501;11993;14781;37055;30161];
[63917;1;3;5;9;9;21;95;45;447;957;943;3997;4033;8371;25007;52827;50207];
[63926;1;1;7;1;9;45;3;255;297;341;215;3631;7049;7625;4145;50109;48615];
[63932;1;3;3;9;27;49;41;143;291;343;719;311;3819;7699;17631;64785;49239];
[63937;1;1;7;3;27;35;61;183;153;781;979;1465;3315;14893;29847;18461;74949];
[63938;1;3;5;15;19;61;39;219;279;909;1295;1681;8021;957;7675;14001;77669];
[63943;1;3;1;5;15;59;127;85;229;649;503;3267;2465;5637;2729;24831;44791];
[63944;1;3;7;11;23;55;61;191;345;255;105;1361;3913;7655;8865;1825;80619];
[63950;1;3;3;13;29;15;53;19;1;651;917;2043;2333;13695;28225;16457;11287];
[63952;1;1;3;13;15;53;41;211;13;287;383;3923;665;10343;4803;22199;90521];
[63955;1;3;7;11;23;27;127;241;11;451;495;2779;319;13119;5575;43043;11659];
[63957;1;1;1;7;17;53;55;39;233;273;1873;843;7885;329;6809;33119;116017];
[63961;1;1;1;7;21;41;23;113;283;265;1535;2371;3975;6293;22497;65349;48653];
[63962;1;3;7;9;25;21;61;135;245;777;679;2603;565;3251;32469;12707;40297];
[63978;1;1;1;5;31;49;35;215;445;669;779;2231;5399;5853;17941;33973;126141];
[63983;1;3;5;5;3;31;45;235;51;65;295;3755;8101;821;28331;38837;55235];
[63988;1;1;5;15;23;15;37;197;59;455;1875;1745;7565;8039;15901;63129;36095];
[64008;1;1;5;11;7;1;77;235;309;245;1539;1421;3401;1477;12655;19851;86147];
[64013;1;1;3;9;27;9;113;127;167;213;161;4065;1275;10699;26111;26213;129091];
[64019;1;3;5;9;9;17;109;205;23;145;1261;51;5855;7411;20551;5801;47841];
[64026;1;1;3;3;15;1;1;39;431;601;177;525;6951;6271;27031;37157;73979];
[64028;1;3;1;3;19;61;11;131;31;223;959;3531;2433;15675;29201;49277;43977];
[64032;1;1;5;9;5;27;57;3;503;755;1261;3659;6685;10041;24739;12201;19753];
[64042;1;1;7;3;31;27;7;191;7;415;1665;1413;7493;2645;23577;46331;9481];
[64044;1;1;5;1;29;59;99;231;33;613;1347;2671;1767;15685;26583;44699;73511];
[64055;1;1;3;3;9;47;93;87;45;549;219;2141;233;10239;30325;14985;70325];
[64070;1;1;3;3;21;39;81;179;319;853;93;2869;59;6675;22391;16089;33949];
[64079;1;1;3;7;31;19;73;249;175;57;1717;3557;2307;4595;22045;33291;123003];
[64084;1;1;1;3;7;23;81;229;387;1001;1371;17;667;3043;30507;44613;32239];
[64087;1;1;7;15;15;59;83;99;101;863;333;845;7547;13345;7599;51;10963];
[64093;1;1;1;3;15;55;73;37;429;711;1315;2911;5109;953;14721;25551;33527];
[64100;1;1;5;9;11;57;75;107;449;293;1267;2633;5291;9939;12365;1975;75705];
[64104;1;3;3;7;19;51;111;233;369;873;1419;425;6587;11371;29613;28041;77405];
[64109;1;3;1;15;11;1;65;185;301;25;75;1353;6879;11519;24093;65223;130659];
[64140;1;1;3;3;17;17;33;177;467;841;949;1119;7869;5835;22175;20439;98923];
[64148;1;3;1;9;1;19;1;9;487;425;1095;1995;693;12661;27717;56167;34829];
[64151;1;1;7;7;27;57;85;159;109;801;477;3953;3195;11079;26885;59833;4971];
[64152;1;1;1;15;25;9;89;231;499;623;1385;3753;4781;15263;12721;17511;67327];
[64171;1;1;3;7;9;11;103;65;319;681;1423;2355;6243;399;8483;23697;107995];
[64179;1;1;1;1;5;7;63;117;151;905;163;3813;6931;13161;15131;63067;15649];
[64186;1;3;3;3;13;57;69;199;283;153;617;123;3125;3057;8121;14483;28085];
[64203;1;3;7;15;25;45;25;179;91;457;681;537;243;4369;11395;17565;47875];
[64206;1;3;1;13;29;51;101;23;143;715;1725;791;6001;4283;10689;49237;5231];
[64213;1;3;3;5;27;41;39;17;501;587;1067;1859;9;13449;31257;17675;99769];
[64214;1;1;1;3;15;57;119;195;15;779;761;733;3505;4815;23167;411;52303];
[64220;1;3;1;13;9;31;5;141;19;487;739;577;4383;1951;24293;45503;111923];
[64233;1;3;1;11;25;37;107;245;89;107;1969;1569;7475;11795;6123;45311;52251];
[64239;1;1;7;11;15;9;67;141;199;91;819;3721;6251;6107;9393;14941;98545];
[64248;1;3;3;11;23;9;31;211;339;665;1507;2255;3589;11495;28393;2017;106735];
[64251;1;3;5;11;27;13;105;217;173;337;1573;837;3771;8645;28749;27501;45045];
[64259;1;1;5;1;11;43;99;217;131;545;1323;3089;5689;785;9043;29961;17855];
[64268;1;1;3;9;31;41;61;239;271;123;1583;397;4243;12197;9847;12341;130533];
[64273;1;3;5;3;27;11;33;31;77;403;823;2791;3475;4201;15967;39149;107137];
[64279;1;3;1;11;9;5;103;145;85;341;1615;729;7209;10289;20807;54167;15613];
[64283;1;3;7;1;29;33;91;219;171;367;907;3645;1059;9031;247;13231;14323];
[64292;1;1;1;7;19;15;65;61;221;941;1005;1447;3513;8917;17399;52471;64245];
[64296;1;1;5;7;5;35;15;253;325;313;2015;3239;1633;9745;11617;10575;35877];
[64301;1;3;5;3;13;1;115;207;227;637;1119;781;2897;1573;16499;43167;20631];
[64302;1;3;5;9;17;47;117;7;303;719;975;1167;2463;5255;28237;33495;57133];
[64324;1;3;5;11;5;43;123;63;19;97;1423;695;5985;5923;5755;22721;5411];
[64331;1;3;1;9;9;25;87;197;325;827;1679;1561;101;3951;17453;33537;121431];
[64346;1;1;7;5;13;33;3;191;171;37;619;1917;7525;14103;25807;25455;57455];
[64364;1;3;3;1;9;35;93;159;455;115;479;665;477;4483;29751;45047;41251];
[64382;1;3;1;3;11;47;41;199;511;475;151;1163;239;6731;4461;39845;99555];
[64386;1;1;5;7;9;5;49;221;503;637;1323;3303;4137;6675;17709;49233;38325];
[64400;1;1;5;15;1;43;55;67;291;393;237;3555;4171;909;8655;46309;61799];
[64409;1;3;5;3;3;37;125;249;509;611;983;4093;1633;10063;10811;60033;40999];
[64419;1;3;5;11;1;37;75;255;279;545;1999;833;2789;14601;16707;64703;53545];
[64433;1;1;5;7;3;15;59;11;17;711;721;765;3747;13549;28641;47437;42261];
[64454;1;3;7;1;3;45;65;45;279;929;933;2215;7095;14593;6047;40747;109789];
[64458;1;3;7;15;15;55;89;155;345;515;1005;2921;1761;1095;28463;20971;62451];
[64482;1;3;3;1;1;41;35;149;481;171;305;1411;237;4515;32375;22645;741];
[64494;1;1;1;15;17;1;123;235;221;495;1693;3109;6453;8827;23775;9303;30237];
[64496;1;3;3;5;7;63;37;13;457;159;1683;2207;1731;3341;7415;21073;119417];
[64505;1;1;7;15;21;27;5;67;267;919;203;1129;4029;3407;16767;35485;66903];
[64514;1;1;1;5;15;29;99;5;219;677;443;3799;2461;747;20885;32661;44079];
[64519;1;1;1;1;3;55;53;151;195;587;1155;2439;3817;8735;30849;54107;14113];
[64525;1;1;1;9;29;15;89;175;373;925;301;3749;5439;2653;22819;41201;77043];
[64528;1;1;1;1;25;49;29;129;331;539;1247;773;7891;5905;19571;17919;6815];
[64534;1;1;3;15;5;63;123;133;141;383;1893;573;629;3939;9455;50433;111415];
[64561;1;1;7;9;15;33;119;159;17;511;1841;427;3911;8609;4215;9799;84397];
[64571;1;1;7;3;9;25;63;247;235;635;915;3423;5421;7021;9203;18121;3683];
[64579;1;3;1;1;25;11;105;1;491;137;1923;103;3371;3543;5173;36777;23417];
[64591;1;3;3;13;19;37;93;191;101;193;351;839;7147;5477;29225;45307;1455];
[64606;1;3;1;5;11;17;95;239;105;407;395;919;3317;14825;23447;4897;128363];
[64616;1;1;1;11;27;47;83;137;163;673;1291;3041;4559;7217;23613;19477;93805];
[64619;1;1;1;15;25;51;37;9;23;757;1921;2649;5677;11421;10231;1775;124709];
[64640;1;3;1;13;31;37;37;163;59;975;1203;1425;1255;3259;16681;38101;118165];
[64645;1;1;3;11;17;17;31;23;169;305;3;1631;6853;7019;14539;57663;70377];
[64649;1;1;7;3;15;61;113;31;497;935;473;819;1223;13907;5075;45177;20255];
[64652;1;3;7;13;9;41;123;121;497;877;915;3323;4815;4175;25979;38751;107099];
[64670;1;1;3;7;13;33;31;167;331;595;517;1237;1947;1905;28155;52431;93065];
[64673;1;3;1;1;11;51;7;151;323;211;523;2929;233;3633;2785;6043;100101];
[64674;1;1;7;13;29;3;125;247;121;567;857;3225;7461;15413;773;54939;67443];
[64683;1;1;1;15;19;29;101;179;369;115;1777;3223;1499;12487;41;50607;111137];
[64697;1;1;3;1;9;59;21;25;173;357;1143;1353;3907;10743;30325;39211;116671];
[64703;1;1;7;15;9;63;67;229;7;399;2037;3531;6393;4273;9365;52009;118093];
[64711;1;1;7;1;31;21;5;251;433;1;481;4041;6179;825;8671;20597;103257];
[64723;1;1;7;1;15;41;69;93;47;17;1901;2671;4739;1883;30239;50763;108295];
[64736;1;3;7;15;29;19;63;213;475;133;43;955;2001;555;10479;1333;52807];
[64739;1;3;3;15;27;13;91;109;71;333;1971;3355;2175;11457;31101;30217;68263];
[64741;1;1;5;1;21;33;51;169;365;475;1015;985;7217;15453;7727;49843;57733];
[64748;1;1;7;1;11;37;67;135;429;403;1663;2037;7849;3757;6373;38703;46393];
[64759;1;1;1;3;15;3;29;101;327;643;47;1805;6873;1659;31097;34847;46843];
[64768;1;3;1;15;9;45;7;189;175;955;45;3545;3595;7443;2913;54501;63279];
[64771;1;3;7;11;1;39;59;179;209;121;445;4077;4851;15161;29133;13543;106247];
[64778;1;3;7;7;5;53;73;107;409;639;1731;1921;999;14445;17629;3667;74819];
[64792;1;3;3;9;23;41;117;195;497;425;627;1599;7715;1401;7217;61113;67135];
[64821;1;1;5;13;9;33;97;115;233;833;1041;1755;5317;12703;25709;62293;2569];
[64831;1;1;1;11;1;7;27;151;325;905;1279;4093;7495;9803;17339;7977;24009];
[64839;1;3;1;11;25;59;89;175;67;139;1507;411;7863;9585;14869;46655;126021];
[64848;1;3;3;15;29;5;111;251;69;177;519;901;4331;5341;22031;3851;114369];
[64860;1;3;5;3;19;9;83;69;411;673;1549;3429;3647;12601;17177;16161;114561];
[64867;1;1;5;5;21;15;65;179;405;571;1245;3693;7471;12109;20177;28783;124339];
[64870;1;1;5;5;9;61;69;99;9;829;1823;3803;1181;3073;10069;28689;21347];
[64874;1;1;5;1;3;11;25;99;241;957;1137;7;3809;7073;21217;49447;41425];
[64879;1;3;1;9;15;59;13;29;467;893;1667;31;3269;12599;28673;17101;81591];
[64887;1;3;7;3;15;55;79;177;1;891;217;2725;6171;7779;16173;1003;37093];
[64894;1;3;7;11;15;61;13;181;421;83;905;1089;4597;3291;23243;53123;21315];
[64897;1;1;3;3;21;63;113;149;203;379;583;1955;8087;9155;23019;17757;1537];
[64898;1;3;5;9;27;41;61;207;213;253;693;273;1835;14135;11519;40819;50999];
[64921;1;3;5;3;1;51;71;237;355;327;1903;133;6075;4685;29689;48723;67791];
[64933;1;3;5;9;21;13;101;23;95;369;1657;989;4081;1373;29005;7247;53923];
[64940;1;1;7;13;15;3;71;189;345;771;251;937;1041;3017;27279;1635;32581];
[64957;1;1;5;7;23;63;99;43;237;189;1549;25;63;14089;14387;51423;57193];
[64969;1;1;7;15;13;55;89;87;95;241;827;501;2341;14357;831;27101;98285];
[64972;1;1;1;9;29;29;125;81;73;123;329;2617;1259;4415;30007;19467;117847];
[64978;1;3;1;11;15;63;85;121;409;885;1197;423;2673;12107;1127;14119;90541];
[64984;1;3;1;3;1;35;117;149;213;925;923;1013;3547;6877;3467;47893;38645];
[64993;1;1;3;15;3;21;87;199;197;851;1711;3449;1771;1727;11651;51903;99835];
[64999;1;3;3;1;5;27;57;243;465;173;697;4011;6177;3019;31317;24699;53151];
[65000;1;3;5;7;7;51;61;177;489;381;493;1975;3143;8003;7735;46363;110705];
[65006;1;1;7;5;27;45;69;33;229;725;2033;3655;3027;11795;2941;7921;117605];
[65011;1;3;1;7;3;37;91;255;13;651;49;309;7425;11641;3661;3929;94199];
[65014;1;3;7;5;7;47;121;203;297;941;1585;3659;265;159;30729;31825;343];
[65036;1;3;5;9;3;25;95;215;125;105;37;943;4095;8169;26763;20975;122307];
[65044;1;1;3;15;9;13;81;25;51;15;599;835;6723;9487;25219;60401;48749];
[65063;1;3;3;15;15;47;41;219;77;43;1705;2363;7005;7137;17687;665;116097];
[65067;1;3;5;1;17;33;71;3;253;355;117;1995;3339;11789;13563;58889;18553];
[65075;1;3;5;1;21;33;89;177;9;951;1593;1419;3295;9617;31661;7841;119939];
[65077;1;3;3;1;31;35;25;9;379;271;923;2387;3351;5869;4501;6855;28273];
[65082;1;1;5;9;11;15;127;79;405;579;395;2469;5847;7589;17577;61717;6493];
[65095;1;3;7;13;29;13;99;209;79;469;5;2231;89;1557;5123;47169;46529];
[65101;1;3;7;9;13;35;119;53;7;351;601;901;5407;13673;6929;38311;2659];
[65104;1;3;7;9;13;23;61;255;113;331;367;2979;2741;6971;26447;6861;116267];
[65109;1;1;3;3;25;57;93;5;387;87;1765;1277;8175;11185;4377;9779;95569];
[65110;1;1;7;11;29;43;31;155;111;409;733;1919;2681;8435;5877;35439;15435];
[65116;1;1;1;7;19;33;109;125;51;733;997;3467;5081;8371;263;31461;46117];
[65126;1;3;3;7;27;61;57;75;317;247;1535;3757;4617;15627;11191;3581;64475];
[65129;1;3;3;1;31;7;95;151;159;475;559;379;361;5953;5551;20313;64015];
[65138;1;1;5;1;11;31;71;77;493;697;345;1809;611;14319;6591;23657;44071];
[65160;1;1;1;13;5;1;9;233;229;397;1201;1817;7409;11521;3753;35611;123037];
[65171;1;3;7;15;9;15;85;163;99;867;265;1021;129;11059;123;27185;68435];
[65173;1;3;1;11;25;43;105;165;291;977;463;2699;5361;9951;29735;63501;86235];
[65180;1;3;7;13;9;33;39;145;441;233;373;193;1451;7975;2871;64431;43339];
[65189;1;1;7;13;15;25;45;27;319;719;1801;447;3027;769;271;37227;26447];
[65193;1;1;5;1;29;1;59;59;121;251;387;55;5957;10527;24227;38841;29115];
[65208;1;3;1;5;31;25;67;191;137;849;631;953;3103;9737;28993;49413;60709];
[65214;1;3;3;15;7;5;37;179;357;961;1649;441;5287;4161;24013;39661;76233];
[65216;1;1;5;1;9;1;47;209;219;1021;969;2343;5675;7137;14247;50305;72613];
[65225;1;1;3;1;9;43;43;47;35;97;617;1033;2387;14155;17049;53333;108619];
[65236;1;3;1;3;1;45;11;171;349;65;909;1801;1075;10905;7395;19997;128205];
[65239;1;1;7;11;19;39;117;175;459;791;1383;3473;6937;8447;10077;13353;122063];
[65273;1;3;3;9;3;27;115;29;135;305;1023;2517;1981;4969;18149;35565;120785];
[65274;1;3;3;11;15;23;27;115;411;805;841;2205;5997;5141;10679;25235;81989];
[65281;1;1;3;9;11;63;27;185;337;891;1447;1397;8009;4453;23077;37599;93389];
[65294;1;1;5;13;27;11;77;11;447;81;1603;2317;6499;6631;27305;51049;40967];
[65324;1;3;7;1;7;43;83;33;69;119;139;1391;4879;3759;31211;29203;110229];
[65335;1;3;7;15;31;59;53;97;135;233;1421;587;2985;3627;7355;53829;51581];
[65354;1;3;7;15;1;37;39;225;147;37;327;2819;6081;4337;22063;21177;91065];
[65359;1;1;3;1;13;31;61;133;433;243;131;3625;6389;335;24029;33217;80833];
[65373;1;1;7;11;21;39;95;181;35;499;677;3935;1379;6791;12633;13671;28317];
[65383;1;3;1;5;7;57;5;229;389;197;1523;1221;609;10449;6389;9279;53871];
[65387;1;3;5;7;1;39;69;131;387;839;1375;3841;81;7395;5837;32067;51183];
[65397;1;1;5;3;5;27;107;171;53;923;345;445;1101;11201;20563;30889;72361];
[65411;1;3;7;11;19;7;99;219;485;403;293;3967;7517;4765;11331;55;92641];
[65413;1;1;7;13;19;9;73;31;405;513;941;3645;7075;8109;21431;52791;120927];
[65418;1;1;1;15;29;33;75;65;479;47;35;4023;4853;2793;29895;2711;83779];
[65441;1;1;3;15;11;1;9;149;503;845;647;1233;4355;3623;3197;36015;24839];
[65444;1;1;7;1;31;35;59;25;393;503;227;3243;301;11121;32463;38185;69969];
[65447;1;1;1;7;9;15;11;89;19;605;1657;3335;1967;29;28619;42301;79909];
[65448;1;3;7;7;19;29;111;55;299;733;547;395;4831;1991;7357;25781;115129];
[65473;1;1;3;7;5;33;31;101;163;389;1163;1843;4105;14209;29261;5821;17929];
[65476;1;3;5;1;11;23;53;227;497;695;313;3305;6549;15401;9339;40283;60531];
[65480;1;3;5;5;3;29;77;149;509;747;85;2561;4435;14475;22887;38177;24535];
[65494;1;1;7;1;1;33;7;77;153;369;689;3325;1173;16203;1499;36627;66915];
[65509;1;1;5;11;23;61;95;61;289;71;653;2817;365;7391;1613;48901;57471];
[65519;1;3;3;7;15;29;65;133;15;921;1601;1941;6917;10945;20101;59809;9017];
[65527;1;3;3;15;7;51;95;53;87;1017;1039;3405;1967;9855;4905;4651;83487];
[19;1;3;5;13;23;27;31;179;121;597;829;4003;2487;3977;3087;26791;28305;138357];
[31;1;1;5;5;5;39;95;117;461;117;109;2571;7651;12361;17921;555;33353;186427];
[38;1;1;3;13;23;47;89;125;271;609;215;3861;6883;3217;2547;54943;60565;215939];
[61;1;1;7;15;25;61;47;93;219;919;1551;1417;2753;4353;9201;46423;31227;150649];
[64;1;1;1;3;29;39;11;61;137;809;147;2715;5455;9431;5725;46135;118193;54099];
[109;1;1;3;1;25;37;83;211;423;779;1731;2827;883;10477;28771;21723;114333;56293];
[115;1;1;5;5;27;17;21;125;495;655;1803;3555;1997;15593;29705;48537;53935;179773];
[118;1;1;7;5;19;63;55;15;469;769;967;3047;1713;11655;15313;29965;78857;223391];
[131;1;3;3;5;27;33;51;171;417;243;1203;3505;2533;2695;219;57423;5145;143165];
[167;1;3;5;9;5;19;95;97;1;863;693;2977;4839;6649;22587;40745;113839;69131];
[200;1;3;5;1;31;39;53;85;509;5;359;1947;3279;5433;21763;46713;37289;35911];
[241;1;3;7;13;17;35;59;63;95;667;1775;2165;7861;15731;12159;36179;115457;184819];
[244;1;3;3;15;19;51;7;83;367;573;503;535;333;13041;7187;14479;57473;242951];
[247;1;3;5;1;7;27;65;201;365;445;985;1175;6391;7345;19935;29085;103001;231855];
[261;1;3;5;13;15;61;95;125;135;217;1787;417;7641;11825;14531;48497;125087;73279];
[265;1;1;5;13;7;25;77;99;341;447;1711;137;2749;3465;26255;719;102595;112825];
[304;1;1;7;7;15;13;127;57;359;591;713;409;1293;4979;7035;11369;85255;207241];
[314;1;3;3;5;1;45;123;183;297;375;1269;1197;2389;6269;24549;44643;75893;161509];
[341;1;1;5;7;17;55;67;51;449;383;2037;871;1359;15317;22055;4655;18065;258271];
[376;1;1;3;11;21;27;59;205;145;195;1747;1121;1061;8879;31455;56541;74765;183047];
[395;1;1;5;15;1;11;69;157;13;185;1355;467;4383;13103;21679;35169;33427;32113];
[405;1;3;1;3;29;41;15;209;313;61;1749;2457;1897;15595;24441;39913;40499;5179];
[406;1;3;7;15;25;41;87;125;239;73;207;2043;1133;12845;8533;16339;117913;118677];
[443;1;1;3;15;25;9;15;97;395;99;2017;1003;847;2535;11753;54769;54011;73541];
[451;1;1;7;15;11;61;13;49;319;871;893;165;3957;8683;31197;39491;58705;213411];
[458;1;3;7;3;17;43;29;81;461;595;541;243;5587;13083;29981;16187;124601;89543];
[460;1;1;5;11;7;5;61;43;445;115;1705;419;4627;15063;16053;26249;112243;208711];
[468;1;3;3;9;27;21;89;49;41;859;681;2043;7445;9591;13443;36981;66785;227899];
[472;1;1;3;5;11;55;51;45;41;739;1199;191;4563;4035;3657;12189;52879;33961];
[482;1;1;1;3;17;59;47;217;389;783;1501;517;6311;7903;1371;50617;41723;116473];
[491;1;1;5;13;29;39;101;203;101;479;1337;2647;6447;563;2593;16533;122535;25587];
[496;1;1;3;3;27;21;75;173;289;279;665;3177;559;8539;10903;16779;128219;125907];
[524;1;1;1;11;27;1;61;247;113;585;331;3443;5939;5213;27289;57057;17349;62359];
[536;1;3;5;15;21;41;67;47;121;11;545;3609;7745;3669;9045;8377;97655;99631];
[542;1;3;5;9;11;15;111;61;67;775;579;3421;7827;13607;32373;43531;86149;238827];
[557;1;1;1;1;9;45;79;153;331;399;1777;3515;3363;3499;13461;48651;21731;220611];
[572;1;1;1;1;31;57;117;223;139;725;1115;3203;8185;11983;20245;55913;36803;68101];
[580;1;1;1;3;31;57;53;79;225;307;1645;3311;643;6587;12037;12453;83461;195503];
[592;1;3;1;7;23;25;65;233;273;97;37;1563;3635;9299;24367;42761;55;128675];
[656;1;3;3;11;29;21;97;143;447;345;389;381;1403;685;309;11103;69769;194441];
[713;1;3;3;11;23;55;119;71;23;291;1241;1723;5025;4499;26617;22875;62185;240321];
[719;1;1;7;11;19;63;31;131;393;99;1061;3805;7477;15357;8269;26067;113349;239333];
[738;1;3;5;1;5;37;77;83;37;759;1297;3067;5369;5977;7531;49079;94503;192765];
[749;1;1;7;1;23;9;119;137;469;73;2001;2629;2681;2295;2055;44027;47627;45283];
[752;1;3;1;7;31;17;61;137;241;325;1417;2383;4171;2495;215;59593;98495;74727];
[767;1;1;7;13;7;5;59;189;131;865;1963;1811;5629;16189;16397;58069;72081;191457];
[772;1;1;7;15;23;33;93;247;395;643;693;3587;4375;5519;9449;37515;11455;218337];
[782;1;1;3;1;27;63;113;91;477;55;1461;1547;4743;699;21639;1815;169;34239];
[789;1;1;5;15;29;37;19;19;247;771;695;319;1779;10553;16165;60507;87161;86967];
[830;1;1;7;1;25;61;13;167;251;861;1717;1533;7323;3945;20879;37759;129689;35901];
[838;1;3;3;7;7;61;11;25;187;949;1393;1743;745;16313;5293;16921;17619;237705];
[916;1;3;5;11;7;27;11;107;299;711;149;1581;7747;14285;6411;52209;79043;61117];
[920;1;1;5;1;17;19;91;185;53;699;1185;4007;1099;1965;20239;19547;120859;234149];
[936;1;1;5;5;13;61;117;187;149;957;837;3549;6221;501;24755;47975;67007;12329];
[991;1;1;3;15;21;41;55;81;397;403;1699;1057;6125;11987;3103;43361;21277;156577];
[998;1;1;5;11;5;27;5;177;387;859;809;3919;4085;1535;6009;13265;3065;217945];
[1016;1;3;1;13;15;57;107;81;437;305;879;1691;3685;11415;3749;46999;113933;10515];
[1024;1;1;7;13;9;43;59;223;189;329;829;2033;1835;8255;8121;46463;61433;86453];
[1053;1;3;1;9;11;49;63;125;11;987;2017;2623;4753;13889;57;24755;108489;175383];
[1081;1;1;1;3;25;33;39;151;405;657;1755;957;5557;7611;25839;51385;92713;64009];
[1090;1;3;7;9;17;17;115;89;225;715;1085;543;1047;15053;14359;43301;31455;156555];
[1125;1;1;7;11;11;21;115;5;371;1003;1053;1713;5921;7277;799;62483;28079;222319];
[1135;1;1;3;3;31;15;127;213;459;229;1477;1863;1021;14881;16299;5953;121455;49659];
[1143;1;1;5;9;3;39;87;219;57;479;69;2777;8105;11975;14743;26205;93303;45311];
[1150;1;1;5;13;3;43;55;139;19;715;2035;2993;2945;9075;6275;32233;103127;49523];
[1154;1;3;1;13;19;31;109;211;261;231;697;383;2173;14617;11877;37009;5485;236549];
[1171;1;1;5;3;5;23;91;115;369;11;1021;519;655;4461;23743;56981;51687;114845];
[1174;1;3;7;9;29;23;19;127;17;369;1537;2705;4993;1869;15447;28127;73609;97683];
[1202;1;1;3;9;17;61;97;187;213;861;725;3205;103;12729;2915;28389;83123;124065];
[1213;1;3;1;1;5;61;47;187;471;137;1595;707;2449;14315;16409;41467;37533;1649];
[1225;1;3;5;5;7;39;1;245;361;43;1259;3149;3449;15723;6225;27445;80529;215349];
[1233;1;3;3;11;17;27;37;47;157;345;1437;3219;5663;7299;23925;34067;102379;42767];
[1234;1;3;5;13;21;59;43;189;17;303;1949;3627;3495;7981;18115;34221;43511;255257];
[1252;1;3;7;15;3;29;81;243;321;853;595;2451;1713;11859;27689;12849;24505;9547];
[1255;1;3;1;3;7;7;89;183;51;901;253;2421;7453;15827;21451;58653;51933;239113];
[1294;1;1;7;3;21;59;93;25;219;805;1699;3777;3683;5351;5481;44797;651;32161];
[1349;1;3;7;5;31;15;15;167;305;545;331;3765;8191;5763;16965;7239;73735;1049];
[1354;1;3;1;15;13;19;59;107;213;39;1547;3413;6175;16195;4635;8945;60301;196697];
[1378;1;1;3;1;29;17;51;61;261;951;643;2329;2235;9171;11265;3523;89781;227125];
[1383;1;3;5;1;1;51;75;199;479;899;1425;3697;2039;4503;11789;16853;94607;236887];
[1387;1;3;1;9;19;43;111;41;385;677;1067;3391;7819;13663;17713;10155;124243;56005];
[1392;1;3;5;3;15;3;105;23;307;955;843;1277;6697;11903;8901;36129;51685;251115];
[1402;1;3;1;5;27;35;95;57;207;49;1559;171;4703;511;4169;23241;111447;173109];
[1420;1;3;1;13;23;5;31;15;223;673;1333;2243;2479;7489;31891;33909;96803;227027];
[1428;1;3;5;11;5;45;19;13;367;475;1719;3947;5295;2319;20697;181;16925;80239];
[1437;1;1;5;13;15;47;89;15;153;73;523;3529;5401;15881;13779;32123;82347;58749];
[1448;1;3;5;7;5;7;123;217;261;65;685;2175;3289;7473;17857;48335;94183;216857];
[1459;1;3;7;13;7;23;85;25;231;19;1179;2705;6433;10827;1969;51521;76775;260291];
[1473;1;3;3;13;9;39;5;141;475;777;1809;1975;2347;12611;28303;15239;45429;170015];
[1507;1;1;7;7;31;31;39;19;317;897;739;275;2261;16013;1123;33181;96603;37563];
[1516;1;1;7;13;31;55;87;239;193;435;625;2153;3979;15537;19937;50621;48273;31381];
[1528;1;1;1;15;1;57;73;237;361;749;379;2511;501;10783;2787;36983;12393;14345];
[1573;1;1;1;3;25;33;85;25;83;939;139;2601;6385;16041;28463;38977;28163;232165];
[1592;1;3;5;3;9;19;119;171;499;19;569;353;1619;6235;24431;47401;48125;168819];
[1597;1;1;1;3;9;27;121;137;411;391;1437;1339;7475;3889;15451;34809;69807;162851];
[1654;1;3;5;11;31;39;41;3;171;35;81;2713;1077;10697;12343;52133;52825;152255];
[1663;1;1;3;11;17;51;83;19;357;207;897;2167;1333;4111;29295;65371;73447;61765];
[1730;1;1;3;7;9;59;17;135;365;931;1203;277;5531;4213;12969;2617;591;154539];
[1739;1;3;7;11;1;53;31;49;135;603;227;911;7371;8559;27195;33065;71351;245255];
[1741;1;1;7;1;15;5;31;135;197;791;1531;2567;2545;15515;25417;27431;15571;176829];
[1753;1;3;1;1;15;7;89;217;505;859;1329;2285;7921;11839;7699;56867;112483;3895];
[1783;1;3;1;3;27;57;37;117;491;815;275;381;7443;3297;1523;34211;97589;232261];
[1804;1;1;3;3;29;63;69;153;297;423;1435;3927;7265;13223;17607;21201;57929;73037];
[1807;1;3;1;3;23;41;1;167;121;217;973;2149;3807;9895;29635;1625;99829;218541];
[1832;1;3;5;7;31;33;53;165;51;119;7;1655;6521;5481;9503;6833;80483;252111];
[1850;1;1;7;1;5;63;25;219;165;893;1665;2789;1113;9277;3151;12625;82403;59749];
[1852;1;3;7;3;21;13;127;127;145;993;715;1947;7501;4385;11759;2179;26039;28027];
[1881;1;3;5;9;23;27;123;1;231;709;1615;1433;5991;1045;16269;123;110249;154819];
[1894;1;1;1;5;17;11;123;151;387;905;991;1571;4463;6765;31905;59307;75175;204571];
[1927;1;3;1;11;27;49;1;181;77;1023;807;3479;7965;4633;17495;5991;77081;249343];
[1952;1;3;1;1;13;53;105;79;269;173;1319;1695;1215;3651;25063;34949;77243;214671];
[1969;1;1;1;1;3;19;103;233;1;507;721;1797;5025;405;13027;23693;89963;25771];
[1999;1;3;5;9;21;53;1;241;405;707;1807;3615;1199;11155;27741;53931;55091;248677];
[2018;1;3;5;7;27;27;39;77;475;845;1393;3779;5261;13017;13517;18595;64485;180577];
[2047;1;1;3;5;7;21;95;59;203;233;1167;3457;3965;4321;14885;6335;78353;39341];
[2066;1;1;7;13;27;19;27;133;419;507;945;3595;131;7981;31451;62347;19151;256127];
[2068;1;3;7;3;7;15;9;173;257;983;223;2881;6911;3681;26183;38943;112171;148627];
[2093;1;3;3;15;5;49;91;205;303;183;775;3841;4943;14417;23013;59337;85835;181771];
[2105;1;3;5;9;21;1;117;27;509;263;1215;893;6677;3275;20831;5045;127323;62589];
[2116;1;1;1;3;17;61;77;239;379;649;1151;2359;2659;13853;30589;55873;50359;184125];
[2149;1;1;7;5;17;33;95;111;245;873;1721;3079;7753;12889;27107;8267;119413;249045];
[2201;1;1;1;15;13;23;59;169;449;283;913;2099;5337;4307;3701;16395;112987;14183];
[2228;1;1;5;3;5;15;3;249;97;849;1551;3437;1247;10915;24073;53723;40345;37215];
[2245;1;1;1;5;21;59;109;79;9;827;1329;405;3821;8415;11239;1003;78967;112627];
[2246;1;1;1;11;21;7;21;45;327;365;865;1409;1273;15675;21425;45367;22279;240943];
[2283;1;3;3;7;3;19;83;163;381;547;195;1537;7905;9057;1309;41135;118857;101725];
[2288;1;1;5;9;11;19;107;247;309;343;1697;699;7137;12815;18405;42673;505;104801];
[2320;1;3;5;3;13;43;55;15;441;843;1153;3739;67;11053;30985;55329;57301;190991];
[2326;1;1;5;3;23;41;9;239;227;145;1895;2645;945;6421;2859;16173;97043;234649];
[2386;1;3;1;3;23;47;57;207;441;279;1951;3041;2465;6143;27669;41171;89627;2489];
[2392;1;3;1;11;7;9;19;51;345;187;1699;1483;15;10321;25277;34889;85225;259071];
[2395;1;1;1;15;27;15;79;51;407;757;611;3955;1123;14659;11273;56639;64727;183077];
[2413;1;3;7;1;13;61;89;157;29;561;791;995;4233;11351;16335;47041;108671;120115];
[2419;1;3;3;15;17;35;15;223;57;7;961;3327;7287;5537;26231;3289;106555;109781];
[2441;1;3;7;15;17;3;25;121;349;995;1353;2991;3071;3583;26173;42343;60495;44035];
[2466;1;3;1;11;5;5;83;249;427;173;1733;45;3277;7911;18091;61305;130251;31849];
[2477;1;1;1;9;3;23;23;127;371;1011;573;1769;1707;15351;30077;61139;122963;203481];
[2485;1;1;1;13;27;41;97;29;461;207;1393;707;5633;7155;13455;7305;107539;136413];
[2492;1;1;1;9;3;13;61;115;297;333;1679;127;8049;3129;31845;40039;77087;6831];
[2495;1;3;3;11;27;25;49;29;423;193;1955;2927;5679;3537;16911;47065;126803;129957];
[2498;1;1;1;3;21;31;25;187;301;883;1301;415;1515;14761;227;24377;54415;64553];
[2504;1;3;7;7;3;5;69;221;357;587;1387;3719;5355;10569;14731;22515;107237;1673];
[2515;1;1;3;15;27;7;89;23;213;655;779;1641;1793;1499;27279;59423;56715;90313];
[2521;1;3;3;7;3;33;85;181;509;327;353;1625;4995;15627;17071;31885;122423;100337];
[2561;1;3;5;9;7;39;45;157;279;211;1163;3283;4419;10187;22397;42119;25105;163925];
[2579;1;3;3;15;17;37;75;65;501;765;1171;2451;309;551;15573;65497;106435;20817];
[2604;1;1;3;1;13;1;79;117;5;285;953;2401;2479;15765;25677;63611;91807;78153];
[2657;1;1;5;15;1;7;123;159;217;307;1779;2625;101;13887;31721;55769;94899;183427];
[2681;1;3;5;5;11;13;59;205;221;871;753;823;547;11055;31621;54379;23631;137027];
[2691;1;3;3;7;5;17;7;31;37;237;1633;969;4123;6643;28499;3277;130223;37465];
[2731;1;3;7;5;29;41;65;159;487;61;1217;4093;487;15257;13379;46641;88043;107425];
[2739;1;1;7;7;19;29;87;119;13;877;467;2661;7733;9303;20069;8445;126159;69421];
[2765;1;3;1;13;1;57;77;241;185;479;859;2397;1167;6545;20715;50701;107781;149965];
[2790;1;1;5;1;1;3;19;31;473;685;1455;1537;1843;4051;17475;56717;70257;112815];
[2802;1;3;7;15;9;21;19;201;13;551;1053;1291;3793;7923;30425;55513;30033;70597];
[2819;1;3;1;15;21;47;127;117;199;655;1979;1291;8017;11769;9071;12029;112369;2529];
[2891;1;3;5;1;15;3;25;199;101;997;597;2485;6509;11913;19573;13985;56165;249];
[2905;1;1;7;3;19;45;107;229;241;747;1219;3133;3675;4441;13933;64571;95445;250713];
[2911;1;3;1;5;11;31;89;119;503;99;75;349;7479;15161;6365;62461;39443;188455];
[2912;1;1;5;13;25;31;65;237;259;329;89;1283;6033;4401;7655;38837;62367;76555];
[2921;1;1;1;7;19;61;109;41;361;89;171;2319;3625;8905;24461;36135;28515;101547];
[2924;1;3;5;3;5;45;123;227;339;79;309;2619;1621;1295;6395;6717;119933;187231];
[2945;1;1;1;3;3;45;91;225;269;475;1159;2599;5087;4141;28375;22413;56235;256559];
[2952;1;1;1;13;7;51;27;65;65;381;169;1759;4653;9885;25839;19851;4965;249097];
[2972;1;3;7;11;25;11;83;137;419;277;503;2823;2759;8173;9405;23731;116087;9735];
[2986;1;1;5;5;27;17;123;145;41;85;1099;1087;1465;7063;8585;39427;15479;243967];
[3000;1;1;7;3;21;53;105;185;101;763;593;2649;3273;5655;12233;11761;27093;121347];
[3008;1;1;1;5;11;55;107;167;179;681;741;1821;4297;14677;9949;9647;60465;36999];
[3011;1;1;1;7;25;43;95;71;161;517;1475;1989;6273;13295;19681;51773;93523;33441];
[3018;1;3;1;13;23;59;95;177;73;707;37;421;3747;14207;17159;4957;20161;26185];
[3047;1;1;7;13;13;1;19;153;445;429;1911;3515;639;16015;833;54347;87717;82175];
[3071;1;3;5;9;1;9;115;87;341;651;1583;807;559;13579;9647;37277;125555;169655];
[3079;1;1;3;5;13;23;117;229;205;803;1381;2773;7099;4031;597;37135;11643;92325];
[3083;1;3;7;9;27;15;33;147;1;799;1511;2609;1419;5991;15571;56995;97695;223969];
[3086;1;3;1;3;17;9;17;189;407;355;765;2545;1079;15253;4785;5187;80775;238775];
[3148;1;1;3;1;31;29;3;159;263;325;125;2221;6369;5717;13985;33829;21375;134249];
[3156;1;3;7;3;5;29;39;75;183;155;1017;637;921;9561;14893;59695;38325;15503];
[3194;1;1;3;13;9;31;43;71;241;661;325;357;431;903;5039;24535;94241;228605];
[3230;1;3;1;1;17;37;93;47;25;207;611;415;6473;15979;2025;19003;8941;248779];
[3233;1;1;7;15;19;17;81;201;121;11;1975;1289;4405;7851;9707;20057;33749;187161];
[3254;1;1;3;5;29;31;47;99;435;795;947;1299;4011;8315;12827;48071;86567;154655];
[3268;1;1;5;3;9;59;115;191;177;65;1835;3989;1819;14325;8939;25337;16099;200577];
[3305;1;3;7;9;15;47;7;195;413;1013;1607;3317;6979;13243;275;34125;66069;90201];
[3323;1;1;3;3;29;3;51;137;341;393;897;351;1937;6793;12551;18873;110949;133925];
[3326;1;3;5;9;29;41;79;169;113;123;1229;1885;6153;1549;31729;41949;74083;41387];
[3343;1;3;1;15;31;49;7;233;305;435;1299;3037;2387;15431;817;11783;24067;116527];
[3345;1;3;5;13;7;17;49;33;133;45;689;2381;2649;2433;27535;21755;88611;200585];
[3382;1;1;5;11;1;61;87;97;91;433;313;2541;5289;5769;17963;5719;12165;146849];
[3413;1;3;7;13;17;21;37;191;489;847;841;3567;7339;15233;23973;1209;99741;243303];
[3420;1;3;1;1;5;21;11;39;69;751;1679;143;6187;2963;695;45763;126749;243841];
[3434;1;3;3;9;21;55;43;73;133;417;495;2899;5681;13049;30241;44519;19095;30673];
[3453;1;1;5;9;17;51;121;205;273;597;1325;3755;5113;12287;21323;17947;23807;20025];
[3472;1;1;7;7;21;11;25;33;207;13;1639;1971;7401;11771;7879;59027;111981;65451];
[3488;1;3;5;15;3;15;121;23;199;839;937;3659;5379;2139;31631;17215;65349;157413];
[3503;1;1;1;7;3;7;81;49;17;693;1819;2737;7329;49;1655;42317;31385;11435];
[3506;1;3;5;15;25;51;121;133;457;159;869;855;3529;2691;147;58621;78379;148519];
[3518;1;1;3;7;1;53;109;81;37;553;1921;3081;2665;12665;13887;1035;16987;48883];
[3532;1;1;5;1;19;1;121;97;143;871;1401;2879;5657;5479;14011;65131;56011;241055];
[3543;1;1;7;5;9;21;9;43;331;183;1313;2495;6905;2763;29567;7579;95169;130937];
[3547;1;3;7;3;3;37;65;195;339;527;1383;3063;7749;11109;8097;27257;107615;134241];
[3573;1;1;1;5;25;25;63;179;135;65;169;2709;5435;12119;21549;59847;129639;220163];
[3574;1;3;5;1;3;17;87;181;9;923;731;3397;7079;3281;10455;35471;20439;206209];
[3587;1;1;1;5;31;25;15;89;381;675;1217;3175;707;585;1695;57771;92433;203523];
[3632;1;3;5;15;5;7;9;87;461;1017;869;1541;7833;3117;24917;13917;104797;149045];
[3664;1;1;7;15;13;49;9;89;165;827;657;1977;7471;15437;25785;1455;52803;198793];
[3713;1;3;1;15;3;39;27;205;325;345;965;1439;4403;10717;9591;46845;123983;76181];
[3726;1;3;1;1;25;23;97;135;367;179;1563;75;455;3517;21539;59565;43449;139495];
[3768;1;1;5;15;13;27;55;21;1;505;1349;409;2491;5299;15771;59389;110377;209275];
[3771;1;1;7;9;31;15;63;91;3;559;419;1237;1157;5811;24335;19215;12581;148813];
[3810;1;1;7;13;23;3;81;127;33;931;867;2905;1011;16207;1543;54309;10611;152733];
[3848;1;3;5;7;21;19;45;101;439;537;267;945;8007;9383;13211;21867;5731;150203];
[3868;1;1;3;9;29;3;31;219;217;775;1011;445;2663;1691;9837;5727;116283;128627];
[3896;1;3;3;3;21;1;97;239;457;925;1923;1693;1187;13437;8529;22081;633;76109];
[3910;1;3;7;7;19;5;9;15;337;855;1563;3159;2799;4103;2013;47789;77027;22425];
[3921;1;1;3;15;15;41;27;77;489;377;1953;305;5081;1895;5117;51455;71859;190289];
[3928;1;1;5;7;7;7;13;25;115;657;223;3185;5327;2559;5147;22237;91933;195429];
[3940;1;1;3;5;5;19;3;197;371;237;555;2873;3401;3329;29165;4593;111677;244025];
[3947;1;3;5;15;15;55;29;75;329;623;279;2831;4489;7803;24119;12959;59783;135213];
[3949;1;3;5;13;31;21;93;77;401;353;893;917;4813;8027;7847;55315;60213;102763];
[4001;1;1;5;13;29;49;91;35;79;625;1539;509;823;2239;30867;21729;33195;38189];
[4004;1;3;3;3;19;11;39;145;5;329;1653;3205;4431;9291;30369;63173;72317;236103];
[4022;1;3;3;15;27;9;111;191;249;845;1845;2097;6529;9559;25757;29085;2615;175759];
[4026;1;3;7;1;17;59;119;125;213;995;601;2517;1225;2301;13031;40881;31623;165799];
[4036;1;3;3;13;25;61;97;157;347;931;1731;3697;5815;7309;30605;3853;72395;103609];
[4073;1;1;7;5;23;13;51;117;495;683;777;1629;5683;801;4907;24935;9457;214131];
[4093;1;1;5;9;1;29;107;253;195;921;345;1451;2253;12723;571;12009;34149;140659];
[4099;1;1;5;9;31;17;93;5;455;205;1439;1199;7371;12973;16455;675;60561;99575];
[4120;1;3;3;3;31;37;115;49;31;285;2029;1369;3443;2411;10367;44859;26737;195703];
[4136;1;1;3;1;15;39;113;37;257;3;817;2901;4029;12595;30475;34883;109133;92159];
[4156;1;1;7;5;9;1;9;101;317;167;1975;411;6875;6951;4401;59483;129813;78289];
[4176;1;1;7;9;9;5;73;7;57;907;1887;2923;961;8521;873;33791;114485;43081];
[4182;1;1;5;7;13;45;91;179;499;197;1337;1321;5307;15503;20449;60813;97393;255741];
[4191;1;1;1;5;25;13;69;221;207;823;845;3845;6743;5123;27447;2079;100635;124157];
[4198;1;3;5;11;13;39;121;209;137;63;1479;323;5347;9797;17785;55541;108713;243347];
[4252;1;1;3;9;29;45;43;81;115;979;727;423;1133;8757;27833;39907;104663;33067];
[4259;1;3;5;1;13;61;49;17;409;567;1035;2299;3711;15485;7767;27809;1275;96455];
[4261;1;1;5;9;5;33;13;9;505;459;747;4079;4271;6925;13933;31349;5793;68381];
[4294;1;3;3;11;15;47;15;187;349;847;817;3551;6059;6451;32615;1635;108889;48003];
[4341;1;3;5;7;3;31;11;255;367;295;1079;2981;5583;10771;25359;16083;24163;111201];
[4348;1;3;5;5;7;5;127;19;343;849;287;1471;7299;1209;31349;33473;4989;229181];
[4356;1;1;3;9;25;61;7;65;77;745;1871;2427;3669;8965;11177;5531;115801;34327];
[4384;1;3;3;15;1;57;125;167;173;875;347;2317;6687;4339;10573;7841;16241;192225];
[4389;1;3;1;3;15;37;45;189;75;1017;1919;3401;329;2539;32697;60801;52017;192611];
[4401;1;3;1;5;1;23;43;55;1;443;1769;1633;5225;6855;5419;65139;22237;17415];
[4428;1;3;5;15;25;7;107;209;325;367;373;1855;1313;12899;30137;19007;9911;11791];
[4431;1;3;7;13;3;57;123;93;279;469;1817;3409;565;3997;14119;58341;59691;163323];
[4445;1;1;3;9;3;3;69;109;47;487;1895;2003;7309;9803;9527;52211;31213;41521];
[4470;1;1;7;7;9;15;101;227;75;501;25;1481;4847;13279;28673;11069;61987;5365];
[4473;1;3;1;1;25;5;47;125;97;969;1077;1185;6033;13927;18149;34255;14353;66323];
[4474;1;1;3;1;25;41;19;69;385;585;1049;3497;3615;13211;18855;61303;115739;42639];
[4490;1;3;7;7;13;15;13;133;497;265;1809;4073;5673;7543;30823;13505;76167;98683];
[4509;1;1;5;5;3;59;47;191;419;505;2035;329;553;1561;27885;39767;102611;12689];
[4510;1;3;7;3;27;49;27;133;305;537;385;335;2417;14891;31299;26201;124655;150545];
[4533;1;1;1;9;7;1;27;105;347;481;2043;1645;4367;10335;16457;48713;64699;63595];
[4548;1;1;3;3;7;57;125;209;299;525;591;1265;7557;15113;19319;56269;43919;215435];
[4558;1;1;1;11;29;59;119;245;63;919;1913;3969;545;1033;20975;61327;36783;124303];
[4594;1;1;7;7;11;63;45;135;405;931;753;2559;5475;2107;6437;6055;43497;133571];
[4596;1;3;1;13;31;39;39;141;231;83;69;473;1095;13617;10909;49861;98029;235003];
[4603;1;3;7;13;13;41;73;107;505;359;957;1599;7617;1843;25531;63755;96295;167955];
[4610;1;3;3;11;13;41;61;65;165;507;1007;1695;91;8781;15017;12063;95331;179853];
[4619;1;3;7;7;29;19;7;95;303;641;581;3539;4495;13549;20195;20845;16961;95053];
[4630;1;1;7;5;15;27;13;155;345;341;1583;2207;2497;6509;24343;3109;71431;184871];
[4652;1;1;3;15;31;35;37;249;71;1005;681;3457;3387;13797;8781;11789;16825;11133];
[4658;1;3;7;11;5;29;121;139;77;859;163;2749;6401;16303;22659;11817;61667;119993];
[4682;1;1;7;11;15;45;71;87;293;981;1581;2789;4117;12791;13611;489;74823;71263];
[4708;1;1;3;9;15;21;59;167;469;723;1609;2111;6359;10781;1043;51039;24429;14605];
[4736;1;3;3;9;13;25;1;43;61;869;1919;601;8003;15841;10141;33187;124991;94205];
[4753;1;1;7;5;23;13;67;43;167;667;1743;2523;2245;9287;8115;64995;121371;188321];
[4760;1;1;1;9;13;19;45;249;21;751;239;4035;4549;8905;9377;47535;78135;210429];
[4781;1;1;3;7;5;43;13;227;75;785;631;205;3475;9735;17867;61407;75897;51151];
[4784;1;3;3;9;31;21;11;53;247;717;1505;3903;3249;3185;29007;48795;43413;158653];
[4799;1;1;5;11;19;9;37;159;183;521;743;2877;2291;10317;1211;17951;16335;66439];
[4807;1;1;3;7;3;41;15;113;125;391;201;3841;255;15381;16801;47219;119691;51811];
[4808;1;1;3;1;1;29;79;181;481;969;297;625;7449;5813;5915;20011;44853;231933];
[4842;1;1;1;5;5;49;63;171;93;107;1083;1277;121;4421;18951;61155;66643;120049];
[4882;1;3;7;5;25;59;111;197;459;217;1819;1603;5581;11361;17721;57475;11171;186577];
[4897;1;3;3;1;25;19;29;157;25;595;501;2145;7513;10323;11107;13269;21763;9427];
[4900;1;3;7;3;9;49;119;117;445;91;227;1203;6245;9575;30653;65429;64987;81249];
[4922;1;1;5;5;5;5;77;77;425;789;467;3931;4815;11195;21939;59513;78547;238035];
[4936;1;3;1;11;11;29;115;37;423;997;1231;3987;5057;14533;18005;51513;71851;258137];
[4960;1;3;1;1;27;31;7;223;23;59;1465;2045;6677;15707;25101;22269;46995;89141];
[4970;1;1;1;5;21;7;115;133;407;373;1495;2551;6947;3309;14903;5683;67345;139381];
[4978;1;1;5;3;13;31;5;221;187;9;165;2295;1239;5665;14543;3963;4931;8269];
[4994;1;3;5;13;15;5;37;171;419;665;765;1619;1561;1661;5873;25595;34827;215599];
[5003;1;3;1;15;13;33;45;107;275;771;1105;2895;187;5173;21179;35047;50825;176775];
[5044;1;3;7;5;17;5;59;195;441;625;1205;207;4703;10627;17123;61785;100779;258597];
[5061;1;1;1;13;17;3;13;201;241;657;153;289;5213;2129;13447;28807;25405;33803];
[5107;1;3;1;9;19;9;51;133;159;743;1023;291;7137;6949;30419;13449;111505;212393];
[5127;1;3;5;7;31;29;79;211;425;93;1173;1957;6737;1725;30703;43237;119747;157395];
[5131;1;1;7;3;17;21;39;19;485;663;19;761;1525;11059;12833;17567;61123;124801];
[5136;1;1;7;3;7;25;17;199;413;821;1561;3855;1871;14041;7525;19383;51017;213357];
[5145;1;3;3;9;25;11;63;83;217;587;47;3775;767;9191;5127;9133;97689;122949];
[5146;1;1;1;9;19;7;89;125;23;813;1277;2965;1939;1453;6349;53127;109813;63767];
[5175;1;1;5;15;29;63;117;37;185;69;1823;2791;4125;11757;14847;15567;126141;185951];
[5218;1;3;7;1;23;11;15;113;209;785;229;3207;97;2489;4587;14253;30421;51027];
[5223;1;3;1;7;7;33;57;51;219;233;89;3781;2055;4163;10935;51913;63507;18645];
[5248;1;3;1;7;7;55;107;187;109;867;955;139;4979;8627;5835;28761;72061;99413];
[5294;1;1;1;3;5;59;17;121;511;29;1009;2875;2459;1817;11741;13869;72543;70485];
[5299;1;1;5;1;27;19;125;65;379;803;411;2403;719;10683;23351;18113;66773;252223];
[5301;1;1;7;9;31;51;65;233;171;357;1465;1609;4263;15207;18825;48831;69459;211321];
[5311;1;1;3;3;5;35;53;245;469;1011;759;455;4487;9835;10349;61755;73279;186049];
[5343;1;1;7;3;27;19;105;193;403;907;295;1445;1867;8867;7821;45309;129069;83953];
[5344;1;1;7;7;7;51;85;97;473;837;201;501;2929;9457;6473;3653;126991;218069];
[5396;1;3;3;5;25;49;85;223;127;563;239;1975;119;6029;19349;59533;44173;142229];
[5406;1;1;3;7;23;11;27;49;467;701;2037;2367;5829;12533;9641;38629;90505;132013];
[5410;1;1;7;1;13;25;79;107;37;331;355;3639;4875;6635;21703;18289;36257;201857];
[5424;1;1;5;1;3;39;25;101;199;401;1495;3683;5447;12313;19707;20853;66821;73959];
[5447;1;1;1;9;15;9;3;231;479;97;221;973;839;1757;8759;45625;44691;139803];
[5461;1;1;7;15;9;51;23;233;311;83;287;4035;2087;4245;25457;43105;104903;132811];
[5468;1;1;1;9;5;13;33;167;363;67;601;2143;5495;1277;14615;32759;34935;158625];
[5475;1;1;5;11;5;63;35;49;183;705;377;2607;2947;10119;15631;60247;99309;25747];
[5478;1;3;7;5;7;3;127;109;165;767;1873;3825;441;11957;2581;38309;129623;77451];
[5523;1;3;1;7;19;53;101;117;505;363;1399;1015;631;8309;17507;28941;42585;116283];
[5530;1;1;7;7;9;27;127;195;499;225;153;517;3909;9801;3787;32829;6599;190807];
[5535;1;1;5;1;3;49;125;235;255;329;909;1685;759;2287;3479;23491;71157;81457];
[5548;1;1;3;9;19;21;93;37;259;69;219;1943;4747;13951;14945;46099;87189;222287];
[5559;1;1;7;5;21;33;61;227;167;569;1355;2997;4917;10765;7015;54335;125543;112867];
[5580;1;1;5;3;25;35;97;23;365;159;1211;1283;979;8993;21323;6863;46869;36169];
[5604;1;1;7;13;15;49;45;209;397;785;47;2307;4749;2735;29525;54921;23321;216197];
[5622;1;1;1;11;31;23;27;127;197;595;29;773;3291;6355;11891;6635;99871;177531];
[5641;1;1;7;11;9;49;85;59;211;307;1821;3947;4175;11287;27889;107;46463;237129];
[5649;1;3;3;7;31;31;9;49;365;189;1211;943;337;13809;16941;17053;70125;149865];
[5656;1;3;1;13;9;21;67;1;365;77;1701;559;3461;8961;13801;16111;65239;157713];
[5671;1;3;7;13;19;49;29;233;361;1011;1617;2989;2387;14027;4021;28791;33155;171449];
[5689;1;1;5;13;31;19;77;69;49;513;1411;77;4993;907;23483;20129;29491;138187];
[5721;1;3;3;11;23;33;19;55;307;455;1783;3997;6411;3355;8815;39883;124381;49667];
[5731;1;3;3;15;27;7;25;243;275;27;23;3039;6497;15975;5877;58611;6317;209119];
[5734;1;3;1;5;7;21;97;247;297;181;773;3095;2441;15683;29609;50431;92813;723];
[5738;1;1;1;3;17;25;69;171;27;83;173;163;7915;13547;5915;20275;101613;225081];
[5740;1;1;7;15;19;13;53;95;171;889;131;1979;2537;7749;77;49293;68875;159125];
[5748;1;1;1;5;11;7;7;29;397;435;1495;2263;3677;11121;1269;5415;44427;249943];
[5791;1;3;1;5;23;21;13;185;231;757;1647;663;1273;11641;25563;46793;54231;113143];
[5801;1;3;3;7;11;21;83;109;409;923;1541;2805;1781;6903;9093;37327;60923;167271];
[5807;1;3;7;5;29;37;87;85;93;749;875;2869;1023;13303;26865;30971;40863;237075];
[5822;1;1;7;13;21;25;39;213;303;265;1251;2963;3819;8507;23239;52625;123375;58553];
[5829;1;1;1;1;3;1;7;67;339;583;3;2489;5481;12241;21695;31351;39389;131925];
[5834;1;1;5;11;11;3;95;23;133;415;77;1891;4083;7097;26455;28689;83047;49759];
[5847;1;3;7;15;19;31;65;189;489;461;1255;1897;3361;12223;9721;45937;102695;113431];
[5854;1;3;1;5;9;57;3;225;241;769;1003;2255;7655;4837;25267;35845;49545;24931];
[5878;1;1;1;1;1;43;3;217;397;419;1189;2037;5941;4341;19851;13773;15225;167581];
[5882;1;1;1;9;3;27;65;49;115;787;1637;1867;7265;8541;1587;58987;82161;19997];
[5919;1;3;7;11;17;17;93;103;309;159;781;3179;5759;7661;5693;48531;127375;141449];
[5947;1;3;7;5;13;39;79;241;7;137;219;523;541;4787;23327;41665;111017;118901];
[5981;1;1;3;15;31;23;107;221;295;935;1165;2463;1635;10205;18057;28217;51755;85579];
[5982;1;3;1;11;23;47;7;59;75;603;1237;2601;6873;12735;32181;46849;106363;171753];
[6025;1;1;7;13;15;31;3;113;355;955;919;1807;7903;5485;1733;64759;15817;93829];
[6028;1;1;3;15;11;33;95;67;511;971;343;41;2849;10695;24487;8971;129279;197635];
[6039;1;3;1;13;13;47;77;127;193;191;1185;3321;1685;1421;28675;12593;86689;186763];
[6056;1;3;7;13;1;11;123;91;287;751;11;2753;7153;5253;21817;10459;122225;105775];
[6064;1;3;3;13;1;17;121;13;391;253;1323;1515;2067;8009;5173;59543;109511;156821];
[6073;1;1;5;3;7;1;119;151;281;859;675;2923;6627;16071;24653;41325;118413;191981];
[6081;1;3;5;3;31;17;57;255;473;455;203;173;345;1477;27939;39289;105081;136179];
[6088;1;3;3;7;1;35;29;81;337;483;951;955;4343;14827;17427;59919;81883;114289];
[6101;1;3;5;11;3;39;49;177;335;57;173;1827;5729;2689;12109;13247;117559;31735];
[6139;1;3;1;3;9;9;41;97;37;897;545;2289;7917;5701;21953;1863;33727;28451];
[6142;1;1;5;3;29;61;59;129;387;965;285;3503;1651;10423;24861;31853;38491;155187];
[6194;1;3;1;13;23;33;13;161;133;29;1073;1491;3687;6821;24153;3675;33771;230087];
[6199;1;1;7;7;29;23;23;55;189;203;641;3391;1217;3199;32531;43103;24007;85613];
[6200;1;1;1;11;7;57;117;245;467;861;1265;2827;2761;2817;15679;53223;47245;139871];
[6203;1;1;3;15;25;1;125;237;489;1003;515;1117;4427;4877;8685;46211;19889;82491];
[6214;1;1;3;3;25;3;63;217;485;699;161;1459;2973;15949;30681;30991;13933;86505];
[6238;1;1;7;9;27;57;23;217;401;613;277;2827;7111;2133;17489;62059;7273;170917];
[6241;1;1;3;13;7;19;39;63;203;1001;279;879;4293;10121;969;11571;96427;218969];
[6244;1;3;7;7;5;21;113;203;77;971;1351;1097;2581;7519;16049;10565;5055;241561];
[6248;1;3;3;11;1;21;93;111;221;31;1245;1499;2289;2299;23457;49221;68879;125029];
[6256;1;1;7;3;15;19;57;189;243;785;399;3147;6107;2327;6275;9993;53051;34053];
[6266;1;3;7;15;5;63;7;193;115;579;1987;765;7871;14179;26383;61455;14241;123515];
[6271;1;3;7;13;19;13;91;225;295;675;1995;1145;4929;5163;1101;60681;76777;146875];
[6275;1;3;7;15;21;37;57;89;297;143;717;4021;3259;8869;21189;39333;125045;94469];
[6295;1;1;5;9;27;35;69;121;433;39;889;915;4055;11479;24757;53455;17503;113295];
[6315;1;1;3;3;23;19;81;191;33;865;59;603;2819;4919;22495;25089;73905;44971];
[6364;1;3;3;11;19;45;125;229;143;167;867;671;2225;16099;14909;14937;78063;135143];
[6368;1;1;7;11;21;55;73;247;211;895;1147;17;2119;3261;19815;28055;50139;178459];
[6377;1;1;3;1;19;3;37;221;243;459;1539;3899;4597;5503;23015;57019;62637;177821];
[6400;1;3;1;3;9;5;91;3;319;609;1241;3953;5569;8757;6453;8083;55285;38297];
[6430;1;3;5;15;9;51;37;53;137;95;123;157;15;7421;22469;49787;96245;199309];
[6477;1;3;1;1;29;61;85;211;437;1013;1251;61;157;4325;24247;1065;24875;31509];
[6480;1;3;1;13;7;43;13;171;53;567;77;3781;5077;6691;32485;24253;83919;159371];
[6490;1;1;1;13;15;15;19;53;325;309;53;1857;7361;8831;31751;44749;109265;227875];
[6526;1;3;7;3;31;19;113;253;361;697;1137;2029;3673;10323;10455;24935;7325;43673];
[6539;1;3;1;1;17;31;3;55;121;967;1701;2171;4393;11937;3987;5139;68913;134233];
[6556;1;1;7;15;23;37;121;241;297;419;373;1219;739;4567;28593;61267;95711;201299];
[6584;1;1;1;9;23;31;101;243;163;333;1707;2553;5285;12827;5051;14165;505;253585];
[6598;1;1;1;9;11;29;81;45;101;235;1079;4091;1069;3439;23599;6699;71783;236943];
[6601;1;3;7;11;29;49;99;59;1;267;887;2941;6717;7501;22549;53393;34569;34671];
[6609;1;3;1;15;23;13;113;47;11;79;989;1025;35;10475;8079;33121;32477;178595];
[6612;1;3;7;1;21;19;51;31;393;171;553;2221;7017;8567;21803;51803;83737;196409];
[6645;1;1;3;3;1;27;117;207;37;733;2001;2575;4849;5609;743;35987;109993;227663];
[6655;1;1;7;15;29;47;85;213;335;633;849;3269;7723;4651;355;54565;58829;22781];
[6679;1;3;7;5;5;3;91;243;17;85;1983;3909;1839;10403;503;28451;3221;215397];
[6683;1;1;1;15;13;3;9;25;249;113;1619;2313;6461;2323;14319;59635;9569;220583];
[6719;1;3;5;7;31;59;41;43;43;921;647;2141;7011;2749;24711;19067;107895;107145];
[6727;1;1;3;3;15;63;41;241;181;729;843;3569;2645;2727;25331;23067;115421;86025];
[6734;1;3;1;15;11;47;9;183;341;775;1067;1317;6835;7873;2653;33517;103979;196761];
[6770;1;1;3;13;29;11;105;9;49;823;1343;759;1263;12413;26047;54285;57319;215387];
[6776;1;1;5;13;21;55;75;149;63;737;1305;929;4149;2793;24505;11541;74765;8207];
[6791;1;3;5;9;25;1;43;157;303;395;301;1561;5963;3501;2259;59777;100953;16051];
[6798;1;3;1;13;19;25;33;209;11;95;655;595;3081;10345;26615;45129;84023;158079];
[6800;1;3;1;9;31;61;103;203;471;215;1103;759;1197;3333;15859;36103;31563;5987];
[6826;1;1;1;7;1;49;121;227;153;793;1723;1033;6875;6683;2503;57213;97967;120383];
[6833;1;3;7;11;3;15;35;181;19;249;755;1385;3297;4665;2761;22717;126199;85065];
[6836;1;3;7;15;5;45;17;55;111;597;553;1203;7183;8465;28523;50073;90889;187205];
[6858;1;3;3;9;31;57;13;139;291;881;501;2051;617;5151;28225;44777;31645;6805];
[6882;1;3;5;13;1;23;107;1;201;35;1673;2281;7663;1115;25061;59615;127955;169685];
[6901;1;1;3;15;15;5;17;75;307;591;1661;855;4239;13359;20027;51871;35241;32769];
[6923;1;1;1;15;5;23;59;205;223;103;1889;141;6157;9187;23571;15267;1941;119173];
[6967;1;3;5;9;27;63;59;11;279;493;209;4087;1055;9841;31753;37459;27757;213151];
[6979;1;1;3;11;31;33;13;87;285;847;2005;3431;253;15157;31359;45303;114337;42541];
[7022;1;1;1;7;7;3;17;203;133;321;241;1323;5639;10953;10069;4941;17077;54493];
[7060;1;1;7;1;9;5;125;5;421;609;645;1927;3785;2295;1491;23019;85497;161231];
[7064;1;3;3;11;19;35;115;95;353;773;2025;2621;2821;6361;29589;20989;99645;90387];
[7083;1;3;1;15;23;3;71;253;467;307;1109;2695;7175;15087;1587;48229;104307;218905];
[7093;1;3;3;5;17;29;107;153;371;205;7;597;7393;2345;20149;47417;37983;200683];
[7094;1;1;7;1;3;55;113;117;241;923;1217;3825;2635;8007;12673;9533;7121;3825];
[7120;1;1;1;3;21;63;25;111;31;151;67;3735;7833;749;28743;59291;4989;93329];
[7125;1;3;5;13;31;5;91;153;235;1019;431;1951;7501;8483;19625;57789;13203;36693];
[7142;1;1;7;3;15;51;99;29;403;343;1903;907;3255;4149;29551;18885;74391;96119];
[7151;1;1;7;11;31;11;63;213;437;879;359;555;7549;14269;31489;51001;76857;237305];
[7165;1;1;1;15;23;21;31;227;311;273;253;2439;7217;2191;31743;47669;62279;201305];
[7173;1;3;5;11;3;43;97;121;363;91;201;1095;5267;633;19111;36099;23035;205655];
[7188;1;3;1;9;21;31;39;11;227;699;473;2109;2757;13821;31181;40493;57279;260085];
[7191;1;1;5;7;27;57;65;11;173;709;1139;3735;5291;16053;32579;25275;79865;196033];
[7202;1;1;1;9;19;35;83;153;287;207;593;2177;3243;10433;24583;881;71865;250223];
[7216;1;3;3;9;3;35;107;3;193;1011;463;1643;2733;2157;6329;24583;116901;226385];
[7219;1;3;1;11;3;47;39;33;495;137;1591;1335;1347;4527;389;43341;80163;5219];
[7267;1;3;3;5;19;51;121;135;93;891;13;1339;5187;5005;12823;14465;73845;119685];
[7358;1;3;7;7;19;1;57;193;325;49;813;5;4431;1119;13625;43613;127989;42669];
[7383;1;3;5;15;11;33;7;45;215;469;1059;4095;3549;11839;5463;21383;4831;188345];
[7387;1;1;1;13;5;61;7;161;99;623;1589;1045;2385;8899;19327;41373;109241;111895];
[7396;1;1;5;7;11;39;115;41;21;491;1221;2805;4311;7137;3151;1387;24633;94679];
[7408;1;1;3;7;3;39;71;175;443;187;1727;2535;5099;1881;21639;5717;48589;95037];
[7432;1;1;1;11;25;21;37;227;407;73;721;3515;381;981;21389;5205;31851;140457];
[7462;1;3;3;3;27;35;13;129;457;315;253;2545;5469;6695;25223;20115;38039;133655];
[7480;1;1;3;11;21;47;77;231;87;245;2039;2515;2873;1711;3361;62123;67117;239047];
[7488;1;1;7;7;29;21;39;175;477;813;447;1109;7391;14631;4437;42539;13003;75403];
[7497;1;3;1;11;11;9;119;19;99;483;61;1883;3415;2137;30415;34519;115191;24437];
[7531;1;1;1;9;7;47;115;233;419;427;1605;3821;6243;10861;28495;48265;80811;147701];
[7561;1;3;5;5;11;61;51;155;279;463;31;1559;2837;8795;4049;13651;109227;52131];
[7582;1;1;7;9;25;33;97;79;477;83;923;3293;6381;3063;23293;35381;82867;233189];
[7591;1;1;1;9;11;39;109;189;219;1021;137;2041;2719;1763;31787;29377;96287;179685];
[7612;1;3;7;5;3;15;37;179;77;751;709;893;7705;1563;7843;29843;1107;35919];
[7677;1;3;3;3;29;17;123;201;275;487;1979;1361;7523;13783;10129;16877;127049;163221];
[7687;1;1;1;9;27;35;69;167;509;133;1073;3773;265;8455;12341;127;115075;94537];
[7701;1;3;7;9;13;35;57;83;123;211;739;253;3907;5405;3229;46837;77483;5915];
[7705;1;1;7;3;7;27;71;235;133;803;611;529;4449;16113;8151;36519;34561;36361];
[7712;1;1;3;1;31;9;123;85;407;415;353;3239;673;4641;25883;61117;7669;240851];
[7721;1;1;5;11;29;9;49;31;3;249;1769;3325;503;1397;30677;22515;81279;90309];
[7736;1;3;5;3;15;63;121;253;421;279;497;3881;6977;11061;5883;38347;8351;118123];
[7756;1;1;1;13;1;27;3;91;281;563;1283;1893;7593;12171;27041;7769;95691;13791];
[7777;1;1;3;3;29;59;87;153;337;819;787;2631;1889;13869;29237;57097;91621;4011];
[7783;1;1;1;15;7;49;1;83;299;353;131;1635;3723;16209;1061;50669;68083;133443];
[7792;1;3;5;5;27;17;5;239;285;831;1487;721;4891;4265;23753;43921;116709;105027];
[7797;1;1;7;7;5;35;63;97;215;447;353;495;8119;12537;9679;58641;65057;21999];
[7802;1;3;7;5;23;43;69;115;59;603;493;1665;5003;13607;28491;4439;11855;228183];
[7808;1;3;3;3;15;35;19;63;241;357;979;2891;3105;14085;10539;62335;130903;163153];
[7866;1;3;5;3;23;51;23;193;129;171;1913;1025;6397;15657;19611;57455;87531;51039];
[7885;1;1;3;9;1;9;7;239;87;527;1401;2703;4021;3845;29269;48217;61091;131949];
[7891;1;3;1;5;17;45;59;223;287;295;1959;3985;3671;14605;18949;34147;51251;10271];
[7913;1;3;5;9;5;49;63;105;43;157;1827;495;5823;6323;6601;51379;64411;204103];
[7936;1;1;7;1;11;31;117;9;13;965;177;1247;2487;9849;20367;49287;2193;235689];
[7946;1;1;3;11;19;31;23;215;489;657;801;3937;379;12083;14969;37857;39027;63985];
[7963;1;1;5;1;9;59;53;187;341;65;1251;767;4897;13263;17439;26625;122107;163653];
[7996;1;1;3;13;31;41;125;253;481;107;233;2305;3321;7303;28585;12787;83307;31497];
[7999;1;1;3;13;25;41;55;83;101;115;549;531;3085;9497;27989;28257;121075;189671];
[8011;1;3;5;11;13;53;121;85;355;275;1925;2117;1349;5903;2041;20963;60803;1121];
[8014;1;1;5;5;13;7;125;63;311;187;1127;643;6137;845;23945;9403;451;53027];
[8028;1;1;3;7;19;31;27;239;337;61;641;1693;7289;5675;30067;41091;124607;36971];
[8047;1;3;1;13;25;61;11;81;165;129;241;711;5193;13017;30821;35239;110809;60909];
[8077;1;3;3;13;15;13;71;19;87;499;1395;1191;1445;2687;4691;16773;114269;186237];
[8101;1;3;3;15;1;49;33;109;241;5;431;461;3865;14029;9827;54455;52159;211585];
[8119;1;3;5;7;31;27;115;113;367;591;873;1447;6819;7011;14095;55243;4039;226985];
[8125;1;1;7;3;1;19;69;239;417;833;1867;3111;2617;12781;5531;17345;75717;139667];
[8140;1;1;5;11;11;63;23;141;221;897;1269;2185;6057;8865;20449;58255;27073;158305];
[8152;1;3;3;5;23;23;121;39;457;935;691;2329;7055;2821;12669;28713;82321;245783];
[8209;1;1;1;9;27;9;35;23;139;823;703;917;1281;12155;11681;26083;119445;181489];
[8212;1;1;3;7;27;21;35;243;17;633;1665;3419;6301;16099;17477;24983;128455;127501];
[8231;1;3;1;1;17;19;59;165;487;985;597;689;7103;14475;6985;29755;115977;105943];
[8258;1;1;5;5;23;41;67;175;3;571;1501;3315;6111;1847;28975;54117;66605;69997];
[8275;1;3;5;5;13;37;113;75;383;297;1187;2055;3433;14651;30393;29647;126403;32265];
[8303;1;1;3;5;31;29;25;169;465;219;81;2019;4255;6003;7425;53269;31105;211937];
[8308;1;3;7;11;13;7;11;195;327;883;1295;3721;1197;7585;5693;993;125017;12007];
[8312;1;3;3;7;5;37;71;37;63;651;669;3445;3959;249;10599;22329;107701;107729];
[8345;1;1;1;9;7;47;21;181;395;345;757;481;2759;8157;19847;55743;63137;224765];
[8346;1;3;5;9;29;3;61;35;271;157;549;843;2907;91;16325;4241;94495;78861];
[8370;1;3;1;9;17;11;53;243;49;911;1193;793;901;3727;21849;33987;565;154171];
[8402;1;1;5;1;9;5;89;81;65;111;781;3775;591;4987;29833;58159;7253;206447];
[8411;1;3;1;7;3;59;77;83;173;545;103;2541;8095;10797;11111;62351;88827;55081];
[8414;1;1;3;11;29;37;19;47;145;19;513;3269;2205;5317;19207;38051;5413;78089];
[8424;1;1;5;9;21;57;75;249;21;879;1377;3407;6123;11917;12493;44873;113539;114717];
[8435;1;3;3;9;7;55;121;57;491;39;1561;2625;639;13553;1159;43071;68869;248837];
[8452;1;1;1;11;25;19;107;239;171;1001;69;4095;49;9569;22613;59865;54959;70031];
[8462;1;1;3;13;27;15;105;205;205;581;1965;1535;6531;15935;7623;33695;9317;44257];
[8479;1;1;1;3;3;51;115;185;315;763;211;339;7083;4895;23277;14165;101731;218903];
[8509;1;1;3;13;29;1;69;55;423;781;183;1417;151;14507;5217;27757;52447;145913];
[8515;1;3;1;11;29;39;29;151;85;387;885;507;133;9819;12627;30951;79839;206267];
[8522;1;3;3;7;1;53;99;141;91;51;143;1751;3989;6811;7339;52141;43473;18615];
[8541;1;3;3;15;27;11;29;37;387;655;2019;1135;3619;12995;12755;26063;109419;103875];
[8560;1;3;3;13;31;15;93;231;195;261;1055;2363;1123;3927;6907;365;27043;157049];
[8563;1;1;1;15;7;29;105;199;507;437;117;2963;7801;6291;19261;30377;92205;20723];
[8585;1;1;1;9;29;19;75;189;3;387;1491;2291;7739;12993;11835;10873;54583;207963];
[8594;1;3;7;3;23;11;25;105;57;713;1291;3293;4693;13859;27541;31529;65929;245143];
[8596;1;1;7;7;19;13;19;189;253;337;351;1751;6173;12207;24483;31381;82035;157143];
[8603;1;3;3;11;11;49;117;177;301;417;855;2433;5619;7339;30361;29251;20411;184981];
[8610;1;1;1;1;11;55;77;99;209;781;1193;2841;783;1485;19413;52255;19529;253927];
[8647;1;3;1;3;15;49;85;191;389;411;479;341;4985;6193;19099;11497;103285;162333];
[8661;1;3;1;3;11;31;71;91;357;615;2007;3601;5393;8079;16811;54127;26049;116341];
[8662;1;1;3;15;9;39;121;53;43;617;905;3629;6327;13453;1435;24113;7523;228523];
[8672;1;3;5;11;21;51;11;125;33;935;1069;2807;4951;13261;17611;38779;62203;135759];
[8690;1;1;1;13;29;59;53;245;219;423;809;1109;7255;14679;25247;43235;129565;72649];
[8696;1;3;5;7;27;29;119;91;297;407;187;2829;5637;13851;14073;461;64081;33971];
[8739;1;1;5;11;15;27;29;233;487;859;1021;3117;1439;16021;31315;35775;117363;131635];
[8783;1;1;5;3;3;1;91;229;327;777;393;3853;3455;1785;13749;25173;51575;167237];
[8811;1;3;7;9;27;7;15;71;283;71;1783;1357;5581;3143;26075;47751;71001;157107];
[8813;1;3;3;7;23;9;69;21;333;223;1735;1057;8091;1927;8507;40901;40233;164115];
[8821;1;3;7;3;11;49;29;81;215;289;1137;765;6385;5935;3435;11991;30867;60745];
[8856;1;1;1;1;7;39;33;173;225;533;1927;3607;1059;8779;2649;6801;103963;167471];
[8877;1;3;3;15;27;51;107;3;195;87;739;1425;747;1501;22245;59233;124867;79753];
[8885;1;1;3;3;13;41;125;101;225;749;221;2735;6441;11353;3943;35329;53437;149063];
[8897;1;3;3;15;3;53;75;77;1;907;573;1909;363;6913;559;58489;1053;25513];
[8898;1;1;7;11;7;15;91;155;447;555;473;3625;7529;16307;32241;64077;46943;85717];
[8934;1;1;1;13;9;61;91;41;101;107;1081;2511;2881;14095;3861;22771;32687;77287];
[8955;1;3;3;7;21;3;51;177;203;861;1507;1177;2369;11735;1667;28607;97671;123263];
[8972;1;1;1;3;5;57;13;127;353;65;663;3849;3579;5521;11765;63427;76349;102517];
[8977;1;1;7;11;27;55;79;249;397;77;1543;3787;4889;11145;18691;62899;66425;116195];
[9038;1;1;1;3;5;3;1;143;73;999;2013;2001;4001;6563;30811;61445;2645;203631];
[9045;1;1;1;15;1;49;35;61;493;101;1407;2211;7467;12321;15901;15479;62939;14643];
[9071;1;1;3;11;21;33;123;95;449;355;1501;1627;1411;6183;17457;2199;96313;25023];
[9085;1;1;5;5;13;49;73;203;83;3;137;119;3001;10685;18231;60727;31785;158605];
[9110;1;3;1;11;23;19;123;9;269;501;2005;3695;3327;5353;12619;12987;18213;29355];
[9120;1;3;1;5;1;25;99;197;327;575;773;2009;6653;1807;20381;55725;124359;176893];
[9157;1;1;7;15;27;9;81;175;73;727;1907;1237;4983;16123;16479;2283;57805;13593];
[9164;1;1;3;13;7;13;13;139;283;721;487;1821;4257;5105;8057;27193;46857;169927];
[9185;1;1;5;5;29;5;81;211;441;685;981;3097;6253;10673;12253;54943;69401;147769];
[9203;1;3;3;1;13;35;73;145;139;781;37;803;3607;4327;1153;11325;131025;168729];
[9235;1;3;1;13;17;41;19;59;23;561;315;719;3325;275;12715;59843;16597;81691];
[9278;1;3;1;11;1;53;11;237;363;345;331;129;6885;3105;12487;53803;8897;193777];
[9290;1;3;7;15;3;53;55;101;389;839;413;2851;3989;12857;25723;16595;94145;193049];
[9292;1;3;1;7;15;31;3;115;197;753;1035;1369;4925;4497;1641;63743;127089;114097];
[9319;1;3;5;5;23;1;35;99;277;769;895;581;6969;15339;10309;27101;22611;86179];
[9334;1;1;1;11;19;17;45;35;257;313;815;1469;3651;15101;22775;51729;75401;123653];
[9362;1;3;1;15;5;11;83;141;373;935;1123;1849;1267;15427;10615;63303;109771;188601];
[9387;1;3;5;3;29;23;79;193;261;29;1857;789;4359;14211;22181;64901;129089;65587];
[9404;1;3;1;3;29;15;19;239;497;771;239;2853;2391;8153;31899;53759;127219;78833];
[9407;1;1;7;7;5;57;9;93;69;993;193;3629;5761;9339;28073;50035;81635;83119];
[9410;1;1;5;13;7;35;79;247;43;1011;1189;2881;1963;8889;9929;50043;112581;224139];
[9422;1;3;3;7;15;63;85;33;107;37;45;1271;4735;1151;19793;6589;50875;185061];
[9478;1;3;1;15;1;63;1;201;207;179;67;3703;2629;10517;1;39645;119733;6449];
[9512;1;3;5;1;3;7;97;101;233;71;255;3767;8127;8041;25001;7601;129595;131657];
[9535;1;1;7;1;25;29;105;25;267;191;267;3141;4445;5043;25203;32055;11035;229031];
[9604;1;1;1;13;3;1;1;147;63;259;1171;401;6289;13577;28129;1349;85027;178123];
[9616;1;1;1;13;1;59;109;95;49;309;1141;1355;3415;11237;21619;12039;1795;57775];
[9622;1;3;1;11;19;3;51;227;277;49;703;2701;515;8893;20163;65297;114781;225687];
[9631;1;3;7;11;19;47;121;199;173;905;1903;1781;2425;13381;25843;23279;87701;10723];
[9656;1;3;1;13;7;21;17;15;85;241;119;2361;7921;6077;955;34221;78179;35511];
[9710;1;1;7;11;9;1;1;29;445;557;241;959;6077;3547;30987;48129;79699;236611];
[9721;1;3;1;15;13;29;57;117;347;719;1435;307;5209;4009;10517;3373;67667;260101];
[9728;1;1;7;13;11;41;17;143;467;993;779;3991;623;8915;21615;56477;59721;164241];
[9733;1;1;3;7;15;37;53;33;395;547;1815;2517;6575;14035;1;10919;25467;117521];
[9738;1;1;3;9;17;47;45;3;509;53;1245;883;7917;15445;4169;49637;90933;109469];
[9774;1;3;1;3;27;37;3;95;31;665;701;1979;3735;3257;18943;41201;95721;69451];
[9791;1;1;1;15;19;49;61;5;115;801;805;2723;1387;13165;20717;40767;88857;28207];
[9803;1;1;5;9;21;25;23;179;59;29;547;1829;4411;6689;22363;43975;52259;187563];
[9805;1;1;5;11;13;31;97;131;135;415;53;4015;3629;6613;25541;47221;66483;224545];
[9817;1;3;1;11;19;13;65;95;381;759;1319;2997;6321;9203;24483;9925;10799;117119];
[9823;1;3;5;13;27;17;39;225;199;125;1125;2673;6787;8861;13139;13849;65459;40183];
[9839;1;1;5;3;17;55;23;75;457;959;1507;1267;6857;16141;1889;10779;41331;166075];
[9847;1;3;1;15;7;55;109;59;241;431;1281;183;1029;14617;4003;41871;36007;129617];
[9854;1;3;1;1;27;61;79;93;217;251;671;989;7031;10035;15455;13685;95471;997];
[9863;1;1;3;13;1;5;125;179;357;537;1303;2653;7319;2075;3861;11743;89659;221705];
[9872;1;1;1;7;3;55;5;201;153;639;835;1913;3331;10727;30365;15133;67911;17851];
[9884;1;1;3;13;21;1;67;71;265;43;279;2009;873;4447;32001;50783;76613;63919];
[9935;1;1;3;11;17;43;19;195;233;17;1855;1227;3435;4313;6417;51019;130091;124947];
[9937;1;1;7;9;19;9;95;87;297;817;1217;3637;2371;7073;387;62121;43507;93927];
[9974;1;3;5;13;1;15;29;123;137;425;531;2659;2077;1345;2803;49469;29031;170825];
[9980;1;1;5;7;15;13;119;231;139;673;1105;2355;3023;4437;17491;47367;12751;183319];
[10003;1;1;5;15;19;5;125;121;509;539;473;2087;4421;4205;23457;34481;111231;145035];
[10015;1;3;7;5;23;21;85;23;415;715;1579;3447;2373;233;19401;54869;15977;138119];
[10016;1;1;3;11;21;1;37;127;101;943;79;2119;5679;10749;16209;16715;29421;259735];
[10066;1;3;7;7;23;25;1;73;505;979;535;87;4165;9353;20075;57597;74651;22133];
[10093;1;1;7;3;11;19;75;213;293;15;1981;1259;5455;2897;18861;6317;10339;123967];
[10118;1;3;1;3;29;5;93;169;51;519;1649;2789;1251;8359;11489;62443;91549;148357];
[10132;1;3;3;13;5;47;39;163;341;755;737;2335;2389;8351;26193;58111;18425;129313];
[10135;1;1;3;1;31;49;101;69;345;291;1257;1801;1613;1479;4403;21307;44947;68591];
[10151;1;3;3;9;5;23;65;65;187;709;883;2199;1037;8679;31527;23561;92225;254215];
[10158;1;3;7;7;23;13;87;209;163;705;1199;3007;5469;2453;2691;17841;97045;174149];
[10169;1;1;1;9;5;35;21;91;145;559;131;3911;1777;8225;6077;58223;100827;3641];
[10172;1;1;5;5;7;5;31;189;117;785;1493;3899;471;10971;4607;21063;67225;195367];
[10180;1;1;7;5;31;61;63;163;417;655;2033;1255;1139;6867;28655;55295;100519;166629];
[10187;1;3;3;3;7;35;83;55;7;607;253;915;6801;7505;15929;16829;78469;150947];
[10189;1;3;3;9;29;3;127;235;347;3;193;1547;8073;14963;20351;28951;53855;261375];
[10192;1;1;7;3;31;19;75;87;23;419;75;1677;2371;8875;31993;4465;76085;86499];
[10197;1;3;5;7;1;51;47;161;415;521;1099;1295;2545;15167;13983;7347;60631;4089];
[10211;1;1;1;9;7;59;71;187;441;273;769;2649;3261;12661;23045;32035;104573;120589];
[10214;1;3;7;13;23;51;113;205;443;291;475;2961;7615;105;22099;6045;22667;65515];
[10256;1;1;5;11;1;1;23;231;413;371;1285;2695;2751;4235;15779;1903;24469;259157];
[10278;1;3;3;7;7;47;87;105;311;251;573;3221;5757;11107;11161;8809;14467;33153];
[10290;1;1;7;1;31;49;51;31;305;315;547;1159;2741;3773;13299;40115;62523;108487];
[10301;1;3;1;11;11;43;33;213;107;467;1509;4081;4723;2409;1447;42759;64717;161991];
[10310;1;3;7;3;31;23;25;159;95;721;1981;3659;4819;10119;25451;10165;31281;238319];
[10344;1;3;1;5;19;27;67;125;481;585;43;3697;4997;581;6439;33477;115023;51759];
[10473;1;3;7;7;15;53;89;173;369;365;91;1583;4611;7189;30383;47397;73657;158695];
[10474;1;1;1;15;1;21;125;13;243;729;1397;2451;3233;15593;2815;56215;22685;167343];
[10482;1;3;1;13;13;29;119;223;51;695;273;2381;4431;4891;29875;49511;111003;174413];
[10499;1;3;3;15;9;13;19;177;371;957;255;115;4701;6089;7237;17077;87949;3111];
[10525;1;1;7;11;29;49;59;201;145;219;1159;3863;715;10489;25883;56445;122103;149877];
[10532;1;3;1;13;15;51;91;109;433;45;2045;3121;1109;14713;2667;40463;52185;64743];
[10535;1;3;3;7;21;31;7;155;347;305;1557;1311;3315;1363;403;62063;114195;44623];
[10556;1;3;5;11;9;11;11;245;49;21;239;3043;3525;1055;21891;19153;123689;170195];
[10568;1;1;1;11;17;51;83;249;483;489;1063;469;6153;15551;13783;27945;103775;68175];
[10579;1;3;3;13;11;61;107;113;503;819;1593;2851;6711;14623;3709;10931;8743;62321];
[10586;1;1;5;15;5;37;23;131;329;499;1765;1273;819;11573;3307;46933;22087;173459];
[10609;1;1;1;3;31;5;49;57;239;981;1863;3233;2727;7389;7923;63259;62873;113607];
[10612;1;1;7;7;11;27;119;137;115;211;1239;2153;2579;11501;747;31141;129793;151589];
[10650;1;3;3;9;9;55;121;199;91;835;521;2433;8123;2045;32553;48993;9935;220537];
[10665;1;3;7;11;15;57;53;145;299;623;691;1557;785;15851;27075;5983;18043;22241];
[10685;1;1;3;1;1;57;57;195;381;913;167;333;5541;2323;17001;34817;30795;144051];
[10686;1;3;3;3;31;1;83;31;91;855;195;3449;8057;11061;29089;1597;127581;189033];
[10688;1;3;1;1;21;59;113;179;13;523;629;3693;7155;893;17449;46535;18051;9191];
[10711;1;1;1;3;27;19;75;229;181;653;1849;501;5871;14769;27461;59193;115013;72227];
[10728;1;3;3;13;17;41;111;107;453;299;1699;2871;2955;4215;13919;19785;30339;148445];
[10748;1;3;3;11;5;19;21;87;173;439;1651;2393;4137;16285;16093;22953;105663;226575];
[10751;1;3;5;7;19;61;101;251;295;89;1695;1359;5797;8587;18753;65223;51079;96169];
[10781;1;1;1;5;3;1;79;63;221;601;1385;1963;4601;15217;4861;58295;61043;88523];
[10805;1;3;3;7;31;63;73;177;455;487;1009;2103;4753;3143;10121;36509;24753;230869];
[10823;1;1;5;1;17;27;103;63;475;665;1189;3513;89;2669;1227;20635;121549;248851];
[10838;1;1;3;7;25;19;117;243;337;207;903;3751;3309;11955;12651;25359;83419;19701];
[10857;1;1;7;15;19;21;3;235;289;185;1175;2291;4003;7753;4775;65321;48957;220261];
[10865;1;3;5;11;23;21;107;65;117;329;1085;3555;1183;15241;32663;50985;66753;38023];
[10872;1;1;7;9;11;49;65;17;291;435;1221;3829;5467;5181;19891;7091;80673;90495];
[10893;1;1;1;15;17;47;119;173;297;477;859;3661;8081;8257;20841;55123;11231;193669];
[10899;1;1;7;7;27;11;119;109;199;727;1569;3749;4067;11675;30213;58091;64303;92785];
[10917;1;3;7;15;15;39;101;149;299;449;1017;723;7731;7929;22465;61583;69851;150507];
[10935;1;3;5;15;5;13;97;127;21;673;353;3885;5761;11443;10089;23701;85879;42217];
[11001;1;3;1;5;27;55;31;167;69;453;925;555;5135;2759;27077;14497;94333;108729];
[11072;1;1;7;15;11;55;9;241;55;611;149;2605;653;1631;15059;6349;12321;124561];
[11089;1;1;1;9;3;11;95;67;443;103;1687;2667;4567;4271;15601;27859;4757;53289];
[11090;1;1;5;9;23;21;1;125;105;975;1879;1821;5273;7079;25009;10471;29119;73249];
[11108;1;1;7;1;31;61;17;23;485;565;1325;1559;4131;751;2071;4719;15925;101207];
[11117;1;1;5;5;13;53;13;93;149;139;1429;3605;3545;11193;14139;6093;115727;183105];
[11136;1;1;1;7;15;37;51;77;177;967;405;563;3047;8499;26787;27609;23613;239679];
[11148;1;1;1;5;27;37;1;129;197;133;1329;3673;3143;1059;19209;39027;43787;42821];
[11153;1;3;7;5;5;47;105;121;219;777;1569;1359;1955;13207;14895;7829;40499;182911];
[11181;1;3;5;7;11;41;41;155;245;383;405;2415;5809;5117;31523;16927;76785;113731];
[11190;1;3;3;9;9;21;13;197;409;931;305;1129;865;12961;5239;35823;82565;226765];
[11201;1;1;5;3;17;27;59;79;359;601;979;1355;1657;10479;4741;36391;111527;105139];
[11204;1;3;5;9;13;43;31;1;309;723;1049;803;1653;2551;26317;49731;67799;129225];
[11216;1;1;5;3;1;39;95;243;499;809;1515;981;585;7907;16801;43381;117537;99787];
[11237;1;1;5;5;25;23;15;127;33;799;647;2923;7805;2681;14773;42751;106861;119657];
[11259;1;3;1;1;1;47;11;179;179;659;1061;2511;3601;7107;27887;48427;40559;106043];
[11279;1;1;7;11;5;33;115;195;431;383;1571;3485;5741;5775;14891;26389;71723;198861];
[11282;1;1;5;5;11;55;37;57;381;607;2017;1981;6113;3771;8827;13335;88587;102791];
[11304;1;1;1;11;29;23;73;149;405;581;721;281;5315;4675;13013;39003;20335;109855];
[11312;1;1;7;15;17;57;39;51;403;979;1543;1235;797;5949;26647;15125;33255;152861];
[11332;1;1;5;3;25;27;7;147;257;163;1297;2289;693;7771;6341;22323;1653;177669];
[11341;1;1;3;9;1;39;47;231;15;705;897;3943;6281;6679;21695;29553;39509;83135];
[11354;1;3;3;15;17;43;15;195;31;501;529;3117;6031;12101;30687;52465;66171;149591];
[11356;1;1;3;5;13;17;63;41;303;671;1225;1761;6159;3203;23611;18309;115027;116325];
[11365;1;1;5;13;17;5;97;155;479;525;1403;4063;8167;6443;20627;41399;26897;102841];
[11377;1;3;5;9;9;27;59;177;453;659;765;431;4209;12679;10719;22473;81597;20057];
[11417;1;3;3;1;3;37;91;97;159;845;519;2603;6979;6711;29781;53639;103357;111671];
[11427;1;1;3;3;25;15;27;9;503;719;153;3071;281;5341;32595;13069;6461;160319];
[11433;1;3;3;5;29;7;119;229;117;925;465;1703;7277;10631;9429;41011;45181;229239];
[11434;1;1;7;7;31;63;67;55;445;39;1363;1369;1061;8555;29263;47341;49563;80445];
[11439;1;1;7;1;23;23;49;205;371;101;1963;2763;3475;835;20371;51343;9771;69713];
[11444;1;3;3;7;3;29;7;185;511;93;1077;3971;2981;16367;12703;36179;47755;42767];
[11448;1;1;1;11;27;47;43;39;129;337;1249;3557;2871;13565;19525;46263;49203;148235];
[11461;1;3;5;11;19;3;83;151;425;199;847;3751;1729;12457;21819;295;53627;17555];
[11466;1;1;3;5;7;43;21;221;93;785;1851;3891;2103;5219;31845;58943;42461;160149];
[11468;1;3;5;9;25;11;43;171;445;335;1907;3401;815;10341;17779;24895;7727;168143];
[11473;1;3;1;5;27;25;41;13;239;233;1861;3409;4325;2227;30197;59329;48501;168799];
[11489;1;3;5;13;9;55;83;185;287;83;1545;2803;2177;6195;14455;30541;75731;98915];
[11499;1;3;3;5;25;19;5;203;303;703;1861;3867;2683;8223;11107;54785;106053;135543];
[11516;1;1;1;13;19;7;11;197;303;541;977;2083;4739;7971;2245;11029;77333;16573];
[11531;1;1;1;3;11;33;77;59;283;791;365;4027;487;10559;4543;58111;91861;102905];
[11533;1;3;7;7;15;3;19;51;339;377;929;693;1617;14057;7107;27181;7411;202843];
[11557;1;3;3;9;19;9;73;109;333;917;1227;2871;4893;11029;5619;27091;9381;213403];
[11572;1;1;1;9;9;13;77;131;163;619;169;315;1277;13705;16853;1179;86433;135427];
[11608;1;3;5;9;15;47;57;119;325;529;893;2395;5159;5481;18689;6457;114733;159999];
[11635;1;3;7;5;15;9;113;235;475;93;495;2983;2769;5209;7481;49699;46961;246393];
[11638;1;1;7;1;5;31;113;27;359;635;955;2795;6289;11621;11059;2259;57443;243143];
[11644;1;3;3;13;19;33;53;141;437;415;919;1375;2703;13731;31559;14115;50101;85199];
[11684;1;1;7;13;27;57;111;89;89;313;1107;4049;2485;269;10197;36995;71381;112795];
[11702;1;1;3;7;17;23;119;123;145;213;1273;1707;4005;13815;23495;36359;14391;94287];
[11740;1;1;7;1;5;49;81;193;105;1003;413;2975;1725;5647;25447;43501;4431;115489];
[11749;1;3;1;5;29;13;47;37;441;955;611;853;7225;4959;8739;31703;48095;124085];
[11754;1;1;5;15;31;9;125;53;229;631;1031;3923;4417;12637;22093;46985;103417;193443];
[11764;1;1;7;1;7;9;77;11;451;615;1259;3097;1513;13641;26845;17399;63661;9231];
[11767;1;1;7;13;25;47;125;1;333;599;1133;3527;7451;2849;27227;40015;118185;24737];
[11784;1;1;5;5;31;15;85;37;121;677;593;2757;739;839;3939;36339;116663;955];
[11789;1;3;1;11;19;13;87;109;149;215;1811;3813;7699;16189;12841;52081;104545;245819];
[11795;1;1;7;3;31;17;99;23;377;131;821;1167;4437;15727;20753;8163;43719;7243];
[11798;1;3;7;13;21;5;5;167;9;1009;1013;797;6145;2855;19969;59887;3419;238661];
[11804;1;1;7;1;5;39;47;91;185;139;959;3149;3423;8909;2045;18187;71935;238605];
[11818;1;3;5;11;29;63;105;43;27;221;879;181;1499;10343;27135;823;4893;101707];
[11820;1;3;5;11;5;13;59;83;315;999;1205;939;3661;3081;15551;13791;49027;26843];
[11860;1;1;1;5;3;57;105;169;123;463;1471;445;743;13353;17661;23437;35451;115919];
[11869;1;1;5;11;9;3;41;63;501;861;153;1591;1379;5189;24483;8073;43319;248959];
[11874;1;1;7;3;29;45;51;177;1;961;1493;2179;3723;1923;1517;44823;81613;194641];
[11903;1;1;5;11;17;17;61;141;5;529;379;2509;1487;13141;10877;18603;40569;69639];
[11916;1;1;5;15;1;15;33;219;269;557;7;3627;183;6975;4627;15235;51863;172393];
[11927;1;3;7;9;1;37;13;75;151;153;1693;2835;3093;8847;6721;44135;128931;230745];
[11933;1;1;3;13;29;63;33;153;503;137;401;2315;2223;10843;4235;37295;103249;183899];
[11962;1;1;7;11;15;25;49;55;39;13;269;3119;3445;8265;16781;57239;97489;204841];
[12009;1;1;1;1;25;57;117;199;41;351;477;1891;7913;14439;25305;64811;57731;184265];
[12020;1;3;3;1;13;41;33;53;381;31;1861;2207;1497;15539;23589;53215;36887;134007];
[12035;1;1;5;7;15;37;13;99;17;325;643;2943;7967;11531;21301;5125;63201;101203];
[12041;1;1;7;11;23;21;119;151;457;929;1917;3123;1133;11861;27889;40421;90949;113237];
[12049;1;3;5;9;13;35;111;83;371;589;1507;3559;773;5895;31453;40865;124103;250473];
[12065;1;3;3;15;11;7;93;163;285;763;2023;1047;3349;13575;22571;21513;56081;204765];
[12072;1;3;3;5;19;19;47;25;49;717;1155;3901;407;2699;30961;55647;96043;185559];
[12098;1;1;1;7;29;1;49;87;311;435;1235;1041;6595;1639;32495;44245;6593;236331];
[12100;1;3;7;9;27;13;1;41;75;953;1635;101;7231;13019;14773;17315;120993;111215];
[12107;1;1;5;9;23;31;87;47;83;791;1239;1453;5459;4847;7285;32667;45991;103593];
[12167;1;3;1;3;27;47;97;191;5;961;1191;3897;6821;4257;22047;31557;52603;251405];
[12202;1;1;5;3;23;45;103;115;287;47;93;2761;6467;14031;21881;31631;47605;237635];
[12207;1;3;7;15;23;41;63;239;115;655;1949;1969;3145;91;16735;49295;117995;40537];
[12233;1;1;7;11;5;25;99;247;11;707;1497;785;6055;8521;12179;56363;110131;55449];
[12269;1;1;1;7;5;31;99;7;285;281;1207;1173;7637;9595;31413;16597;96157;39059];
[12290;1;3;7;7;3;49;79;69;57;523;65;2785;2907;11295;16199;25845;51801;67417];
[12304;1;1;3;1;1;53;57;117;1;927;1787;3059;7441;14663;10881;2225;29375;93717];
[12314;1;1;5;5;29;17;67;35;475;367;155;3463;2339;6239;31073;56169;130309;28981];
[12340;1;1;1;5;7;53;61;105;355;817;869;2863;6041;11459;4151;61115;100689;32917];
[12416;1;3;5;11;31;11;33;105;437;767;101;2979;3911;4859;15551;23545;10705;6271];
[12425;1;1;7;5;1;17;109;205;409;893;889;2181;6167;14273;25389;50279;5497;191755];
[12428;1;3;7;15;29;11;79;101;123;399;1159;1263;3513;13169;2199;41057;98639;227107];
[12446;1;1;3;11;13;31;51;119;257;829;337;3267;7673;15459;26681;4041;89429;198607];
[12462;1;3;7;11;23;29;49;159;327;415;857;2411;2429;11839;20263;61813;31811;225443];
[12476;1;1;3;11;7;61;61;119;431;299;1815;2857;7605;7517;15137;13727;73021;199325];
[12496;1;1;7;3;5;19;51;19;59;637;591;2999;5997;13487;807;4887;112189;226597];
[12511;1;1;1;13;21;5;55;167;463;679;891;3597;785;7717;17495;51681;55957;48561];
[12518;1;1;5;5;9;55;55;143;193;839;785;1713;7457;11591;15803;2479;124663;72631];
[12530;1;3;5;9;21;27;109;91;483;905;1369;2573;7173;13977;20131;17637;127477;66457];
[12532;1;1;5;7;31;17;43;153;505;413;867;769;6947;10815;18805;5957;27715;24529];
[12539;1;3;5;9;13;41;107;199;69;1019;2037;3221;1081;15051;6713;46379;17223;85453];
[12567;1;3;3;7;23;51;45;133;227;373;1815;3795;5567;7153;25003;64951;75377;174115];
[12597;1;1;7;15;7;51;33;239;113;133;1213;327;4841;11297;1093;40013;60843;99845];
[12601;1;1;1;11;3;37;33;107;275;747;1451;1787;5029;3101;11575;36555;46181;221643];
[12602;1;1;3;3;29;53;57;67;209;153;345;2897;5657;8907;14159;9899;102487;237721];
[12622;1;3;1;7;7;59;17;151;423;903;2035;861;1057;2399;28547;3659;29583;100651];
[12693;1;1;5;15;27;53;101;17;405;869;1253;1923;999;7787;23621;4351;48611;47129];
[12707;1;3;7;11;13;43;61;161;43;831;2021;579;5353;12451;32261;39885;90051;34407];
[12713;1;1;1;5;25;19;37;33;37;59;1399;1587;1517;4261;31215;33777;50447;87049];
[12716;1;1;3;1;19;17;113;31;385;135;143;3997;1365;2625;22591;8887;31353;240603];
[12734;1;3;7;11;21;7;55;171;233;1007;1321;2903;2457;3941;19667;49115;99119;185989];
[12763;1;3;7;9;3;31;83;99;303;443;99;2285;1491;15897;21735;1575;74449;59615];
[12765;1;3;1;5;29;37;125;213;277;115;255;137;6071;13561;23871;48129;120211;168603];
[12799;1;1;7;3;9;21;93;239;399;21;9;409;3403;9517;6421;17121;65697;251985];
[12843;1;1;1;15;27;35;17;113;471;357;1703;871;1803;3495;27437;48343;86425;155245];
[12853;1;3;7;11;19;45;51;195;345;77;1403;2527;3405;14057;31965;17375;35107;246545];
[12865;1;3;5;7;7;5;115;39;51;261;1883;1793;3423;3613;20399;27267;99875;119719];
[12866;1;3;3;9;21;23;65;69;261;79;151;3387;7789;13275;30135;52229;40787;181297];
[12919;1;1;5;13;19;49;111;125;433;99;1673;2091;5447;9377;9085;4659;75121;105809];
[12926;1;3;7;1;3;27;107;109;245;431;1727;3269;2099;10777;21843;63377;47343;126269];
[12936;1;3;1;15;7;17;107;153;37;287;1873;573;5025;3735;32545;35693;38083;89569];
[12944;1;3;1;3;9;51;99;247;45;703;1231;1895;6309;12137;14697;25441;129701;198811];
[12959;1;3;3;11;5;43;1;31;359;563;1013;3475;3935;7855;10085;15279;25109;225643];
[12965;1;3;3;3;9;47;49;193;223;23;391;847;7233;14955;10645;50535;5415;119791];
[12980;1;3;1;7;3;7;57;189;219;287;401;1767;5585;13983;18485;56725;71905;33779];
[13004;1;3;5;15;23;17;115;223;35;263;345;3459;857;1467;30255;50127;72985;62509];
[13016;1;3;1;9;3;27;125;43;47;183;1421;319;4273;10701;21761;23947;22531;10855];
[13019;1;1;3;15;13;55;77;1;295;841;1115;4093;7993;13309;24851;35411;105201;188543];
[13037;1;3;3;5;19;39;101;19;225;997;1999;407;3147;15393;30379;26221;21685;114167];
[13055;1;3;3;3;23;15;3;57;45;381;47;1839;5491;6775;18477;51443;757;183111];
[13063;1;3;3;7;31;27;107;229;1;977;125;1137;4873;14381;8705;64641;38447;239887];
[13098;1;1;3;13;9;35;49;187;459;407;1677;2007;1091;12385;8911;38221;108681;171641];
[13103;1;1;3;5;7;61;115;155;437;829;1041;2191;1489;1269;27613;48713;40095;206057];
[13106;1;3;7;1;23;1;17;215;363;119;845;987;5619;5857;11307;63171;76921;201767];
[13115;1;1;7;9;29;23;63;247;37;199;103;1215;913;12865;24089;35101;117677;261393];
[13143;1;1;1;1;3;19;7;159;183;275;467;3629;6575;3351;26955;29247;119007;67895];
[13144;1;1;7;13;1;33;31;211;103;495;417;817;7129;10169;11445;41511;73101;185357];
[13153;1;1;3;5;3;27;99;1;425;295;131;835;1833;4547;8777;29489;60303;191437];
[13171;1;1;5;5;31;63;71;189;317;61;385;891;2257;8281;17325;12207;125847;28259];
[13184;1;1;3;3;19;19;97;83;495;551;1339;1699;3047;13623;27731;28999;101225;146139];
[13193;1;3;5;7;25;9;37;73;239;47;583;3337;1329;79;30109;12451;10163;62943];
[13199;1;1;3;1;9;1;31;181;231;441;1241;233;6049;2401;9867;58911;20599;26321];
[13207;1;3;1;15;21;43;21;43;273;865;79;2069;3375;16069;12355;56355;9735;243719];
[13217;1;3;5;11;13;21;5;73;423;761;1947;2935;3931;5573;83;58251;113115;245767];
[13227;1;3;7;7;15;49;73;211;309;635;1257;2185;7151;11959;26885;45955;103503;161709];
[13232;1;3;1;15;31;53;29;35;343;87;1833;2483;1847;4709;6105;21961;106541;46741];
[13276;1;1;7;7;21;43;41;51;29;521;713;3693;483;11777;10453;43691;97585;133193];
[13283;1;3;3;11;5;45;3;179;183;255;1291;1795;5721;10911;18395;64349;23141;99481];
[13307;1;1;1;5;5;25;61;169;475;953;617;559;5945;16377;30063;30079;83305;81745];
[13317;1;1;5;11;29;59;113;37;153;807;135;2639;4535;7079;6387;63523;89669;198803];
[13330;1;1;7;7;19;23;71;51;165;733;1427;2473;331;5027;9299;20617;126775;91619];
[13345;1;3;5;7;31;35;117;235;29;677;1243;281;6287;535;4783;37781;130929;14193];
[13363;1;1;5;3;25;1;29;109;289;631;41;361;5537;9657;7475;63749;50325;169791];
[13387;1;3;3;15;21;53;85;43;341;907;475;3257;2541;10397;30847;63681;121427;192135];
[13426;1;1;1;1;9;59;59;233;335;345;1749;4007;1833;7789;21015;48939;15967;201321];
[13428;1;1;1;5;11;9;101;243;391;1003;1019;311;3707;10223;21627;8237;53861;159785];
[13431;1;3;7;15;5;3;109;197;507;947;833;1161;4021;5575;8081;45381;112597;70407];
[13489;1;1;3;1;7;63;63;53;481;1003;43;2503;2303;12593;21403;2965;5377;91491];
[13501;1;1;1;1;29;45;49;73;253;197;1245;1509;4747;6207;28321;59193;112687;83719];
[13533;1;1;7;3;11;51;23;83;185;643;1427;227;2261;12521;27033;5129;53111;34975];
[13589;1;1;7;3;5;41;55;175;447;603;723;2141;1189;4921;16905;2463;83641;247241];
[13600;1;3;3;13;5;11;95;59;391;319;1675;329;7559;11585;28905;27843;106667;15531];
[13603;1;3;3;3;27;17;103;115;447;657;267;2541;665;7819;4155;32191;60999;48737];
[13623;1;1;5;7;7;49;87;171;457;149;1699;4081;3913;7889;29517;3339;33139;8925];
[13665;1;1;1;9;11;51;87;115;429;505;1665;2361;5811;1621;12727;33703;52255;93835];
[13672;1;3;3;5;27;11;35;49;281;607;1791;4065;5103;5253;975;20353;38253;139363];
[13675;1;1;5;9;29;15;37;141;445;751;1219;2217;7207;14981;21113;3313;107127;135567];
[13708;1;3;3;15;1;41;23;27;167;609;913;631;923;6939;9793;57869;126577;145271];
[13713;1;1;3;7;27;47;127;5;213;575;559;2541;3457;2903;19529;53395;105353;212607];
[13720;1;3;1;13;27;41;31;111;371;1019;241;2075;2571;10739;28163;16093;41127;69783];
[13730;1;1;5;1;21;9;15;141;287;675;1721;2291;6587;7503;6363;9109;33547;259627];
[13735;1;3;7;3;3;53;7;153;183;761;191;3735;2619;11153;19601;33855;82345;72755];
[13767;1;3;1;9;19;21;41;105;281;833;981;2733;7179;14691;18365;56283;53719;191601];
[13773;1;1;7;11;23;1;55;213;105;517;809;4087;825;7011;15701;54047;123831;49833];
[13792;1;1;7;13;27;9;111;57;357;95;1489;887;5273;2833;8757;9371;44637;94939];
[13843;1;1;3;5;1;17;43;31;509;353;401;1077;7567;9657;15065;32017;8491;214477];
[13891;1;1;1;15;7;59;41;99;101;845;1479;2153;4281;12839;237;54095;125873;57165];
[13946;1;3;7;13;5;17;1;249;309;351;709;3943;7775;6449;26611;54019;121015;213535];
[13967;1;1;1;5;7;25;33;149;291;777;161;2729;117;4999;16781;23383;85161;71689];
[13976;1;1;3;11;5;63;119;165;45;135;1723;811;1259;11055;28625;37559;128401;100715];
[14017;1;3;7;1;1;39;11;255;423;289;1359;2827;4637;4089;26659;58701;117403;133971];
[14030;1;1;7;1;25;9;127;121;147;831;17;3521;1535;10931;17305;56671;22425;157341];
[14041;1;3;1;15;5;55;95;95;169;497;739;2031;339;13461;20619;24553;81805;90789];
[14054;1;1;7;7;7;19;15;203;287;673;1033;3857;2761;10835;11039;62329;37893;6119];
[14058;1;1;3;11;19;35;55;9;399;443;583;89;2387;747;9551;9907;96871;175457];
[14060;1;1;3;1;11;57;121;89;491;133;545;683;5751;839;25975;44725;59863;142671];
[14063;1;1;3;1;23;1;111;177;1;103;1933;2783;6857;51;14547;5945;14757;39783];
[14078;1;3;7;13;25;13;51;247;325;361;1225;15;1929;1729;25293;59495;82111;101809];
[14080;1;3;3;1;19;37;67;85;105;589;1273;2995;8017;1613;22189;2549;22671;72813];
[14089;1;3;7;9;15;41;25;43;411;663;387;2861;3627;5839;733;53479;76241;116763];
[14131;1;3;3;3;17;5;73;153;133;247;881;2853;6059;2259;10181;63251;107089;22579];
[14134;1;3;1;5;11;15;17;235;23;15;521;235;4137;12705;24775;18197;56295;28035];
[14137;1;3;5;5;13;9;77;69;19;755;1663;1499;1049;12935;28835;55413;71511;221223];
[14188;1;1;1;1;27;31;21;39;197;519;1621;3703;2541;8865;21947;53605;114551;205697];
[14215;1;1;1;13;11;53;41;245;495;275;385;3071;1913;11135;8571;58551;39049;5459];
[14222;1;3;5;5;11;63;25;173;57;441;1749;79;3191;7733;13111;23453;118399;101845];
[14249;1;1;3;11;29;25;119;39;65;623;517;1325;5981;8381;32031;25585;105537;214241];
[14292;1;3;5;9;21;43;13;69;109;311;1893;1941;2491;7815;4067;56749;33761;191145];
[14320;1;1;1;7;9;5;123;149;65;729;1967;3089;3757;2333;24587;36047;118105;146277];
[14339;1;3;7;13;9;35;39;219;161;93;275;3619;353;14595;24673;54753;117175;81891];
[14346;1;3;3;13;15;61;95;135;271;595;1103;877;747;2535;7733;25509;65673;62089];
[14353;1;3;3;5;21;21;67;5;373;377;61;2337;489;5801;23203;42377;7801;178095];
[14365;1;1;7;5;25;17;61;133;181;261;1627;1615;6851;4763;30353;53349;7545;66733];
[14384;1;3;5;7;29;3;85;231;121;669;1925;403;777;10605;24125;60819;8253;81209];
[14414;1;1;5;3;5;5;1;53;9;445;1339;2643;5527;13757;9409;31993;80845;97863];
[14428;1;1;7;13;29;49;97;89;319;349;1739;3615;1113;11791;17429;37195;1159;32211];
[14435;1;3;5;11;9;61;109;167;119;499;1157;3615;5773;8839;27915;47837;14945;187225];
[14483;1;1;5;1;9;3;7;179;323;279;43;1337;4813;9917;2033;34657;130769;208089];
[14486;1;1;3;1;31;57;57;73;21;661;1861;1661;7619;12155;23123;49751;130697;74143];
[14506;1;3;3;13;11;61;95;75;227;491;463;597;2721;12323;26195;53657;44413;68965];
[14513;1;1;7;11;5;51;103;123;203;911;203;1641;7009;9479;303;37649;32751;172777];
[14520;1;1;3;7;11;59;111;5;271;863;269;3457;489;10877;8645;62567;24893;201587];
[14526;1;1;5;7;29;23;127;151;371;121;1103;3951;3107;15563;6243;1631;75065;107681];
[14528;1;1;7;15;27;45;43;83;461;673;715;3245;313;13731;21981;58853;46569;165463];
[14533;1;1;1;9;7;53;63;43;3;187;1325;447;5113;4993;21807;24329;4499;30067];
[14576;1;3;1;9;21;45;111;231;407;213;1977;2269;2323;4595;30427;54753;95049;195409];
[14599;1;1;1;9;29;43;89;201;499;329;847;3831;5403;13001;6037;14371;25805;169237];
[14613;1;1;1;11;29;61;61;203;91;189;1603;939;6575;3195;4731;44923;33627;21683];
[14639;1;3;3;11;7;57;93;181;479;99;681;2875;7649;5555;27087;6841;69859;153689];
[14644;1;1;1;9;17;45;97;47;91;879;1463;3041;2917;769;13675;26489;88559;120991];
[14653;1;3;7;1;11;13;43;9;483;399;793;3965;2375;4957;17747;50905;56987;231265];
[14662;1;3;3;13;23;45;69;67;397;437;1993;2569;8035;8531;27623;53567;123189;242515];
[14695;1;1;1;3;5;9;21;227;499;205;431;3711;5307;15773;11337;6349;123507;95941];
[14704;1;3;7;1;13;15;101;91;209;611;537;1427;101;2619;10513;44323;92745;249127];
[14713;1;3;3;1;21;7;79;241;273;567;605;2371;5427;15147;20139;40987;75551;236213];
[14725;1;1;7;11;25;19;77;209;313;663;115;3697;3641;12461;9877;18331;70809;78923];
[14783;1;1;5;5;29;45;7;207;1;357;1089;3861;4161;3209;27845;20947;68909;125179];
[14810;1;3;1;13;17;11;27;165;179;489;1611;2801;2385;2971;6777;16149;59811;151043];
[14816;1;1;3;3;17;53;121;227;7;71;1855;639;5135;6349;7163;22997;112551;44167];
[14822;1;3;1;11;15;9;125;213;485;291;1781;3621;7529;13353;13903;24151;130253;187097];
[14828;1;3;1;3;1;61;39;157;455;945;739;589;7259;7149;16455;12649;72003;152419];
[14883;1;1;3;3;31;23;17;255;319;907;563;2571;2149;15323;20289;46061;32769;184353];
[14889;1;3;7;9;21;51;27;13;495;909;2039;1435;4791;10037;30119;3405;22535;42247];
[14904;1;1;3;15;11;25;123;149;185;635;473;527;433;10373;18205;853;94619;202507];
[14917;1;1;7;15;7;39;7;69;157;533;369;4031;1335;4279;8049;28491;103753;257477];
[14927;1;3;1;15;29;51;113;77;5;961;1863;1477;5009;9519;32029;2367;55705;149597];
[14941;1;3;1;5;19;43;49;107;59;693;867;3011;2703;3633;24567;52621;35839;134823];
[14946;1;3;3;7;19;15;81;105;23;375;451;3017;1263;7589;24453;21885;57651;52613];
[14952;1;1;3;7;3;59;19;1;3;243;1891;2041;4707;15557;28885;5959;22517;237131];
[15010;1;3;7;11;25;33;105;15;245;247;1357;1255;7463;4815;13727;41687;112425;58827];
[15012;1;1;7;1;19;31;37;201;217;127;927;763;6359;9951;2581;49171;104305;215923];
[15033;1;1;7;7;13;9;9;139;363;85;1703;3615;2545;15991;20677;12109;54951;2171];
[15041;1;3;1;13;27;3;37;195;185;829;815;1621;2917;8643;29071;45523;38475;243505];
[15047;1;1;7;3;19;29;91;85;331;231;1609;2583;1091;4191;29929;55377;105077;168425];
[15066;1;1;5;3;29;35;3;61;389;339;705;473;2075;7373;9699;38809;60415;66423];
[15068;1;3;1;5;17;25;17;37;335;787;1891;1861;4325;12721;9675;13671;18655;235443];
[15072;1;3;3;5;23;13;83;191;263;325;1847;1717;7089;15709;26567;44489;66523;3107];
[15095;1;3;7;7;25;29;63;55;9;481;899;669;5481;11227;1637;17017;124509;102775];
[15150;1;1;1;5;21;41;101;93;129;1023;561;2969;1525;2929;32729;54513;4359;28745];
[15152;1;1;5;13;15;13;79;9;257;535;861;2703;6161;6659;10369;7;117467;146651];
[15175;1;1;3;13;31;11;43;95;441;921;1323;343;5339;13149;19643;24253;32055;180327];
[15176;1;1;5;15;11;27;109;149;255;1021;249;1913;5213;301;9939;49779;26097;66007];
[15210;1;3;1;11;15;33;53;159;433;167;1107;3577;6231;8309;28125;55381;127309;14459];
[15245;1;3;5;9;7;3;45;139;133;359;537;805;3931;5181;915;63317;86227;231573];
[15258;1;1;1;3;11;31;97;127;117;151;711;2457;2777;3855;21829;7913;30785;141449];
[15263;1;3;7;13;11;17;65;63;289;851;1929;4021;105;5207;17085;64119;48659;31687];
[15264;1;1;7;11;31;57;63;251;341;727;505;1851;783;16191;9335;39421;14793;238215];
[15279;1;3;3;11;23;13;119;195;117;579;693;3059;2967;12791;26905;28527;13393;11869];
[15301;1;3;7;11;23;7;61;143;409;309;651;3321;4027;1351;10339;18451;18447;235665];
[15306;1;1;1;9;13;21;7;65;103;789;973;475;2831;13337;18989;40573;105375;2221];
[15313;1;3;5;15;3;59;115;61;365;653;523;3927;8175;6751;32561;55919;64903;139005];
[15329;1;3;3;13;1;7;51;63;179;525;1899;373;3797;6329;5539;32669;65903;154993];
[15341;1;3;1;1;31;53;87;39;317;71;1899;925;4719;11645;27125;50391;116491;219271];
[15367;1;3;7;13;7;23;1;57;333;277;893;3245;1417;13115;21835;25879;91305;54691];
[15368;1;3;1;11;27;5;109;69;221;453;299;517;609;11959;27789;33107;46559;121673];
[15386;1;3;5;7;27;7;119;169;129;643;173;2479;6163;11159;11897;57153;11347;135337];
[15404;1;1;5;13;13;59;21;13;429;601;267;1635;2579;12053;31583;14847;78187;217099];
[15422;1;3;5;9;5;3;125;159;411;15;479;933;6307;9707;23491;6501;70993;161365];
[15436;1;1;7;7;3;33;87;177;283;825;1935;1545;7071;9975;1795;48277;115725;173439];
[15444;1;3;3;9;19;63;17;119;13;337;2021;2221;3237;3253;18661;15479;59377;76095];
[15467;1;1;1;11;17;15;93;249;333;171;575;3251;5413;3587;22807;29273;56461;97801];
[15498;1;3;3;11;13;7;27;167;389;693;1473;555;1603;3167;3985;3841;100283;195253];
[15503;1;3;7;1;23;7;89;231;85;797;1935;2557;4365;2221;21069;44055;77723;226547];
[15528;1;3;1;5;5;49;47;187;71;903;1279;3219;8041;10915;5249;17755;80077;3479];
[15534;1;1;3;13;5;53;35;25;183;791;1651;1041;1221;2171;26221;20649;126851;163047];
[15536;1;1;5;9;29;3;75;31;385;293;171;3023;2075;14541;30879;13895;67637;87831];
[15559;1;3;5;7;3;41;115;213;23;895;361;27;5839;12447;13829;29183;106539;134891];
[15565;1;3;7;7;11;39;99;229;195;633;837;3697;1161;15119;20831;27371;92195;26993];
[15583;1;1;5;9;25;17;5;169;475;73;1451;2057;3671;12801;9671;57427;25321;154969];
[15599;1;3;5;11;25;23;9;145;341;339;1855;981;8041;569;19851;29521;21767;136505];
[15602;1;1;1;1;3;9;101;253;475;529;387;1893;5509;5763;29555;13307;30001;105057];
[15616;1;3;3;5;17;23;127;161;375;817;1229;1197;1097;3053;14351;21213;12501;137397];
[15626;1;1;1;9;7;1;57;185;281;65;181;2483;4739;4353;29837;40613;32489;23317];
[15667;1;1;3;9;5;35;43;191;409;95;537;2465;515;1633;20887;32535;43863;199885];
[15684;1;3;3;13;19;49;41;51;3;979;1623;3323;7711;3707;29417;58011;114467;227499];
[15711;1;1;1;11;21;7;23;51;39;25;1971;213;369;9149;12845;57631;16597;22031];
[15745;1;3;3;11;27;59;71;37;461;353;2041;1961;4643;6953;18129;60337;82769;20819];
[15763;1;1;3;11;25;19;17;5;503;227;2021;733;2867;201;25779;49811;81167;95437];
[15779;1;3;3;15;7;53;35;143;27;937;215;3249;4151;1933;25267;18047;35131;25903];
[15811;1;1;1;3;3;39;71;99;291;97;1389;3803;2881;9765;11277;20071;15133;37349];
[15814;1;1;7;11;9;55;1;241;391;935;1555;3585;1807;10057;2633;14023;14409;199643];
[15817;1;3;3;3;19;9;57;237;107;869;147;2673;5271;8999;20723;63017;75989;20131];
[15853;1;3;3;3;25;11;61;77;119;657;2011;3489;7835;4473;2531;65231;104797;161443];
[15881;1;1;5;5;11;63;25;93;181;797;367;3357;5291;5087;28661;34093;75195;165345];
[15890;1;1;1;7;17;1;77;149;59;633;1551;1305;7677;8671;17457;64037;104451;112387];
[15899;1;3;1;1;15;33;37;187;247;261;1101;3451;7747;12197;22465;30589;12573;204517];
[15905;1;3;3;11;3;39;71;139;145;139;101;2815;3457;14033;4531;42133;54147;71259];
[15915;1;3;1;1;23;37;19;113;443;57;439;2929;3835;5431;11189;4539;72531;124453];
[15937;1;3;3;5;3;17;21;217;41;665;1565;3753;5289;9789;29205;16453;88979;171387];
[15950;1;3;3;13;27;15;15;223;231;311;311;1143;8113;13863;3191;51103;109437;245557];
[16002;1;1;3;13;11;59;7;191;477;683;353;2845;7623;9035;453;48429;40111;162859];
[16041;1;3;7;5;29;37;55;59;259;851;861;1951;7847;8537;30107;2999;59137;155615];
[16042;1;3;7;11;3;13;73;147;393;327;1289;37;795;1413;19215;28345;124301;23135];
[16052;1;1;5;11;29;17;107;69;433;845;1351;2551;807;15315;15511;39475;84879;129405];
[16121;1;3;3;9;15;3;23;5;211;871;689;2319;39;2215;25171;43169;113715;186049];
[16132;1;1;3;7;3;37;23;9;453;649;373;1273;1539;6221;27469;44675;13513;131179];
[16136;1;3;1;5;29;41;119;133;37;761;1193;2311;4945;7337;17027;12873;51489;160633];
[16150;1;3;1;3;21;63;75;115;105;223;933;445;5789;4611;13609;2873;16679;222895];
[16153;1;1;7;5;17;13;15;217;193;863;1319;2337;3055;14879;8669;5705;42965;166443];
[16180;1;1;7;11;3;55;57;131;289;843;1693;881;6737;5557;18365;12393;38479;189177];
[16190;1;1;3;5;3;59;13;123;397;479;79;569;535;2529;26225;43475;76925;187763];
[16192;1;1;5;15;15;37;1;97;489;331;1499;1759;3621;5373;1425;6477;45805;235511];
[16195;1;3;1;3;7;51;55;157;61;751;1881;4093;2557;11129;23239;16335;8949;205007];
[16210;1;1;1;1;13;21;67;141;85;1023;223;747;1951;10279;6399;49887;100437;76757];
[16225;1;1;3;11;1;51;29;33;173;769;879;2883;417;15031;13377;63919;118803;87969];
[16256;1;1;1;5;1;1;17;153;81;691;961;3399;5005;10617;18467;13775;34905;241349];
[16266;1;1;1;13;7;37;57;187;389;575;1827;2017;4541;10513;23409;30945;126855;239657];
[16274;1;1;5;5;17;41;83;177;285;695;29;1653;953;6377;13571;58663;9265;100759];
[16302;1;3;5;3;5;13;27;153;207;699;1805;947;979;2719;389;61953;16991;160073];
[16310;1;1;7;13;17;37;113;185;239;455;1557;3201;1111;4875;23197;41883;70507;255047];
[16322;1;3;5;11;9;51;47;137;413;1015;259;1829;6043;11757;22317;15155;107827;171003];
[16339;1;1;1;13;27;7;49;91;285;13;2007;3469;1223;2483;16155;8413;10529;224195];
[16345;1;1;7;3;9;49;119;81;331;187;1695;1729;533;6359;7053;34665;37541;100225];
[16348;1;3;7;1;7;35;115;91;479;515;1249;121;2885;16383;1777;44205;86459;255885];
[16357;1;1;7;13;13;27;11;49;221;829;1787;2889;3875;1679;25333;1323;9813;189373];
[16382;1;3;7;5;31;5;117;77;209;619;191;2969;2221;15339;11461;64201;130461;204467];
[16402;1;3;1;1;29;5;91;31;313;901;1501;2837;3615;7765;341;13873;21663;260637];
[16461;1;1;1;9;1;41;97;15;141;901;1309;3341;4871;16033;12343;1555;94989;78295];
[16469;1;1;7;3;3;15;1;29;445;59;475;3033;4227;3219;6093;58953;92179;49343];
[16474;1;1;5;3;27;25;109;13;219;983;131;2517;1161;16063;32737;6077;91183;37457];
[16483;1;3;3;1;3;1;85;147;17;543;1475;3873;3719;2737;30977;15953;66077;258979];
[16497;1;3;5;1;29;9;21;51;5;985;1177;3287;2183;7301;13713;53403;38439;195863];
[16523;1;1;7;15;31;53;47;173;477;439;751;1019;3371;9319;17995;29029;90657;209277];
[16534;1;1;5;5;17;5;59;115;375;231;1891;1321;3639;16117;32639;28793;68213;41091];
[16550;1;3;5;11;17;15;13;11;459;767;849;1407;6611;6409;21515;63175;127155;171959];
[16564;1;1;5;1;17;49;61;161;399;137;845;2673;2431;15343;389;42337;23031;94811];
[16582;1;1;1;9;21;23;75;177;351;197;1619;2443;6829;3773;16399;31949;44975;221363];
[16591;1;1;3;1;11;19;103;61;135;863;1427;2657;4553;1277;20249;3973;25467;18847];
[16609;1;3;3;13;17;31;19;163;323;195;603;4069;3181;12069;22117;44229;23585;202785];
[16642;1;1;7;5;17;3;77;111;491;829;1375;2829;5599;14057;21387;52345;108281;211285];
[16648;1;3;3;1;17;43;71;13;321;393;1803;727;5101;13485;8693;60505;13893;3467];
[16656;1;1;5;1;23;31;121;15;215;215;1113;3335;7431;4863;31429;49903;59403;60797];
[16662;1;3;3;9;21;43;61;171;361;323;1895;3647;729;8809;9351;14573;93593;17485];
[16665;1;3;3;7;7;19;45;247;203;757;1941;3753;5317;13239;18945;26173;43929;66889];
[16678;1;1;1;15;5;17;11;21;193;941;517;191;6067;8403;27339;31035;34767;28675];
[16701;1;3;1;7;27;59;27;7;491;551;867;3693;391;9799;11051;28347;57555;23079];
[16713;1;3;3;1;25;21;63;253;459;603;107;1229;1433;4263;24341;20493;40165;254725];
[16716;1;3;5;3;9;7;63;195;19;973;47;811;2207;3613;8911;17495;62403;77951];
[16758;1;3;5;11;5;13;83;125;467;111;1819;3807;4259;2885;29577;13539;69859;97379];
[16768;1;1;5;15;5;33;109;203;129;587;9;3025;2839;11405;11257;7779;30311;14015];
[16797;1;1;7;15;5;47;103;199;391;61;129;3511;1295;15067;23919;2941;120463;21665];
[16804;1;1;5;5;7;7;125;153;365;815;1423;4053;875;2405;21291;26785;31371;211045];
[16811;1;3;3;9;31;47;1;247;197;1019;985;2277;875;3969;15093;15561;110101;156547];
[16813;1;1;3;1;9;47;71;125;17;501;1783;2337;483;12719;22453;16701;102639;152955];
[16881;1;1;3;11;13;31;9;63;261;257;319;1443;5011;9799;18639;53081;56879;102335];
[16888;1;3;3;1;5;59;127;163;323;997;1755;1445;2285;4935;22123;815;115131;1009];
[16893;1;1;3;11;11;43;65;127;137;583;173;2601;5809;15773;16129;2543;68281;96107];
[16922;1;3;5;9;25;25;95;73;313;893;1805;2301;5917;15159;8637;25505;66053;31627];
[16937;1;1;3;7;25;59;55;13;297;849;187;359;3745;12655;29293;58581;89799;195867];
[16958;1;1;5;13;19;5;51;85;259;59;1003;2991;6605;8405;5221;45607;130729;99641];
[16965;1;3;5;5;25;61;51;211;143;233;1465;1165;1769;3021;9491;30335;34787;142605];
[16978;1;3;5;13;23;9;89;249;71;179;841;3375;21;6757;27495;7531;123725;253855];
[16980;1;3;7;13;9;33;109;103;475;781;493;2079;6529;13443;2181;26925;31345;142863];
[16989;1;1;7;9;15;41;17;85;503;839;533;731;2735;12949;11395;22539;130147;40045];
[17011;1;1;5;9;25;21;29;79;405;383;1271;385;7629;3889;5319;57739;51411;50895];
[17014;1;3;7;5;13;35;17;97;261;437;951;1403;2407;11447;13565;10165;100001;253093];
[17023;1;3;1;3;11;39;31;187;473;565;351;4007;2621;14463;9009;40679;81069;51131];
[17063;1;3;5;5;9;17;11;151;59;249;281;203;6423;4977;18557;65383;88361;87437];
[17081;1;3;5;7;15;25;3;157;179;439;1627;3493;6641;6403;2361;3613;33817;22585];
[17084;1;3;5;1;13;63;77;195;233;175;631;1021;637;13231;26187;131;127379;256183];
[17099;1;1;7;9;5;13;15;187;55;37;1113;2191;3439;1073;26239;3049;19807;250869];
[17126;1;1;7;3;13;15;77;47;317;285;753;2419;7795;11423;6043;2913;42819;50603];
[17129;1;3;7;15;21;17;63;71;97;535;1085;1531;5165;13717;1537;26797;111787;189403];
[17138;1;1;1;7;9;3;43;209;385;851;1411;4039;3259;13387;24505;33325;83741;241255];
[17164;1;1;1;1;3;41;13;43;303;445;1097;3517;7753;8459;3017;16385;13775;248655];
[17170;1;3;5;15;5;61;31;57;269;931;1071;1137;6181;13005;18493;1345;105203;117309];
[17203;1;1;3;13;21;29;3;179;367;155;993;117;5849;10181;1175;55769;16025;67669];
[17206;1;1;3;9;11;9;33;131;181;1003;253;2759;1877;11851;22959;37823;82737;110329];
[17224;1;1;1;5;7;5;107;191;385;129;567;2585;7295;3005;28185;7095;54851;257587];
[17305;1;3;7;9;21;61;103;155;503;307;993;683;1491;14895;9213;34535;17765;12457];
[17322;1;3;3;1;7;47;27;173;97;889;853;3995;4943;71;20479;16741;35479;35307];
[17327;1;1;5;3;15;35;29;207;117;267;1835;2565;1199;3813;13999;10537;129915;210651];
[17332;1;3;3;13;5;57;77;193;11;279;745;2511;5775;13527;26329;16303;111511;70025];
[17342;1;3;7;9;17;1;73;1;125;939;863;2763;1951;3191;5567;59729;32149;149417];
[17387;1;3;3;1;19;25;119;63;101;33;77;3587;6367;8275;24957;32087;7031;217291];
[17410;1;1;1;13;7;25;75;161;143;353;973;2957;749;13519;11295;34287;60727;83731];
[17419;1;3;7;7;17;9;59;45;97;619;895;1955;8143;2507;4673;39425;35679;152069];
[17429;1;1;5;9;31;19;115;177;349;877;525;305;2187;12195;13529;61641;102293;69941];
[17439;1;3;7;11;23;59;15;243;511;465;905;1979;2263;2105;9009;3691;22241;97765];
[17440;1;1;7;9;29;13;3;207;51;405;1703;1923;1781;14723;8103;10707;64799;99349];
[17457;1;1;7;5;23;29;51;63;489;273;1577;2807;5427;9949;1929;19791;109405;241465];
[17458;1;3;3;7;29;61;103;55;29;17;1081;21;5791;9803;19385;45091;118069;61383];
[17469;1;3;1;7;3;15;75;47;475;87;1541;3933;1081;12361;29213;64333;7229;226909];
[17477;1;1;5;7;21;45;19;137;351;229;1773;1829;5025;12661;18745;54917;10419;176667];
[17512;1;1;1;3;9;37;81;25;11;327;1653;2751;2823;12575;30287;46265;17299;93595];
[17518;1;1;1;3;15;17;43;163;223;731;631;2813;1723;6089;14245;64339;114291;40331];
[17532;1;3;7;5;21;45;41;17;495;61;1369;369;4493;12071;3813;41455;62561;174399];
[17536;1;1;1;5;9;41;95;113;109;519;1683;2265;2875;12649;15575;53511;100707;224035];
[17559;1;3;7;9;29;7;109;109;283;111;1167;3679;369;11597;19459;759;128667;172427];
[17569;1;1;1;3;13;31;97;31;477;507;835;465;7501;2485;19485;51055;56363;229341];
[17641;1;3;5;11;3;23;67;173;99;963;977;1949;1263;2427;15181;23571;23509;26481];
[17667;1;3;3;1;29;3;35;191;197;277;397;205;5945;1069;31789;3551;101901;222609];
[17674;1;1;5;9;11;23;109;81;295;7;755;2345;2823;11133;22623;14515;57059;231099];
[17693;1;3;1;3;21;29;37;71;111;737;1881;871;5843;5889;14615;49909;7105;48335];
[17710;1;3;1;15;23;31;87;181;483;225;2003;365;1569;11153;14673;30085;56497;203723];
[17729;1;1;3;15;17;47;99;167;485;431;1481;2225;1537;8513;19407;34165;27289;84393];
[17754;1;3;7;3;11;17;115;205;403;831;1869;3623;5215;15511;11297;25181;127491;155887];
[17763;1;1;7;5;31;37;23;21;403;529;1185;3363;6319;2435;2687;39407;121891;133047];
[17780;1;3;7;1;21;31;43;61;371;987;1783;3811;6227;13199;31799;28863;49329;73947];
[17784;1;3;1;1;13;1;5;99;35;793;483;2573;2249;6345;12793;61917;49419;58011];
[17790;1;3;1;15;3;45;35;189;67;447;1455;3575;8191;7907;21559;38211;26945;240679];
[17830;1;1;3;11;27;49;9;109;93;473;1465;271;7389;47;8101;6219;17437;220461];
[17851;1;1;7;3;23;31;75;61;375;901;1329;2603;3469;12957;23949;62183;126763;68965];
[17868;1;1;7;9;13;59;75;233;339;29;1117;1693;593;15317;29753;3079;43583;79939];
[17879;1;1;5;1;17;57;81;123;101;765;1941;3143;7403;9105;23197;28983;128059;5931];
[17896;1;3;5;11;19;31;89;165;213;251;965;3203;1621;4323;26877;17109;18321;162413];
[17901;1;3;3;9;11;59;123;213;335;267;1767;3317;5189;10149;27921;19331;71541;170501];
[17916;1;3;3;15;3;3;115;235;305;219;265;1535;4925;5597;20857;32381;117237;197533];
[17935;1;3;5;13;13;59;93;85;419;337;513;2131;5665;12229;1389;34355;65485;81141];
[17953;1;3;7;7;11;59;111;219;293;289;325;623;3853;3775;14771;5945;119451;162861];
[17991;1;3;1;11;19;33;119;239;431;803;1119;2445;3203;7219;31963;34519;104953;254491];
[18009;1;3;7;9;21;53;21;115;365;419;11;3803;4283;417;8937;64533;56433;166025];
[18016;1;1;7;3;17;5;99;143;485;309;1255;2641;3427;1681;3301;64531;38629;20945];
[18034;1;1;5;1;31;3;115;217;451;5;1447;2317;1725;12931;25799;23569;51747;28821];
[18061;1;3;7;3;31;55;109;107;211;381;1067;3973;5007;8939;8605;55221;124603;47115];
[18070;1;1;1;11;19;13;99;241;103;711;1823;2671;653;10217;14195;39735;54807;105599];
[18079;1;3;3;7;9;33;43;131;493;141;827;2909;2847;12879;7879;6263;25981;57323];
[18132;1;1;1;1;1;41;55;175;479;725;157;3403;5809;10685;20433;21729;9493;205685];
[18145;1;1;7;5;1;33;31;245;109;711;1047;941;449;1055;16249;45211;48311;171339];
[18169;1;3;3;9;27;9;113;69;269;643;1371;3521;4969;5373;11133;63109;42725;126969];
[18170;1;1;5;15;9;21;1;195;421;429;1103;2727;463;9801;8955;62841;94687;114509];
[18190;1;1;5;5;5;47;9;221;59;115;359;1147;749;1009;23129;641;39471;23073];
[18192;1;3;5;13;27;29;19;3;121;773;625;2757;6377;15867;14563;40391;4351;21153];
[18201;1;1;5;9;11;25;51;101;273;541;1761;593;7111;4369;30095;34867;103989;19855];
[18228;1;1;3;13;27;55;79;115;105;855;627;2227;2927;8757;8713;54607;43671;130153];
[18243;1;1;3;5;7;45;21;71;157;773;1265;841;2463;2217;6087;28683;21251;72377];
[18260;1;1;3;1;15;11;117;211;223;713;545;907;6907;41;17039;23079;86657;5765];
[18279;1;1;5;3;27;33;77;137;401;585;911;1189;2749;3427;2701;2453;84857;176585];
[18285;1;1;1;3;7;39;73;143;29;569;939;301;7827;7691;11513;64517;113679;234165];
[18297;1;3;1;11;29;57;127;181;175;973;1537;761;5205;13641;32649;8621;77509;261235];
[18300;1;3;5;5;13;19;117;225;477;297;1807;2357;5653;3791;6325;54877;120659;91013];
[18321;1;3;1;1;3;55;19;99;321;877;541;511;141;15047;26377;9;2765;223533];
[18344;1;1;1;11;13;59;121;147;215;117;1047;3055;2129;15191;14425;28327;108541;114275];
[18358;1;1;1;15;3;21;105;61;501;899;195;2745;5989;4433;19525;35477;22997;241657];
[18364;1;1;3;5;19;47;77;247;413;317;1255;2087;4493;2211;9003;22145;94001;50579];
[18376;1;3;7;11;31;47;25;191;65;409;1349;2481;7619;223;18051;63609;77187;75483];
[18390;1;1;1;9;21;59;115;251;401;91;627;3273;2393;2949;11475;23669;16171;77507];
[18399;1;3;5;1;19;7;65;253;217;493;227;3269;4261;2295;32037;5773;12925;41821];
[18400;1;1;5;11;5;31;71;205;285;37;1863;1873;191;16137;2955;51993;91401;206967];
[18427;1;3;1;7;23;31;21;81;37;903;817;3447;8067;3087;25831;46247;77255;68365];
[18443;1;1;7;11;7;43;21;243;431;633;2047;577;7297;8151;15951;30313;121569;241687];
[18487;1;1;3;5;7;45;35;189;381;849;1869;1193;6815;9017;29053;63605;113623;249097];
[18493;1;3;3;11;13;1;73;151;197;591;1101;2437;6695;8337;26539;40147;45673;57727];
[18508;1;1;5;1;19;15;61;151;37;893;1819;2317;6299;13097;5109;32613;123685;128173];
[18532;1;1;1;7;25;29;29;203;179;211;1483;3315;7125;6931;609;849;117571;26829];
[18535;1;3;3;11;11;47;33;101;181;431;183;2777;5269;4177;15727;717;111243;34825];
[18580;1;3;5;11;17;19;19;143;137;537;1249;2889;1911;3895;15433;60165;83815;205569];
[18587;1;3;3;7;9;59;13;159;307;625;1;2887;3307;16371;4269;56253;71171;55543];
[18606;1;1;1;11;7;63;15;53;409;7;1317;473;7481;10321;27941;4941;40003;194153];
[18659;1;1;1;1;11;53;93;157;289;231;31;273;8131;7861;31041;55221;58305;203403];
[18662;1;1;5;11;15;53;103;41;439;601;1949;1087;4275;4675;31879;40909;22365;124781];
[18679;1;3;5;9;1;47;81;47;197;499;329;2387;5455;15571;2289;44121;12105;11883];
[18694;1;1;3;3;7;47;93;33;265;149;845;723;7783;6651;22939;58027;66959;3991];
[18697;1;1;5;11;23;35;123;143;35;981;1269;2853;4547;7877;16181;17155;57605;11589];
[18706;1;1;7;11;9;57;87;151;333;743;1939;3273;1047;5033;16061;37237;12013;17669];
[18708;1;3;7;5;29;15;109;185;51;159;1353;3041;7821;14053;13643;62045;78475;43603];
[18728;1;3;1;9;29;25;121;49;415;561;325;1139;1993;6437;6025;25225;20761;250589];
[18731;1;3;5;3;15;39;33;43;437;605;1081;2397;3821;10961;4853;19517;95817;142023];
[18733;1;1;3;11;23;51;119;13;227;981;2017;3265;1215;8737;10719;48027;43239;19425];
[18751;1;3;1;15;5;5;33;175;509;611;451;2653;1553;1941;25221;31259;6027;159847];
[18766;1;3;7;11;7;25;71;61;89;775;609;2363;4261;10677;1243;44895;49113;209603];
[18773;1;3;5;15;23;23;3;15;489;455;1303;745;5311;1639;18317;33729;119303;255359];
[18796;1;3;7;5;13;53;29;127;159;67;469;1735;3497;6985;24735;32957;1225;24447];
[18811;1;3;5;5;9;13;119;83;387;777;361;3183;6351;9071;13699;53873;54663;67453];
[18823;1;1;5;9;17;33;9;159;143;193;1055;2903;2719;12521;5231;37639;94963;105673];
[18832;1;3;3;1;27;53;87;49;465;517;1333;411;4089;9985;12989;59511;49939;223481];
[18854;1;1;5;9;27;59;35;125;393;271;1565;2847;8139;15627;16059;55319;11131;35141];
[18858;1;1;1;1;25;1;27;195;113;539;1281;2273;4793;695;25599;41145;107431;160137];
[18883;1;3;3;7;13;7;35;137;83;995;1671;1701;3157;15583;7637;18947;59675;9421];
[18900;1;1;7;15;23;37;109;93;377;885;1843;1867;2013;10535;5717;55463;18307;125537];
[18967;1;3;7;11;25;33;91;213;109;599;131;1879;1375;2911;4649;8809;41199;61629];
[18974;1;3;1;1;11;17;117;243;427;913;495;527;4277;8867;3131;14143;81677;177369];
[18990;1;3;7;11;11;37;71;185;487;161;1773;837;243;14105;6881;2155;63679;220387];
[19009;1;1;5;3;11;41;33;99;495;757;1083;1987;1997;11057;18445;61903;78163;121701];
[19055;1;1;1;1;23;37;9;19;411;11;1487;1279;2129;7449;29631;34559;129753;112627];
[19058;1;1;3;11;31;39;41;207;141;383;723;3053;743;4479;12395;56659;130303;152005];
[19074;1;3;1;7;27;25;19;37;29;781;1115;2569;4113;14033;18653;1055;50639;70413];
[19079;1;1;3;1;9;15;109;7;221;161;569;2915;2717;2439;4257;61851;113183;63139];
[19086;1;3;5;1;17;45;3;147;207;769;321;11;2747;7189;8067;34951;50851;42625];
[19128;1;1;7;11;15;53;117;161;219;937;1661;3767;959;10351;26685;40095;109821;140139];
[19145;1;3;3;9;15;47;61;35;289;743;1723;2189;749;13499;22897;55385;114953;67191];
[19163;1;3;7;3;23;19;123;217;393;889;1665;13;5663;8695;29767;13433;65133;226713];
[19175;1;1;7;11;5;57;59;171;321;519;1333;1975;5331;2383;26863;8989;82167;6915];
[19189;1;1;3;3;7;17;105;79;7;827;1277;3805;5943;3161;28953;15657;615;149131];
[19196;1;1;5;1;5;7;99;65;295;933;365;1867;1959;10733;26947;29659;121889;200379];
[19204;1;3;1;13;25;21;89;247;251;43;1539;1317;1875;9237;20693;58433;16757;25451];
[19213;1;3;3;13;11;47;73;21;467;337;1881;2723;7023;2767;12553;65533;20517;203749];
[19237;1;1;1;1;1;17;85;133;369;577;71;859;8151;919;10843;44017;10097;199893];
[19276;1;3;5;5;23;19;21;233;475;123;621;687;6945;2373;6447;31243;3525;256545];
[19287;1;1;7;5;9;5;35;21;33;353;1429;3249;6159;8757;6213;855;75863;74507];
[19291;1;1;5;11;29;21;45;155;369;769;1041;3929;7377;1621;5285;55213;66143;110251];
[19293;1;3;7;11;13;57;45;207;259;907;573;663;7727;12677;5949;57625;42183;217491];
[19304;1;3;5;3;21;63;113;159;87;551;1405;2867;239;10941;27633;13947;69689;225771];
[19371;1;1;3;1;1;59;5;41;125;707;1457;1;4263;5519;26101;46339;44949;63689];
[19379;1;1;1;1;11;9;65;155;3;85;273;2287;6059;3289;19045;14705;112465;202019];
[19381;1;3;3;3;21;49;95;75;479;519;1511;1609;2421;14435;11749;49627;16221;98351];
[19405;1;1;3;5;25;57;1;39;377;523;529;701;6749;10109;15845;53301;70979;210997];
[19417;1;3;1;3;27;29;101;87;361;1;229;2653;769;16121;18221;31937;12187;63801];
[19420;1;3;3;1;25;27;49;235;309;23;1625;589;1251;10305;26943;38949;82539;135491];
[19424;1;1;7;7;13;13;13;61;509;73;201;2309;1601;3145;19867;5623;117455;180681];
[19462;1;3;3;13;13;47;71;9;123;719;701;353;1877;3103;20017;64731;72729;147631];
[19474;1;3;1;7;29;29;53;97;409;67;1033;2403;2471;10869;2837;43459;117415;213371];
[19492;1;1;7;1;7;23;103;157;315;335;375;3493;4095;5331;7773;64173;23167;21259];
[19501;1;3;5;13;13;55;107;147;447;281;401;1897;7887;15005;21645;26007;19673;238931];
[19504;1;3;1;7;17;39;109;113;143;59;1095;225;1455;5021;5011;2039;4381;219847];
[19516;1;3;3;7;1;35;121;145;297;251;1153;1955;7881;15461;26961;915;30253;15289];
[19519;1;3;5;15;5;57;43;157;49;17;993;4085;5639;9405;28661;30191;73291;76913];
[19534;1;1;7;1;25;63;117;55;63;649;1635;2505;2765;2715;30241;62699;19567;65953];
[19555;1;3;5;13;21;49;111;127;179;819;1737;2519;815;10541;15821;54203;71767;7091];
[19597;1;1;1;3;27;41;101;139;39;995;819;319;1481;15265;20611;22445;53733;82871];
[19600;1;3;3;13;7;61;103;203;353;205;1927;2665;757;12277;31217;22247;14527;26385];
[19615;1;1;7;3;5;35;87;235;139;785;417;3975;6753;4267;15201;8747;12491;159979];
[19621;1;3;1;9;9;11;117;231;503;933;1461;2657;7771;2161;26723;4853;23215;162315];
[19646;1;1;7;15;27;25;115;9;257;89;571;41;2169;10619;2695;2107;64747;40489];
[19651;1;3;7;9;29;61;91;117;279;721;233;177;5509;7599;2379;20297;75425;25051];
[19693;1;1;1;15;31;41;3;57;59;47;963;2831;1885;1989;26803;48243;112065;27753];
[19702;1;1;5;15;9;57;41;255;179;719;1463;2857;285;9623;13111;20415;28819;149441];
[19726;1;3;1;9;17;63;21;79;473;525;1557;3205;7097;14379;28039;30731;62383;247429];
[19754;1;3;3;13;25;45;97;213;11;801;1519;1085;6167;13701;6707;47223;69923;66239];
[19759;1;1;1;13;1;1;9;21;363;729;1715;1249;5299;11357;20627;33559;84255;133743];
[19764;1;3;3;13;17;33;23;255;309;605;1177;1305;2717;6561;29193;7971;117525;79139];
[19788;1;3;1;1;7;15;73;171;11;791;241;2641;5397;10403;22207;64123;124507;63855];
[19793;1;3;1;11;11;7;109;103;321;1009;1237;3347;287;2389;16529;7789;3347;97827];
[19836;1;3;3;3;1;27;17;9;223;755;559;3811;2997;1543;23197;42371;5837;13809];
[19855;1;3;1;3;7;57;31;23;35;329;1155;2525;3029;5495;12005;18045;4539;75789];
[19858;1;1;5;13;3;31;121;161;325;869;715;851;1273;1871;22711;61499;36291;11663];
[19880;1;1;5;11;7;39;23;139;197;47;513;373;6859;11217;17725;60949;19299;91425];
[19883;1;1;3;7;15;63;123;11;109;829;231;2591;7997;9061;18647;3209;38509;211219];
[19917;1;1;1;11;13;35;73;223;325;49;1317;4063;4127;2755;555;51057;44909;205723];
[19918;1;3;3;13;17;41;115;141;503;525;63;2487;3225;959;10623;28577;89127;157269];
[19936;1;3;1;9;25;9;43;43;279;111;1141;3033;7229;5725;8277;59141;116811;127945];
[19946;1;3;7;11;27;27;93;243;135;333;1475;1259;1583;7191;6831;53485;128819;174211];
[19954;1;3;3;3;17;17;43;251;433;1011;1817;2835;7721;2449;9463;23779;31427;88127];
[19979;1;1;3;3;11;49;61;41;211;559;1761;1303;2119;5743;25515;60705;54405;241063];
[19993;1;1;3;11;7;61;15;115;29;35;187;3137;6177;1449;32723;15917;107851;101077];
[19994;1;3;5;13;21;7;11;231;417;73;1175;735;627;7393;7233;39883;129481;106733];
[20006;1;3;1;15;27;61;63;201;27;431;1127;1555;1953;13051;18701;30097;95549;198465];
[20017;1;1;3;1;23;25;43;85;291;85;1861;675;7451;14701;3929;10835;25569;154687];
[20032;1;3;7;15;5;43;91;225;283;259;1311;3977;585;14803;14117;2121;106981;157577];
[20038;1;1;1;11;7;51;49;115;477;861;1115;743;5109;959;7105;9245;66297;188751];
[20050;1;3;3;11;23;1;11;111;163;643;1907;3613;2967;10071;6023;1307;62341;241025];
[20080;1;3;5;5;15;29;31;43;445;219;1261;421;6035;6461;25583;817;100509;239637];
[20135;1;1;7;3;27;51;121;93;349;125;2013;1671;8049;7807;7291;64413;93625;245611];
[20142;1;3;3;9;11;1;91;137;501;617;1513;799;1705;15737;14989;53611;48781;64481];
[20159;1;3;3;1;21;55;95;79;383;617;1589;2671;4057;13525;9269;23539;13317;87701];
[20173;1;1;3;1;29;17;121;45;91;215;325;2853;1213;10221;7233;34063;21887;142943];
[20186;1;3;3;11;27;53;55;149;107;379;441;585;5697;16353;5613;4323;55315;197603];
[20229;1;3;7;3;31;9;71;175;485;35;675;2091;2351;7985;14207;52687;8559;1067];
[20234;1;1;5;15;29;37;9;73;357;961;489;875;7465;3231;27821;42499;127837;117215];
[20263;1;3;7;7;19;43;75;153;27;291;2039;2661;5513;13429;27307;5305;44771;200621];
[20270;1;1;1;15;5;39;61;107;201;485;319;335;5537;14195;31861;63637;68497;45637];
[20299;1;3;7;7;23;49;95;225;25;933;667;2993;2181;15659;31343;20249;57039;43399];
[20304;1;3;3;7;17;25;29;243;511;91;1409;203;2749;7067;12471;41737;32761;7535];
[20319;1;1;7;9;27;43;63;65;325;817;1127;2039;6171;5867;10593;17205;95913;207417];
[20329;1;1;7;3;3;51;107;153;193;579;593;2915;7641;5157;1131;29793;66579;81903];
[20337;1;1;5;15;19;61;125;107;235;513;1897;875;6341;1817;10631;63905;42993;150699];
[20353;1;1;3;11;27;1;93;107;325;459;1733;2527;4557;2277;19345;8205;67337;242559];
[20401;1;1;7;3;3;45;27;227;201;99;589;1665;4851;2655;9915;41321;59865;71501];
[20434;1;3;1;9;3;25;117;199;125;849;135;1771;4743;13475;23711;17389;52711;200143];
[20436;1;3;1;3;11;23;67;155;133;557;1933;3169;1707;16045;11039;13889;71045;245885];
[20473;1;1;5;9;1;7;99;13;315;251;1289;225;2847;8451;3139;46829;124745;64825];
[20488;1;3;7;13;19;45;87;161;271;401;1995;935;1803;4051;11709;26993;120139;147895];
[20512;1;1;7;5;15;11;47;215;51;1019;2039;3767;929;3845;3939;64077;48115;61845];
[20515;1;1;1;5;1;39;15;77;179;13;1099;203;3363;9071;12033;49159;71137;124177];
[20517;1;3;5;5;1;31;83;219;387;347;1099;925;4423;5081;15981;35881;79131;248301];
[20530;1;3;7;3;25;19;53;43;347;845;1735;3237;2795;2253;2997;43729;122833;124869];
[20571;1;3;5;11;5;19;93;55;297;231;239;3335;253;13607;16769;48879;61439;54827];
[20574;1;3;7;11;11;55;121;73;19;1017;727;579;8011;9559;15051;7895;17609;103061];
[20589;1;1;7;5;19;47;85;195;75;1003;439;3069;2107;12751;26729;2329;1191;86547];
[20592;1;3;3;9;5;31;63;227;481;793;1853;1491;2109;4199;32149;45229;54685;124819];
[20611;1;1;1;3;15;15;41;45;153;429;1691;1897;7253;7239;26133;36527;90319;186097];
[20613;1;3;1;13;15;33;103;113;121;387;177;1943;3181;5483;18515;38807;22655;59787];
[20628;1;1;5;7;15;3;53;155;99;133;579;2129;6881;11091;26715;15485;108071;230881];
[20637;1;1;3;13;25;61;91;81;9;1011;1993;2485;3707;11127;21279;15853;104081;203769];
[20638;1;1;7;3;17;23;37;171;315;247;275;3215;7139;11739;25859;34803;124601;9169];
[20719;1;3;7;9;21;29;97;213;309;865;597;1811;5547;3741;31927;53379;43293;23589];
[20724;1;3;7;9;7;43;107;187;485;977;1329;3037;3701;9667;13581;6283;39221;63841];
[20772;1;1;3;11;3;51;117;45;293;409;689;153;1163;10921;22709;30415;120475;120751];
[20796;1;3;5;15;31;59;57;63;249;763;1627;3039;4309;14115;25489;35009;126609;146041];
[20799;1;1;1;9;3;47;21;183;495;361;1439;407;5757;12645;11425;1923;94511;205127];
[20816;1;3;1;9;15;5;101;107;385;175;791;901;4427;10415;8163;14417;62997;139309];
[20841;1;3;5;3;13;57;9;99;77;123;1607;3643;3879;503;6021;60211;106471;221801];
[20844;1;1;7;5;27;35;11;33;415;387;1461;741;55;15095;21177;5715;109893;204843];
[20862;1;1;1;15;7;49;51;81;157;421;279;1951;6847;10259;31925;60761;12395;49511];
[20865;1;3;7;11;5;33;27;135;247;813;1889;2547;2359;9535;4141;59713;88685;214641];
[20902;1;1;5;15;17;61;99;103;39;151;1033;2743;6639;5271;22059;12681;22763;88255];
[20938;1;1;7;13;5;11;39;139;353;989;1391;169;3709;735;22965;227;103623;153893];
[20957;1;1;7;3;9;51;53;87;411;617;671;681;5057;6003;23137;30881;2289;187133];
[20971;1;1;7;7;17;59;77;219;25;53;145;129;4289;14257;7159;44833;22131;53393];
[20973;1;3;7;1;9;59;79;177;149;637;1641;3713;2709;12321;5691;18239;8617;225979];
[20981;1;1;7;5;9;9;67;51;451;815;295;813;1257;179;28769;57241;51753;164873];
[20982;1;3;1;9;19;61;53;65;29;503;715;1837;7487;16187;27303;54681;98753;100471];
[20985;1;1;3;1;15;51;1;79;179;367;841;1313;797;4777;1369;13317;65059;204877];
[20991;1;3;5;9;15;19;109;45;473;517;1139;15;1997;4245;11169;56417;75017;37957];
[21012;1;1;7;1;3;41;75;95;59;503;1439;2633;3527;5363;24357;43659;10387;208319];
[21022;1;1;5;1;31;7;71;231;505;241;1579;3517;3995;8269;6793;15883;102779;75589];
[21026;1;3;5;1;13;61;87;213;501;307;1629;2715;7245;747;20601;28105;79249;76231];
[21028;1;1;7;11;5;13;69;221;485;59;2027;483;6851;11719;16787;54111;47579;49959];
[21050;1;1;3;15;3;33;57;75;375;45;851;1673;8167;867;32087;34157;96701;72893];
[21075;1;1;3;1;21;31;65;85;181;453;815;3139;205;429;7451;50855;41085;137927];
[21077;1;3;1;9;3;57;99;183;305;991;809;4021;3131;4459;5839;32493;116541;59329];
[21078;1;3;7;1;5;19;3;91;297;715;1081;445;393;12685;4457;61437;103701;75917];
[21106;1;1;7;15;17;39;19;255;247;391;1055;1241;4515;10217;23363;40301;115053;234349];
[21122;1;3;5;1;21;9;33;243;501;793;219;3595;2585;5083;15377;35761;90609;93761];
[21127;1;1;5;13;3;1;5;77;265;525;1107;1879;1119;2277;30557;43547;81947;134075];
[21155;1;1;7;5;11;47;71;83;255;183;515;2591;3933;16025;16727;43421;18725;106675];
[21167;1;3;1;1;5;17;57;209;509;421;1247;3153;1835;8777;13285;27699;34001;186553];
[21169;1;1;3;11;27;19;73;65;179;115;845;2507;7673;14429;10553;4999;82323;247379];
[21204;1;3;7;7;17;59;97;183;407;697;1423;123;6479;3997;729;31587;114383;61673];
[21230;1;1;5;9;21;23;21;153;187;255;125;1469;2639;8099;29689;36415;103959;231621];
[21256;1;1;3;11;19;59;115;205;123;133;1953;3471;2495;329;32385;21931;9691;51405];
[21285;1;3;3;13;7;7;115;65;301;621;1091;2137;5729;5027;21331;24803;114789;142039];
[21312;1;1;7;5;31;19;103;69;503;663;1497;2867;5295;893;15927;37513;94553;72369];
[21329;1;3;3;15;17;33;99;249;277;259;9;99;3073;12017;14847;7685;102499;26489];
[21351;1;1;1;1;5;23;31;45;29;483;1977;1129;6925;2273;16573;53039;90251;137191];
[21372;1;3;1;13;27;47;29;51;473;895;671;3917;6905;15769;9019;28879;120591;220753];
[21376;1;3;1;13;27;29;53;255;507;819;1251;2463;1717;14461;31997;30829;8803;115539];
[21424;1;3;3;15;27;1;109;225;451;409;2025;2701;4121;9949;1551;13625;73577;211549];
[21448;1;1;1;3;23;57;49;35;365;711;2001;997;1853;2913;15667;30255;19535;2171];
[21465;1;1;7;1;21;37;127;3;117;449;1689;1391;1427;12641;15199;23769;66553;34669];
[21495;1;3;7;9;31;45;51;137;181;469;573;89;7257;10991;30705;37827;75071;152885];
[21509;1;3;1;1;19;13;55;223;261;353;1497;183;8173;14421;9977;24095;47215;155189];
[21550;1;1;3;15;15;41;31;105;459;27;299;159;2167;14809;9983;2755;121715;35921];
[21562;1;1;3;7;31;5;85;137;431;849;1479;2681;167;5727;3211;30765;63295;39509];
[21575;1;1;5;7;5;51;21;103;175;927;1115;1507;505;8093;25831;54303;40397;61249];
[21579;1;1;7;3;23;53;49;225;7;425;403;3949;1081;15335;21737;647;107875;236183];
[21582;1;1;5;7;17;21;85;229;325;57;601;2785;6417;5135;17917;12861;97675;115457];
[21600;1;1;3;3;13;23;73;111;385;47;605;1169;1729;2335;18739;61293;41915;237645];
[21615;1;1;1;5;31;11;123;13;465;755;1073;1885;2105;5971;2347;10911;125823;156037];
[21617;1;3;7;11;17;47;3;165;227;355;87;839;7741;12275;28579;25337;87671;224847];
[21624;1;1;5;15;23;33;9;1;257;121;1049;1009;187;9935;26093;21921;130247;240291];
[21633;1;1;3;13;13;27;87;221;27;117;551;2533;7611;5333;14635;9911;37555;250621];
[21636;1;3;7;15;29;39;33;1;495;889;1397;3415;7193;11533;27379;36425;13739;146635];
[21645;1;1;7;11;1;23;85;127;79;989;321;1913;7571;9889;11803;1307;120513;218077];
[21654;1;1;7;5;5;15;35;9;351;973;1455;2043;5527;9431;16059;53915;105785;180579];
[21660;1;1;1;13;13;45;15;41;131;463;1011;3559;6393;4737;6041;33073;60989;56761];
[21667;1;1;3;9;31;35;23;133;33;233;543;957;4913;12441;10293;31611;83383;154551];
[21702;1;3;3;1;29;37;117;247;345;197;1617;3333;7901;8343;55;16529;34627;172703];
[21714;1;1;1;13;23;51;7;219;503;215;375;2275;5467;13953;13987;22735;67505;185977];
[21719;1;3;5;5;29;53;85;147;167;409;853;667;4431;5227;15535;34375;107135;220637];
[21736;1;3;7;7;19;3;73;123;455;539;1735;1423;5337;16311;15469;36071;126437;219249];
[21767;1;1;1;3;19;49;17;133;101;1013;683;869;6267;409;31379;2535;8039;63205];
[21781;1;1;1;13;13;53;25;31;501;629;645;1811;3675;13317;17009;7359;85475;249823];
[21795;1;1;3;11;5;1;41;17;159;361;1439;2083;1425;7221;9117;59543;59285;188615];
[21841;1;3;7;1;11;27;71;121;471;749;1983;3715;6463;5793;1063;18201;189;243751];
[21853;1;3;3;11;19;17;15;175;379;683;1491;2385;6981;1183;16829;2103;9309;46119];
[21867;1;1;7;5;17;39;109;9;279;309;1;1523;4551;3855;13277;36125;54191;45085];
[21878;1;3;5;3;9;59;51;5;431;657;161;2725;2401;9743;12925;43501;51551;163737];
[21891;1;1;5;3;9;13;7;177;121;795;1169;3169;3793;3995;29027;32967;82273;207939];
[21897;1;3;7;13;1;1;31;91;245;775;1589;2263;6303;15787;3111;52553;52507;183971];
[21954;1;3;5;11;15;49;73;191;67;449;1245;2445;5617;8625;27971;35939;76907;76207];
[21956;1;3;1;11;15;47;29;91;437;895;1941;249;2739;15479;29699;7257;39897;65985];
[21965;1;3;5;7;13;23;45;113;297;373;1505;2317;7509;12059;13737;29081;87337;221917];
[21977;1;3;3;3;1;5;13;215;221;461;1337;3569;2257;12135;14685;39721;16723;234791];
[21978;1;1;7;5;11;25;71;103;87;533;779;379;6695;13451;24801;49235;35109;100865];
[21983;1;3;3;15;13;51;27;11;279;847;135;1119;2765;3805;20273;29089;83379;190353];
[22002;1;3;7;5;17;29;111;35;189;273;503;541;6691;9051;10403;7559;54787;25403];
[22013;1;3;5;9;21;29;85;235;223;677;71;1313;6587;10983;199;27721;78627;105505];
[22014;1;3;1;3;13;3;123;115;173;907;1555;1489;2745;6451;25347;24105;66471;181009];
[22054;1;1;7;1;31;15;13;97;511;827;1193;3081;1517;13511;24887;39239;85175;150213];
[22058;1;1;1;5;17;39;121;67;207;877;1885;171;2687;13081;27267;58699;118575;213025];
[22066;1;1;3;9;9;27;101;215;31;37;1629;3631;3225;9667;31547;41939;38683;150805];
[22085;1;3;1;11;11;59;17;15;187;667;747;2193;6749;6019;31805;52433;4141;52613];
[22103;1;3;3;13;9;1;51;101;213;881;899;2197;3017;1591;9271;44017;99893;192005];
[22138;1;3;7;13;23;41;79;83;123;585;49;849;2133;12473;6907;15487;45783;46609];
[22140;1;3;7;13;27;23;71;13;319;903;1123;933;2603;11631;19953;47001;127751;84547];
[22153;1;1;1;15;3;61;79;231;43;217;801;997;6545;13657;25589;30435;49497;1037];
[22164;1;3;3;3;21;29;121;35;129;239;1645;3147;7647;1201;19287;7075;67961;62481];
[22167;1;3;7;7;3;23;45;177;469;897;359;2521;2079;985;14993;56813;20667;187341];
[22189;1;3;5;7;23;53;15;45;297;93;247;1165;2683;5899;7113;14859;22733;173835];
[22202;1;1;3;15;23;17;43;179;103;197;1857;323;267;12417;2343;41527;12243;112023];
[22212;1;3;7;13;7;43;75;19;169;621;735;141;3087;765;5901;34029;117603;5137];
[22234;1;1;3;5;15;17;67;177;371;249;99;1651;3701;343;435;50307;33915;115391];
[22239;1;1;3;13;19;53;69;1;435;71;339;2289;1591;8783;8087;25855;115311;191115];
[22245;1;3;5;11;1;55;59;7;101;655;353;483;5681;12721;15973;51377;94921;246365];
[22272;1;3;5;3;25;23;99;145;277;741;595;2653;1393;2867;271;49131;111973;118869];
[22308;1;1;7;13;11;51;127;27;305;265;1755;3189;4679;9721;24409;46941;94353;95643];
[22318;1;1;5;11;1;63;53;149;459;155;1431;3969;3417;12121;14535;52089;110745;57];
[22320;1;1;5;9;23;33;17;175;313;185;101;531;2941;14999;31413;12103;33709;260555];
[22338;1;1;3;13;3;11;67;95;211;673;23;2379;6985;12101;13021;9255;116437;228877];
[22350;1;1;3;15;7;51;25;109;45;691;869;485;111;11465;27953;54375;10805;221023];
[22374;1;3;7;7;17;53;59;101;221;593;587;873;931;14617;12067;58655;102437;31675];
[22388;1;1;3;15;25;57;35;231;491;671;933;3525;1237;10155;27501;50781;23183;108283];
[22391;1;3;5;5;31;63;117;205;199;841;1455;3901;2127;13573;20667;49489;60217;197421];
[22422;1;1;3;7;15;21;73;211;421;873;607;709;9;10985;28653;64579;118145;3095];
[22426;1;1;1;13;17;53;27;105;201;399;737;3235;1287;13859;6049;62249;88259;52991];
[22441;1;3;7;7;25;45;67;147;275;315;1675;2289;4611;6325;26617;38079;125219;23569];
[22481;1;1;7;7;9;61;115;251;297;691;1881;1815;7229;10859;8257;38097;87927;162845];
[22488;1;3;3;9;9;59;17;207;433;825;93;697;7263;15983;14829;47471;17579;151519];
[22500;1;1;1;11;21;31;7;41;383;731;2033;3417;4187;5515;10093;15875;78551;2057];
[22517;1;3;7;15;5;29;7;171;129;727;1815;1361;6137;10333;22203;361;92437;6545];
[22531;1;1;3;13;25;45;111;69;333;365;765;2755;3485;2729;23467;64809;120755;169279];
[22552;1;1;3;1;19;13;33;165;157;429;1175;3435;7523;5055;12295;34309;36933;164037];
[22574;1;1;3;11;31;49;37;161;465;311;1839;689;6837;13473;29883;61587;86077;156921];
[22579;1;3;3;1;3;23;69;159;501;303;1495;9;6055;545;12247;23413;67247;38137];
[22582;1;1;5;15;5;39;107;121;295;167;1055;2703;147;7291;3981;51989;92953;225987];
[22586;1;3;1;1;21;5;91;129;57;53;365;2497;5017;13535;19305;60447;115467;225317];
[22594;1;3;1;7;25;17;51;15;119;1013;719;991;2655;12587;15749;11723;18461;155937];
[22611;1;3;7;3;25;33;59;135;501;813;235;3775;2781;13137;32673;31643;78881;207651];
[22614;1;1;7;13;27;51;99;189;187;577;941;1275;7297;14731;12599;49049;96439;35093];
[22700;1;3;1;15;9;45;1;149;305;231;935;1377;6345;14795;20969;26263;5711;146949];
[22711;1;1;5;9;5;9;47;127;105;517;671;67;4639;2477;23109;56707;72131;100709];
[22749;1;3;5;3;21;23;7;193;491;197;319;3207;2183;2133;3127;34555;53707;170875];
[22759;1;1;3;9;5;23;109;91;359;913;179;1031;3617;12497;23299;53293;114603;9931];
[22774;1;3;1;5;1;47;73;103;333;483;1015;3085;5229;3171;16539;13493;68957;177645];
[22777;1;1;1;9;27;15;25;255;383;501;831;2463;237;16065;6991;56503;117303;140573];
[22780;1;1;3;5;9;25;15;179;415;729;1163;2649;2907;9591;29129;42775;80537;139897];
[22783;1;1;3;7;31;15;113;1;263;685;1953;1479;5143;8585;9057;61479;122065;191541];
[22785;1;3;1;11;25;47;25;229;463;197;1123;2665;2345;11701;10435;15205;35437;137619];
[22840;1;3;3;5;19;57;89;101;373;283;57;1701;5025;6677;20321;58459;9319;161501];
[22878;1;1;1;13;3;51;111;23;325;813;441;2371;1993;6839;359;9873;33719;208163];
[22884;1;3;1;11;23;53;35;89;91;601;433;1671;1919;2115;6355;10639;87305;194185];
[22888;1;1;5;9;29;31;43;153;209;835;865;2431;1085;9771;14483;19551;98673;146881];
[22927;1;1;7;3;7;33;49;111;111;843;479;2113;4575;14911;5161;7153;37525;217887];
[22941;1;1;7;9;27;5;23;217;11;79;1637;2047;6697;5601;2877;63497;100127;157833];
[22951;1;1;7;11;31;41;91;39;207;185;1163;2115;2963;7605;12597;54175;7221;117129];
[22958;1;3;7;13;9;15;3;47;281;451;1111;3585;4505;9465;8047;45893;27179;124373];
[22980;1;3;5;11;27;29;11;221;483;29;17;1067;6761;39;13419;7263;127547;178951];
[23007;1;3;5;5;19;3;51;155;41;251;851;1191;4445;8337;25339;32931;4743;31883];
[23032;1;3;7;15;9;3;113;151;239;611;381;1141;2865;3071;7293;61997;2891;14533];
[23041;1;3;5;3;15;59;3;37;385;587;837;2483;5493;10571;26129;44835;63425;246953];
[23044;1;3;5;13;9;9;93;11;139;619;581;2859;5481;11941;20661;37463;95369;177009];
[23059;1;1;7;11;7;17;89;7;479;377;1631;509;7429;13733;24011;24191;98409;180761];
[23065;1;3;7;1;5;17;51;113;181;75;1787;2221;6181;16069;3031;32531;107833;239907];
[23072;1;1;5;11;3;25;13;35;311;865;873;1811;3101;4445;18155;18647;55693;144963];
[23137;1;3;7;13;1;9;73;189;255;301;1579;597;6027;15621;27287;14615;76051;143445];
[23144;1;3;1;13;19;59;11;97;501;857;1071;3633;8059;2469;16803;49395;73631;114297];
[23155;1;1;1;5;19;3;59;179;343;745;497;2965;3841;3119;17707;31577;39801;108819];
[23162;1;3;3;9;11;17;19;199;283;229;493;631;8133;1531;25271;11353;114759;70655];
[23167;1;1;7;7;3;11;1;95;167;863;1009;1695;2773;11667;23515;12927;87883;28773];
[23183;1;3;1;15;9;1;31;243;57;349;483;659;1971;7971;23797;4403;83837;239261];
[23192;1;3;7;5;11;17;55;5;209;233;1969;925;695;1321;11965;29849;120519;195105];
[23197;1;3;7;11;9;45;27;9;57;649;1801;2653;1535;45;8901;28755;26475;112341];
[23216;1;1;3;13;11;57;103;213;193;779;541;3685;4191;6105;7199;63659;49673;208361];
[23221;1;3;3;7;15;15;9;207;387;429;1213;1703;5753;10261;8705;62783;9643;248591];
[23228;1;3;3;15;23;17;5;83;295;685;2003;1723;2799;14699;25171;20275;45597;214107];
[23233;1;1;1;15;13;33;111;69;329;273;1303;3377;4151;12547;20411;54845;7839;173939];
[23234;1;1;5;15;25;31;11;75;69;501;1485;3659;3889;9715;9633;45313;112377;27799];
[23251;1;1;3;11;31;27;7;25;315;593;315;275;1453;9429;10023;17939;37651;217435];
[23257;1;3;7;7;27;41;69;95;19;763;1733;2097;6723;7051;15209;53047;56117;87639];
[23258;1;3;7;5;15;61;31;19;361;571;727;405;835;4847;26777;50311;104125;127197];
[23288;1;1;1;11;11;61;59;63;409;219;1135;3385;5583;16143;22709;31247;19871;68557];
[23302;1;3;7;1;11;3;121;41;135;427;1267;2169;507;757;12411;50655;75625;1199];
[23341;1;1;7;5;17;21;89;119;55;395;979;909;1711;3289;8433;9;12743;109027];
[23373;1;1;1;13;5;11;93;35;437;173;1157;2749;6855;8307;26145;22593;125415;65509];
[23402;1;1;5;3;25;27;1;173;113;373;1769;2941;1895;3399;27665;50613;20747;31903];
[23409;1;1;1;1;9;7;53;73;465;725;1537;579;83;925;15507;13595;16927;205087];
[23428;1;1;3;7;7;23;31;127;27;727;1305;3879;817;15995;28607;22695;6367;161587];
[23435;1;3;1;7;29;23;27;117;279;917;1105;2061;7719;13633;16501;33739;71939;143115];
[23440;1;3;7;11;7;27;65;133;411;441;925;1485;2035;3067;14511;58511;120773;228731];
[23449;1;1;3;9;21;55;27;73;175;395;1201;2599;3839;11163;5057;3385;43265;105211];
[23459;1;1;1;3;7;63;91;197;417;763;1391;3729;2791;1975;23655;50611;110315;86879];
[23473;1;3;3;5;31;35;67;67;89;933;1005;1837;5947;2559;27731;25151;102959;81557];
[23500;1;3;3;1;3;39;57;199;87;91;1641;3407;2823;10441;26357;56677;17647;86831];
[23511;1;3;5;7;15;5;49;227;395;837;1707;1677;1907;13101;1929;61701;1479;80671];
[23548;1;1;1;11;17;57;37;151;61;709;2027;2239;3283;5467;17221;40759;91637;258167];
[23560;1;3;5;11;27;29;121;181;503;705;225;1111;7183;3219;3233;2085;113619;32959];
[23563;1;1;7;5;29;31;93;113;457;161;337;2003;1865;13357;19961;51485;62751;111285];
[23594;1;3;1;1;23;25;65;99;11;835;661;3291;2655;1135;19957;5029;110483;2499];
[23601;1;1;1;1;25;21;59;203;471;697;455;1561;3215;609;5097;8715;115705;21441];
[23625;1;1;5;13;27;37;15;175;191;975;977;401;7053;14291;14621;48989;113033;172569];
[23640;1;3;1;1;19;11;125;53;307;421;93;2487;5907;2195;30569;21009;20759;246937];
[23650;1;3;7;3;23;21;103;115;453;537;473;1069;3007;15111;3477;5635;46423;68633];
[23662;1;3;3;1;21;1;49;197;173;775;1877;1309;729;3555;5981;32539;22765;171077];
[23692;1;1;3;13;19;5;75;149;441;665;1567;2433;8173;12639;27479;47221;66203;89017];
[23726;1;1;1;11;1;55;99;119;491;621;619;2521;905;11601;26481;2023;127413;220387];
[23738;1;1;7;11;9;21;57;93;243;229;1445;997;1317;2327;14141;45787;82295;72823];
[23743;1;3;7;3;11;7;115;143;349;507;1047;2573;2491;13351;19019;4857;62781;261261];
[23755;1;1;3;1;1;13;45;227;41;947;693;2853;7459;1485;22087;61195;111771;136389];
[23760;1;1;3;11;13;53;49;15;425;29;681;1493;1385;9555;13291;36735;12351;29293];
[23799;1;1;3;1;5;19;37;45;69;209;365;3949;6163;5207;9297;21147;71437;40487];
[23848;1;3;3;13;31;21;9;177;95;285;1953;1969;7367;7401;12017;9939;11895;213133];
[23859;1;1;7;1;1;63;103;141;39;679;123;2941;4335;199;12237;6599;48641;140063];
[23876;1;3;7;3;31;17;21;77;65;979;109;3325;1781;6983;31477;23149;33943;96137];
[23897;1;3;3;5;21;5;125;117;427;381;511;2643;409;4945;3167;45879;1469;56077];
[23907;1;3;1;5;27;43;83;31;65;645;1205;1387;723;15359;13517;23601;61717;47079];
[23919;1;3;3;13;15;37;101;175;225;513;483;1291;669;5335;16023;287;51819;239803];
[23921;1;3;3;3;3;1;75;175;185;949;673;2239;4355;10687;27093;37409;23193;211819];
[23931;1;1;3;13;21;3;41;55;243;501;285;7;6291;7725;17051;45753;115117;14323];
[23933;1;1;1;5;13;11;51;175;435;673;67;1525;323;5739;19977;62317;97511;130883];
[23943;1;3;5;11;7;11;97;59;295;409;453;2439;5217;10315;469;31187;17325;158079];
[23957;1;1;3;5;31;9;15;63;411;427;277;2687;5021;1507;22453;35559;122081;121669];
[23986;1;3;5;13;3;21;69;51;27;571;1981;2729;5733;1225;26821;43763;57355;169279];
[24020;1;1;1;13;31;37;33;19;313;341;1141;1689;4511;789;15317;61263;79371;65157];
[24043;1;3;3;15;27;41;107;23;499;339;273;1937;2743;10879;27127;64817;1217;45863];
[24064;1;1;5;9;19;43;125;223;473;489;1999;1513;6479;9511;12503;29419;22559;209499];
[24082;1;3;1;13;25;55;53;61;303;337;1325;2525;6503;1155;6841;58167;8175;183949];
[24084;1;3;3;11;3;15;55;105;497;527;1007;3545;4187;8723;12761;20751;101583;225373];
[24088;1;3;3;9;19;59;57;215;313;871;407;2475;879;15147;31945;23939;104073;217619];
[24117;1;1;3;1;27;23;3;43;471;757;1525;3003;2779;6731;12423;59621;72935;192283];
[24149;1;3;1;7;13;23;13;91;95;745;639;2627;4595;11735;4143;23573;98647;171201];
[24165;1;1;1;15;3;61;33;181;351;777;1365;1691;2465;5289;24567;8059;95301;75855];
[24223;1;3;5;13;1;57;57;187;1;601;563;1703;1307;14673;7793;44589;7629;254071];
[24247;1;1;5;13;29;17;61;233;371;909;529;185;127;15773;19529;49271;26749;70869];
[24259;1;1;3;9;21;41;37;71;505;969;301;1667;5879;13187;2461;17301;103673;235133];
[24283;1;3;1;3;9;13;75;63;313;273;1061;3821;539;9887;19775;17259;93133;217245];
[24296;1;3;5;5;21;27;9;11;461;575;507;577;4559;9995;13953;61023;121941;195419];
[24336;1;3;3;7;17;17;45;193;271;571;1337;2107;1923;4791;23773;60923;58085;81219];
[24342;1;3;1;7;11;7;85;33;231;307;993;1509;1427;9545;7919;39775;81145;79139];
[24389;1;3;5;3;9;57;117;187;57;719;1635;2499;6747;6649;22643;16429;83233;122057];
[24394;1;1;3;11;7;39;103;221;167;181;1355;989;3399;9471;10493;57267;106551;158599];
[24414;1;3;1;15;23;19;29;11;355;923;1401;509;3647;5663;2353;53217;70687;145613];
[24424;1;3;3;11;11;5;21;107;177;429;119;1029;5931;7543;15455;62797;118095;35387];
[24441;1;3;5;15;19;53;17;215;279;497;1157;2235;5541;5899;20711;20843;113821;164231];
[24491;1;1;1;15;21;33;67;247;55;573;1863;2703;5267;4071;18235;44659;102379;171529];
[24502;1;3;1;15;5;59;69;189;313;243;339;3097;4999;5909;1903;56143;76209;83073];
[24534;1;3;5;15;11;41;65;207;95;115;1203;3731;6845;11173;8281;40623;97119;218455];
[24540;1;3;7;13;29;57;5;31;255;539;107;953;3707;9233;20295;17459;2005;56193];
[24543;1;1;1;15;5;31;83;165;211;433;1411;2949;4817;1645;1693;9877;118493;142923];
[24549;1;3;1;11;19;61;35;21;159;159;1717;3227;3351;8641;20575;13721;114649;129201];
[24567;1;3;1;13;9;41;17;7;209;501;445;23;7911;5867;30129;643;36363;52037];
[24583;1;3;5;11;31;55;27;81;413;167;599;2231;7055;4013;26729;63927;12075;208123];
[24693;1;1;7;9;11;39;99;187;169;999;609;3647;2497;8969;30919;29145;67699;51601];
[24704;1;3;1;1;11;11;69;29;197;979;1135;869;5435;5151;26349;55911;68051;131849];
[24719;1;1;1;5;27;1;85;145;439;585;1713;677;1833;14139;5547;31265;82223;47605];
[24749;1;3;5;9;17;23;31;199;447;551;683;2977;7839;8681;15923;61057;89875;52945];
[24799;1;1;3;11;9;17;29;125;195;123;1259;2729;3099;2229;9683;13121;105399;111833];
[24830;1;3;1;3;1;47;93;117;461;633;1641;933;7927;13569;483;28159;121561;164325];
[24835;1;3;1;5;21;19;79;183;395;23;767;519;4857;10385;12425;26207;114623;37125];
[24907;1;1;5;5;9;47;67;217;499;843;1539;301;1485;3157;22375;47199;26215;182785];
[24917;1;1;1;13;9;37;87;49;445;681;1097;1049;4093;13167;18447;58243;41797;217929];
[24940;1;1;5;13;13;49;21;149;79;113;1217;921;6321;9345;27987;21723;49249;18813];
[24943;1;3;1;3;15;27;67;69;131;713;1741;1955;5665;8749;11971;11257;13999;124535];
[24958;1;3;1;3;3;11;21;167;441;557;593;3261;3099;2801;21725;23247;106891;129187];
[24962;1;1;1;11;5;55;33;71;505;85;1609;521;5459;12777;13007;255;67537;2877];
[24964;1;1;1;3;31;47;49;119;351;797;1407;4089;2381;12409;12849;23489;53631;119387];
[24968;1;3;5;11;25;11;25;185;85;849;141;385;3663;13133;8451;61463;35129;149933];
[25015;1;3;7;9;23;17;21;197;15;893;939;707;5491;7249;14009;18973;111545;36809];
[25024;1;3;3;13;23;15;19;193;223;627;1529;1963;1003;7199;15361;25233;110281;221761];
[25027;1;3;3;1;17;51;61;215;311;919;349;59;2897;12137;5931;37611;124387;83503];
[25033;1;3;7;9;13;47;53;139;481;733;389;1209;3281;593;29103;61521;41445;11015];
[25041;1;1;1;13;3;31;19;47;151;883;1707;827;2129;4333;871;42967;79701;192211];
[25047;1;3;3;11;11;51;121;241;199;881;1493;2381;5161;13287;8155;52481;120307;206203];
[25057;1;1;1;13;15;37;27;151;17;851;1343;1447;43;10267;18267;21347;129277;83987];
[25082;1;1;3;3;13;17;53;217;253;853;1461;1953;617;4209;9925;377;42789;150415];
[25093;1;3;7;11;13;23;83;235;39;701;1091;25;1807;15431;2169;5339;123679;117053];
[25105;1;3;7;13;3;29;43;149;33;873;1177;1961;7943;11317;30725;55765;50929;12335];
[25112;1;1;3;5;25;1;91;121;295;25;1743;2125;2643;11175;15089;44979;28355;543];
[25117;1;1;1;13;27;27;43;195;377;821;437;3445;2673;15221;15101;25143;22347;218549];
[25131;1;1;3;7;9;51;121;231;91;913;1325;167;8067;8119;9307;33551;58069;170567];
[25139;1;3;7;7;15;7;85;51;11;353;1117;2479;3091;2377;23589;38537;113047;261285];
[25194;1;1;3;5;15;33;61;145;147;815;767;9;2059;11463;1883;8565;101043;117565];
[25204;1;3;5;3;5;49;5;33;15;13;895;3973;7963;3831;26817;10799;111409;90679];
[25244;1;1;5;7;5;51;35;237;217;531;719;2711;1937;16071;23233;22799;66023;145739];
[25247;1;3;5;1;5;63;1;163;9;697;1379;2989;7113;9821;15941;6495;7825;29715];
[25253;1;3;5;7;9;41;113;173;151;963;2019;3531;1133;4287;16917;16929;12345;31201];
[25258;1;3;7;1;25;9;5;195;175;297;717;3725;33;5155;4405;56171;105597;132407];
[25275;1;1;7;7;3;59;115;95;227;951;843;619;7791;10981;11773;57651;108391;179561];
[25320;1;3;3;1;9;3;59;161;417;413;1933;1027;4575;10427;15643;16049;120089;176607];
[25338;1;3;3;3;15;1;83;195;59;859;1669;1063;2069;15875;16459;53741;114521;37641];
[25343;1;1;1;11;11;45;47;143;11;239;1329;865;2693;899;26265;43255;125679;130099];
[25351;1;3;5;3;31;51;95;127;79;167;117;3177;5875;14039;20341;47815;118799;211871];
[25358;1;1;1;1;3;21;65;203;11;565;537;1307;8189;11423;7745;56117;110959;95361];
[25372;1;1;7;7;21;63;63;231;441;127;1943;13;4813;10607;23867;43891;15801;173245];
[25399;1;3;3;5;25;23;123;133;129;303;1993;1453;1109;4649;30315;62399;121575;60069];
[25408;1;3;5;3;29;23;69;141;137;1017;1915;35;3817;6249;22427;7281;88473;230167];
[25432;1;3;7;7;19;37;93;217;287;731;583;3377;2879;4873;5549;52949;127285;211173];
[25442;1;1;5;7;23;41;49;145;277;571;1225;455;2133;1229;25421;20179;70919;242825];
[25462;1;3;5;5;29;3;1;89;413;901;1343;3963;6969;14649;18331;4573;82077;100693];
[25465;1;1;1;13;31;53;107;95;151;539;1593;3763;1007;8959;25235;16461;121819;106143];
[25468;1;1;1;3;11;15;5;157;347;81;2013;2025;6541;12287;1315;23285;23539;75027];
[25482;1;1;5;7;17;11;65;157;93;607;1445;4089;3139;4699;1225;58935;93673;146467];
[25489;1;3;3;13;29;59;69;141;257;463;93;649;8179;15205;6943;45317;31269;70825];
[25490;1;3;5;9;23;39;113;61;315;463;1739;149;6007;2789;12021;969;18551;153669];
[25505;1;1;3;15;19;9;23;211;265;877;325;2635;8131;4957;24371;60975;3887;198927];
[25511;1;1;3;11;29;31;5;105;157;573;2009;1701;1549;1641;17429;13587;48421;8675];
[25512;1;1;5;13;3;13;17;55;101;369;705;3635;5195;10439;12881;21565;1671;75489];
[25552;1;3;3;1;1;23;85;189;347;205;5;3465;3269;3347;10163;26921;86555;9387];
[25555;1;3;7;15;27;21;79;151;279;627;1093;1929;5549;12141;5245;55747;65939;193759];
[25595;1;1;1;5;5;23;57;235;143;129;795;35;4375;12577;871;20879;82811;52279];
[25636;1;3;1;5;11;1;125;99;89;629;857;2631;393;15075;27473;42695;61505;239651];
[25672;1;1;5;1;9;11;55;203;453;677;259;1979;4101;16067;26783;17907;75349;62797];
[25685;1;3;7;5;5;19;85;165;341;405;1779;87;889;265;9851;36175;69697;123769];
[25696;1;3;7;1;7;49;93;57;85;597;183;3253;6301;9307;8753;38133;58743;19621];
[25720;1;1;3;9;1;15;125;215;391;141;87;37;4333;5033;30549;64281;18577;156093];
[25730;1;3;3;15;17;25;29;81;339;865;1619;773;901;8163;22275;57159;119951;137451];
[25735;1;3;5;15;7;57;113;221;13;49;1653;3695;4423;4383;28669;64175;130355;202543];
[25753;1;1;3;9;29;21;19;119;409;717;1853;3981;4489;3985;31205;10423;13223;131973];
[25756;1;1;3;15;29;7;1;85;133;345;317;2363;7803;4975;19441;10497;42059;131531];
[25769;1;1;7;13;3;53;49;27;487;901;801;335;6317;14205;26655;52747;102659;231359];
[25821;1;3;3;3;13;33;113;107;407;499;903;3059;1343;11859;6315;23071;73627;44239];
[25825;1;3;5;15;1;53;59;247;213;981;443;3;615;12067;3881;61759;101219;110407];
[25840;1;3;5;13;7;31;87;161;61;1023;147;2075;7245;9025;7229;60935;104481;169561];
[25860;1;3;1;15;25;17;53;107;311;621;1493;2443;4635;12163;12543;43031;90843;139645];
[25869;1;3;5;11;7;49;91;165;91;329;493;3533;7429;7047;14767;31641;62005;77267];
[25872;1;1;3;9;31;21;19;167;185;199;1989;1093;4213;4769;21659;19685;122123;215233];
[25956;1;3;3;7;27;23;99;205;365;689;1281;419;4207;5355;20245;25029;123029;61499];
[25973;1;3;3;7;19;15;29;185;165;203;1859;2895;6361;6331;13641;42577;33757;41305];
[25994;1;3;5;11;21;43;15;11;425;125;1597;1109;3335;7009;20799;41261;127813;181261];
[26002;1;1;5;5;27;35;35;159;111;1011;1487;813;4985;2555;23741;44675;97159;250477];
[26020;1;3;3;7;17;41;81;187;367;767;1345;205;5797;9129;21973;39911;130131;96891];
[26023;1;3;5;1;1;47;57;177;127;791;1427;1895;5995;12569;32711;58599;55641;80405];
[26041;1;3;3;1;23;13;115;81;511;677;775;3143;4963;7093;15963;59893;22609;137601];
[26044;1;1;5;9;17;17;115;127;397;139;1171;207;3485;15869;465;26267;29957;205459];
[26069;1;3;7;3;9;29;23;189;447;481;753;2415;2669;6007;15201;7317;18861;173759];
[26097;1;3;5;7;13;43;13;163;363;683;1869;1237;2523;3661;13887;5593;91513;220177];
[26113;1;1;1;11;7;11;43;39;319;793;375;3159;7621;8965;25743;351;31873;18115];
[26138;1;1;5;5;11;57;79;147;55;553;417;1365;3979;9789;22677;58645;104549;9019];
[26167;1;1;3;11;17;37;127;5;165;867;79;2259;197;4789;28109;46721;3431;118939];
[26216;1;1;5;13;19;45;113;11;125;351;1753;3201;1697;2567;9717;22247;84309;248583];
[26230;1;1;5;9;5;37;65;47;261;855;1573;2267;7977;13029;32527;59805;103591;180041];
[26243;1;3;3;9;31;5;115;159;111;899;1907;2671;1575;7021;10281;34905;641;63549];
[26245;1;3;5;1;17;61;45;9;375;761;117;1767;4657;12217;12067;42807;118587;72715];
[26263;1;1;1;13;3;3;93;3;351;97;119;1743;81;12761;22529;47191;111315;256501];
[26264;1;1;5;7;29;23;41;9;231;567;1565;3539;7241;11535;7375;10391;127045;9371];
[26269;1;1;1;15;23;47;39;57;73;809;513;3233;8071;8595;13817;821;89091;107173];
[26311;1;1;1;13;13;43;75;239;487;175;1561;3925;3743;14247;15713;55005;116135;199827];
[26346;1;1;3;7;13;15;67;147;77;241;1763;651;1107;4943;15651;23259;45931;34717];
[26354;1;1;3;5;15;15;67;153;163;179;1567;685;3245;2205;8373;56567;32091;23313];
[26365;1;1;7;9;1;27;79;209;263;517;635;3;103;2173;22659;11319;103757;144449];
[26368;1;1;1;5;11;63;21;89;443;775;327;1559;1421;2309;18597;46385;16547;186813];
[26398;1;1;7;9;27;37;43;7;305;117;1103;1801;3349;12225;28215;8857;118677;88909];
[26401;1;3;3;7;15;59;21;19;371;81;755;1565;4823;16363;20301;33571;74423;177205];
[26426;1;1;3;9;15;33;23;31;171;713;271;2437;3609;4271;24355;46283;121767;188501];
[26436;1;1;1;1;21;3;3;241;339;211;443;1577;343;2625;1077;29933;106401;51439];
[26443;1;3;5;15;13;31;11;167;15;101;373;2095;3017;1347;15029;6579;21233;87589];
[26448;1;3;1;3;15;1;61;239;13;867;1621;2275;5757;8275;7923;44469;113513;84927];
[26458;1;1;1;13;23;27;101;25;459;517;127;1131;669;13209;23671;3379;66091;72919];
[26464;1;3;5;7;29;53;25;185;101;707;281;183;2823;7241;3127;48093;20195;208349];
[26476;1;3;3;15;31;11;3;165;453;609;1053;3937;1989;13887;13415;8005;103537;17853];
[26503;1;1;3;7;3;41;13;67;227;265;767;391;1835;8827;13131;42605;117089;12475];
[26504;1;1;7;3;15;31;45;157;261;207;1109;1587;5389;13239;31697;35969;79839;209633];
[26515;1;1;5;9;31;3;35;187;5;945;633;2645;171;2221;18369;41765;82373;8007];
[26531;1;1;7;7;3;57;73;103;245;811;1637;101;6335;9911;663;21779;31681;119141];
[26548;1;1;5;13;27;25;5;203;183;251;1803;665;6295;965;5269;379;78455;7097];
[26570;1;1;5;3;19;55;45;161;481;737;1903;1093;3313;4427;7959;6231;94769;123827];
[26589;1;1;7;11;29;41;77;165;49;875;137;2003;8093;1941;25979;10765;99241;71275];
[26594;1;3;5;3;23;1;89;163;293;701;29;2543;4487;14873;28123;48643;31633;74179];
[26608;1;1;7;1;13;33;33;173;111;959;205;1633;3127;3963;6455;41809;60655;247121];
[26623;1;3;5;13;1;49;87;217;381;125;823;837;3967;8157;11097;35721;93591;3939];
[26678;1;3;7;1;7;27;29;21;295;127;823;2409;1873;2417;27961;39211;14785;71557];
[26690;1;3;1;5;31;59;43;121;217;417;2029;3983;5629;10447;1073;57515;58849;178927];
[26709;1;3;3;11;5;59;45;39;269;483;757;3245;4383;11127;26535;17395;60953;259333];
[26725;1;1;1;5;5;49;81;241;371;353;1293;3375;6725;11891;5973;13901;37999;17751];
[26744;1;3;3;7;31;21;45;107;33;911;1869;2643;2655;3979;5509;33065;128463;246937];
[26763;1;1;1;1;31;33;99;29;485;11;1423;1775;2045;741;30691;53957;13891;57303];
[26765;1;1;7;13;7;37;117;121;51;743;887;1769;1049;12859;1663;27763;90969;38935];
[26768;1;3;5;7;3;41;121;89;461;979;457;2973;8109;13819;30237;54671;66967;135233];
[26784;1;1;7;13;13;47;51;121;295;847;681;1163;8123;14179;26561;54057;74043;146155];
[26802;1;3;3;11;21;15;9;85;445;11;1525;3165;5929;12481;10769;31885;51487;248933];
[26814;1;3;1;9;25;41;59;139;293;1021;2043;967;3949;7309;6545;62761;37761;22395];
[26856;1;3;7;15;25;45;29;75;283;845;687;3285;7263;10237;5343;58635;85137;2387];
[26861;1;1;3;15;29;33;111;175;251;181;709;1373;1661;1155;30479;57823;28809;74117];
[26862;1;3;3;5;11;37;55;155;439;173;1861;1713;1675;12119;12531;50995;124657;58321];
[26894;1;1;5;13;1;23;27;141;3;985;1439;781;7381;2223;26673;46607;54953;24547];
[26908;1;1;5;7;5;3;41;115;503;731;633;3631;3455;15937;22639;41163;65243;233749];
[26915;1;3;1;1;5;57;89;35;53;653;1763;1247;6999;1811;28191;52327;129421;191093];
[26929;1;3;3;9;3;27;107;13;475;409;1623;483;3127;12841;4777;36157;24967;89795];
[26930;1;1;3;5;7;29;15;225;257;923;251;21;4559;3571;9351;1739;37393;170789];
[26939;1;3;7;5;11;7;107;237;343;665;767;2293;4781;4811;11227;25045;3951;44307];
[26941;1;3;7;7;13;31;47;9;121;441;1011;2015;8053;355;13441;23213;60675;259761];
[26987;1;1;5;9;21;61;85;141;271;577;17;243;3049;2479;28947;53351;67379;211133];
[27023;1;1;1;15;23;1;119;141;311;543;1463;3633;8111;9439;4147;64913;28261;197217];
[27066;1;3;1;15;15;33;125;231;225;797;605;259;3673;10423;7541;26289;61681;136463];
[27079;1;3;1;13;23;15;15;151;289;657;1883;2923;6861;1411;17159;9353;79463;135813];
[27086;1;3;7;11;5;59;101;167;291;63;753;1105;8173;2389;22097;7207;110377;15797];
[27091;1;3;7;15;7;9;7;135;303;675;1803;2827;1711;9543;16567;24075;17065;22193];
[27113;1;3;5;7;17;7;125;57;423;733;1813;4031;713;10687;27315;37599;78807;103429];
[27157;1;1;5;15;21;11;87;21;415;571;1169;2561;7071;12499;195;20111;116757;157731];
[27174;1;3;3;15;7;33;11;241;23;189;599;2891;2829;13327;21777;57733;38583;162161];
[27188;1;1;1;15;3;49;7;143;291;301;1439;793;3447;1167;2815;24875;117437;112561];
[27191;1;3;5;13;29;11;51;255;365;741;1919;2091;2865;12721;4329;37281;128703;739];
[27197;1;1;1;13;19;31;39;141;81;133;297;3837;7537;16043;11755;10289;74399;95371];
[27206;1;1;7;5;21;35;125;109;241;217;1219;2617;1925;9573;19305;44689;89365;248869];
[27210;1;3;5;5;13;33;43;221;325;267;837;809;6025;9847;9267;13465;45937;204339];
[27245;1;3;1;3;25;53;85;249;105;619;917;1213;5365;6197;22929;27529;71011;141651];
[27254;1;1;5;1;29;9;27;161;269;775;1043;303;4503;5059;479;17237;51383;152495];
[27383;1;3;1;5;19;5;127;139;1;461;943;593;7457;3357;1909;64633;91811;92703];
[27387;1;1;5;7;1;21;83;29;123;83;1085;2727;651;15801;20561;34821;17671;162227];
[27416;1;3;7;1;19;59;33;195;81;69;51;1473;3873;4247;3587;4293;30831;245345];
[27422;1;3;1;3;23;27;19;115;275;293;705;131;1001;8881;30165;25149;38679;175167];
[27472;1;1;3;15;11;11;79;55;323;217;859;897;6567;12529;3161;13009;100787;3501];
[27478;1;3;1;15;17;63;51;71;55;207;1095;2527;611;9281;7375;14553;16021;88537];
[27548;1;1;7;9;11;23;95;25;327;873;575;3583;6587;137;23737;59341;83281;93541];
[27579;1;1;5;7;15;37;89;105;471;757;103;3747;3565;4957;23537;16193;84843;256757];
[27582;1;3;5;1;15;17;119;231;387;715;797;3807;4985;8335;4885;45541;69597;238599];
[27589;1;1;3;1;7;21;87;205;39;503;433;3643;4719;2051;10049;28997;75981;253647];
[27593;1;3;1;13;9;21;103;63;27;267;185;3507;3009;5183;2261;40249;33733;70493];
[27613;1;1;3;13;7;7;79;13;141;327;1035;1699;6273;5621;13877;57607;50207;184643];
[27649;1;1;3;1;9;19;75;99;115;469;1025;1999;1985;9975;11069;59113;80877;124153];
[27717;1;3;5;7;19;27;47;3;313;575;107;991;2575;11001;12323;21443;126245;219649];
[27729;1;1;1;5;19;33;13;1;357;225;1355;1827;7127;6387;19299;24935;26847;251433];
[27751;1;1;1;5;3;3;113;19;425;209;159;347;1349;6771;13125;8393;21435;186369];
[27757;1;1;5;11;5;39;95;3;193;741;1755;3361;1927;12909;5413;29111;123429;109191];
[27766;1;1;1;13;31;23;43;163;421;719;457;3149;7741;1465;15719;42831;99051;164675];
[27791;1;1;1;7;15;1;29;15;9;577;269;31;4361;5081;32185;54869;115105;151233];
[27794;1;1;1;11;19;3;67;3;377;487;1287;3463;6523;15237;3171;38673;7359;29739];
[27854;1;3;5;11;9;13;47;191;97;641;807;1085;1537;2855;24615;32383;66425;53713];
[27856;1;1;5;7;19;25;93;1;21;853;813;2535;4291;9051;3385;507;73889;85397];
[27866;1;1;3;13;7;15;103;199;83;585;1859;2089;839;8923;14615;3399;7703;229937];
[27875;1;1;3;3;11;23;125;135;475;613;327;339;3081;13221;4889;41233;36547;195357];
[27902;1;3;7;7;19;23;85;217;501;447;1873;2175;6753;2825;5171;47561;13321;59583];
[27916;1;1;5;13;23;59;109;195;487;785;21;1595;5641;10103;8115;60647;78425;237379];
[27924;1;1;3;15;21;17;85;51;369;475;1021;1129;7233;6593;12467;55399;128157;80539];
[27933;1;3;3;9;31;27;69;145;489;251;1997;1157;2027;16109;4085;24859;63561;79591];
[27940;1;3;3;5;29;49;41;185;405;471;431;3539;6593;1185;24383;17009;111215;79839];
[27947;1;1;7;3;3;15;97;157;301;227;717;3291;2471;11515;30657;30745;72147;98653];
[27969;1;3;5;1;23;21;67;223;185;385;137;2897;2423;6119;28471;52269;95725;9105];
[27981;1;3;3;11;19;1;111;131;293;495;1043;631;1375;15347;22029;29163;120025;81631];
[27996;1;1;7;5;17;55;47;183;367;81;555;2857;4787;5605;32053;11815;81771;234993];
[28005;1;3;7;15;15;49;45;221;49;299;887;3991;2097;10819;23297;1823;11319;205273];
[28030;1;1;1;1;1;15;91;253;213;849;501;1073;5503;1379;28887;51811;109763;226149];
[28064;1;1;1;7;27;39;17;29;359;655;1695;1781;1203;1125;8983;3477;13925;218399];
[28102;1;3;7;13;1;25;33;185;87;19;151;371;1221;4859;20103;11435;104263;218515];
[28108;1;1;3;5;17;43;29;149;207;39;1539;2933;6825;12391;18163;24543;35305;196295];
[28120;1;3;7;9;21;61;69;231;401;95;1757;839;3395;7573;6583;34621;119303;20767];
[28125;1;1;7;1;25;53;63;105;241;591;23;3219;2387;13945;3047;30939;63243;60941];
[28130;1;1;5;7;25;47;7;227;57;279;81;4017;3117;6229;20029;30031;25049;102291];
[28142;1;3;3;1;21;15;69;57;311;9;853;3377;2949;4781;15419;54741;11603;136821];
[28149;1;3;3;13;13;5;103;253;27;449;821;3241;41;6643;15217;61691;58463;46117];
[28165;1;1;7;7;27;51;1;239;71;955;145;1059;5645;7025;4839;11459;3051;235989];
[28169;1;1;5;15;15;13;33;21;209;681;1163;3109;1441;6895;20829;48769;35373;195171];
[28177;1;1;7;3;11;7;25;27;463;77;1293;1977;4931;8089;11079;14793;123049;32259];
[28211;1;3;1;15;11;49;7;103;79;773;235;1653;6477;8835;26627;61101;40633;98155];
[28213;1;3;5;7;3;53;77;197;49;57;1533;3485;6603;1131;9073;37023;85293;170883];
[28220;1;3;7;15;23;5;125;75;413;521;1897;1099;35;2013;687;51511;21359;19995];
[28261;1;3;1;11;19;13;91;181;39;613;1917;3149;669;9927;20967;38313;13537;181873];
[28271;1;3;5;7;5;23;25;145;189;679;483;2689;2855;9631;8863;34841;83311;211507];
[28299;1;3;5;15;15;15;87;53;309;807;1405;259;3181;12187;31529;8861;70557;247787];
[28326;1;1;7;13;7;15;1;205;91;325;1371;531;4917;10291;30827;32491;34497;250301];
[28330;1;3;1;11;29;17;97;37;259;1021;1705;4001;4385;7047;14593;63443;3283;18195];
[28350;1;1;7;9;9;55;11;113;351;513;197;873;1595;11331;27711;419;73097;144357];
[28355;1;3;7;15;29;31;37;15;233;573;1457;293;5437;15909;3087;24535;6507;173555];
[28367;1;1;1;7;7;47;81;241;257;389;233;3275;919;14911;14473;58457;78195;121421];
[28376;1;3;7;13;1;63;9;233;231;771;1851;3829;7089;4573;13297;58963;2065;8365];
[28379;1;1;5;1;31;45;45;209;77;977;159;1521;969;10115;32387;52821;124209;51841];
[28381;1;3;5;5;13;27;53;171;91;743;217;3805;7721;15127;20679;57459;53649;16381];
[28447;1;3;1;15;23;43;105;169;143;759;463;1237;3311;2919;16675;53049;12403;153651];
[28465;1;3;3;11;5;27;1;135;17;683;679;2591;2929;12417;18379;61903;81991;25231];
[28471;1;1;1;5;13;59;73;119;369;445;553;243;7523;1105;20349;8417;87535;148857];
[28472;1;3;7;15;29;3;49;49;7;753;1597;1427;7485;9119;17427;24961;114897;62841];
[28478;1;1;7;7;17;35;49;225;267;801;1359;2131;6093;3859;11305;6287;106459;31093];
[28480;1;1;5;3;1;45;19;89;145;23;1071;3053;3463;6781;8635;1961;54403;183401];
[28489;1;3;1;13;17;35;105;155;145;597;1169;3731;725;2185;23365;31849;113717;185413];
[28514;1;3;3;5;3;5;13;119;39;383;1595;63;7003;6465;19847;37213;42921;254479];
[28525;1;3;3;1;3;33;43;255;227;151;1911;2657;6529;3855;24411;8485;30385;193265];
[28537;1;1;7;7;21;53;101;37;193;107;1095;369;6423;3491;1219;53385;31041;122587];
[28550;1;1;7;3;13;39;101;109;113;201;619;2489;4545;5017;25519;44281;128605;128595];
[28559;1;1;3;13;25;7;99;141;465;625;667;1633;6719;16195;365;34355;65025;128025];
[28595;1;1;1;7;15;51;43;159;223;493;411;65;5753;10219;21885;33267;116643;76777];
[28601;1;3;5;13;25;39;97;31;245;367;685;103;4093;10449;3849;52659;63355;262059];
[28629;1;3;3;1;9;49;25;157;107;821;265;2939;6365;7539;17935;50147;88907;214317];
[28657;1;1;1;13;17;5;55;217;137;915;121;3187;3111;7145;30477;20023;71969;179417];
[28667;1;1;1;5;7;15;47;71;197;725;523;2207;5729;741;8595;39125;25431;101093];
[28711;1;3;1;7;19;37;117;235;353;459;207;953;4955;14979;22897;53911;7783;203667];
[28718;1;1;5;13;9;17;21;95;37;751;1463;2491;791;1569;32055;61415;113885;259285];
[28730;1;1;3;11;1;23;5;73;61;719;215;469;3267;12003;16535;46913;58321;2407];
[28732;1;1;5;11;5;9;81;1;275;877;791;1591;2109;9983;29085;15069;44757;17887];
[28777;1;3;7;11;23;47;121;53;55;677;1239;2591;579;11321;14231;53701;71947;56793];
[28801;1;1;5;1;7;31;39;205;231;843;159;2301;7765;3317;8935;60647;110545;142543];
[28822;1;3;3;11;25;39;9;131;145;373;41;1687;417;9427;8657;18315;18505;144055];
[28855;1;3;7;3;1;51;61;223;409;607;1281;1767;4719;10741;21537;17307;5473;76127];
[28859;1;1;1;1;1;43;35;157;183;835;1141;3235;1383;11381;4503;20435;73125;196955];
[28869;1;1;5;7;13;47;9;191;349;587;1887;3667;619;9443;28781;7759;6023;81595];
[28893;1;3;5;9;31;27;77;47;375;229;989;1241;4937;5881;18797;21743;49947;246165];
[28904;1;1;5;1;29;23;43;237;293;391;243;3471;5205;9951;29329;19873;114325;19239];
[28922;1;3;3;5;19;49;23;149;419;23;21;515;3321;3157;28559;8521;11119;192881];
[28930;1;3;1;9;29;17;15;13;171;57;1849;3815;7361;7723;23657;60883;54953;159861];
[28949;1;1;3;5;13;57;35;227;143;725;2023;2583;2277;4721;4395;61479;112487;211861];
[28972;1;1;5;7;7;25;83;95;281;931;415;1661;1543;5313;13317;21203;23965;60891];
[29002;1;3;3;1;25;51;65;147;7;521;235;2165;6219;14247;30621;43245;8133;49481];
[29009;1;1;5;11;13;27;39;51;213;811;151;1157;7821;6481;32097;12319;52005;33291];
[29061;1;1;1;13;19;15;39;205;481;253;1643;2969;3181;13995;29877;1307;101721;119111];
[29068;1;1;1;11;5;63;57;53;187;315;1521;847;5955;3179;21459;25937;83215;181599];
[29107;1;1;7;13;17;35;113;73;105;497;1183;3397;4443;14697;29201;40737;40943;3529];
[29119;1;3;5;5;3;53;101;125;173;137;333;381;1143;1165;789;50013;23595;50235];
[29142;1;1;3;1;23;3;21;143;475;337;1693;2341;6509;4167;21031;13887;83191;85187];
[29146;1;1;3;1;29;59;39;217;77;943;1531;383;6535;2593;8601;61865;26629;57313];
[29152;1;3;5;15;17;15;19;31;273;507;1193;2501;4677;13355;5287;1155;102959;185219];
[29200;1;1;1;9;3;3;5;111;159;913;331;303;3673;12227;5245;63749;107123;26315];
[29206;1;3;5;11;13;13;115;237;481;793;1783;1107;4811;3965;29571;63237;15013;176925];
[29245;1;1;7;1;13;57;85;15;19;889;1637;1721;6299;6659;5541;24365;38363;67749];
[29254;1;1;3;1;9;39;15;183;133;821;1361;2617;7197;8251;12599;60549;42947;72519];
[29258;1;3;1;5;19;17;69;189;309;33;2003;569;6189;7845;22351;14623;35287;160511];
[29260;1;1;7;13;25;3;1;203;163;661;513;3513;741;16259;29817;6059;23823;51869];
[29268;1;3;3;1;9;43;59;77;465;223;2007;2187;1499;9373;10535;22207;111689;108485];
[29281;1;1;5;15;1;21;87;163;177;751;115;3981;4257;5345;31211;44075;16983;69783];
[29306;1;1;1;3;29;31;7;41;181;979;1661;1403;2577;983;545;6205;20183;44735];
[29317;1;3;3;15;5;1;85;243;59;161;1053;803;1813;13583;2559;62761;105337;83209];
[29324;1;3;3;3;5;21;101;61;379;369;1865;3289;2643;951;26493;17915;8185;42387];
[29342;1;3;5;15;15;13;119;103;141;735;1317;3345;2885;4145;30719;965;10819;90295];
[29375;1;3;7;13;15;11;19;163;495;369;1285;609;1559;9965;31123;55101;76743;104435];
[29384;1;1;5;1;25;5;5;139;441;447;353;1369;959;14593;30991;20651;126945;2219];
[29389;1;3;5;9;21;9;113;83;115;15;161;1559;3095;1447;10253;51481;114541;248375];
[29411;1;3;3;1;31;61;111;69;495;195;1153;2605;5061;15509;8253;41909;126033;51173];
[29413;1;1;7;15;15;41;121;75;471;539;341;441;5357;11509;32525;65477;101251;164835];
[29446;1;1;5;7;3;63;13;123;285;499;1023;3533;483;13747;26515;52381;9073;256319];
[29457;1;3;1;13;29;41;75;43;229;557;1775;1933;5567;11439;22045;10571;96761;98559];
[29458;1;1;3;11;19;39;3;93;435;433;2005;1561;385;15865;19763;44105;48107;163063];
[29483;1;1;7;5;29;37;53;19;335;325;133;2055;3029;14573;30395;38599;97637;203443];
[29488;1;1;7;15;29;51;7;145;21;955;1013;579;4971;4849;11691;23725;71079;102641];
[29494;1;1;7;3;9;49;79;187;237;823;1951;2947;3633;9119;14393;52969;44703;222389];
[29506;1;3;5;11;13;9;13;245;499;661;1899;1313;6907;12259;4577;38547;79687;17555];
[29553;1;3;3;1;5;59;123;197;293;247;687;695;7493;3115;28535;44335;31905;81607];
[29569;1;3;1;3;19;5;45;101;457;395;565;3155;8081;4863;1199;32133;73087;27025];
[29587;1;3;7;1;31;35;111;95;379;663;731;1813;4551;13105;18275;19729;121971;139959];
[29590;1;1;7;3;23;47;11;117;323;943;183;2169;4625;12931;1305;23345;119521;67911];
[29600;1;1;1;13;19;45;37;77;301;741;747;241;5865;11141;7961;10609;97833;256555];
[29612;1;1;1;11;27;21;119;103;277;761;201;2063;1043;13303;6535;15553;57695;124187];
[29665;1;3;7;3;1;11;79;143;345;237;1421;193;1889;2515;11729;559;35227;9393];
[29722;1;3;1;1;27;27;117;159;183;871;47;989;999;303;30833;8229;116301;199439];
[29745;1;1;1;1;31;27;41;83;435;409;999;2275;4489;1985;21455;23275;125039;192979];
[29746;1;3;7;3;19;49;27;185;9;385;191;735;3439;16307;21181;58749;128393;140383];
[29752;1;3;7;3;15;5;65;89;11;915;673;947;3847;6833;10095;34261;101645;42131];
[29775;1;3;5;11;11;25;79;225;495;951;1033;5;699;9621;1791;48221;59275;49875];
[29778;1;3;7;13;29;59;105;101;233;901;863;413;2087;16209;445;27463;61465;121795];
[29800;1;1;1;11;5;19;11;51;503;313;195;3;7249;4919;11931;15569;118297;115989];
[29829;1;3;3;13;13;61;63;57;429;487;2033;847;7539;1469;3197;1307;124557;211999];
[29830;1;3;7;13;25;27;39;103;165;39;1587;3103;1745;12593;10779;37105;29059;256739];
[29877;1;3;3;9;25;51;105;109;99;267;623;1351;3837;793;28609;52199;15621;77873];
[29881;1;1;3;7;29;61;45;237;431;791;91;1259;8071;11103;27257;10153;18639;248949];
[29884;1;1;1;9;15;47;113;189;291;837;1317;2263;7183;6669;17241;35275;9087;241577];
[29895;1;1;3;1;15;59;85;21;69;569;1473;2735;713;3817;14677;26897;75291;251255];
[29899;1;1;1;7;17;21;105;77;367;905;513;1807;5571;14627;10349;47821;34395;51143];
[29916;1;3;7;13;27;19;123;145;371;857;1699;2231;373;781;28713;21441;64059;10689];
[29923;1;1;1;7;19;57;81;223;87;315;1253;421;1371;1547;1411;6809;23889;213385];
[29935;1;3;1;5;23;57;89;15;227;965;1247;3861;7723;15621;7151;53961;47167;73679];
[29955;1;3;7;15;31;21;9;79;87;561;1001;3395;2095;15381;30725;48111;68031;121687];
[29962;1;3;1;9;15;29;83;87;377;331;2035;93;2319;3637;4809;40091;93141;39881];
[29969;1;3;3;11;21;39;27;159;161;439;1417;595;4873;15703;32743;56603;35881;160727];
[29997;1;1;3;5;21;37;55;159;497;425;469;1185;5015;7045;7179;65325;97167;75723];
[30032;1;3;1;7;31;21;125;223;479;765;1115;33;2765;12781;22923;36051;103749;33703];
[30041;1;1;7;1;9;3;29;125;337;973;253;3179;3269;8801;19369;20693;17331;190295];
[30048;1;1;3;3;13;5;115;31;481;45;855;81;3663;10443;13853;29847;99471;249943];
[30060;1;1;3;7;3;1;47;31;169;625;201;2257;4617;1633;26681;53793;78257;8955];
[30063;1;1;5;1;23;3;95;89;429;559;119;2619;1235;7609;21905;45495;19461;189091];
[30105;1;3;5;5;11;33;123;45;89;899;1607;3717;6745;15199;22955;15891;50411;148201];
[30122;1;3;5;9;19;23;87;21;39;117;603;823;3015;14853;4341;49029;97183;218713];
[30141;1;1;3;7;11;55;31;255;399;861;745;1013;4583;15871;32453;25357;90645;100835];
[30142;1;1;1;11;13;27;57;233;45;339;305;3689;5273;11801;29109;44139;83171;250559];
[30153;1;3;7;13;19;1;29;113;207;313;1465;3563;2535;3307;14921;1923;31429;59815];
[30171;1;3;1;5;29;25;59;95;177;795;353;3973;8029;1687;5045;16157;30361;218479];
[30192;1;3;5;3;5;27;109;239;121;347;93;1645;3293;13181;23793;42935;98659;85385];
[30197;1;1;7;9;9;37;127;211;77;557;177;2465;7895;5523;26665;23463;71715;126673];
[30223;1;3;7;1;27;55;125;85;47;739;1513;3763;5335;3135;11913;22405;90785;88845];
[30235;1;3;3;9;29;21;123;211;491;83;697;929;3507;7139;30569;16365;122657;77523];
[30241;1;3;5;5;27;21;41;129;67;503;877;1893;6055;12709;24613;43831;124035;62631];
[30256;1;3;3;1;21;15;59;185;405;487;627;3737;345;14751;2947;15815;55047;207137];
[30291;1;1;1;9;15;29;19;155;101;405;597;329;2977;4333;5465;43863;6009;229481];
[30293;1;1;1;11;7;27;93;207;43;599;1899;3979;4219;10199;2901;34261;19435;58317];
[30300;1;1;7;15;9;47;33;209;235;655;253;3507;3355;1685;7045;58907;41791;175835];
[30331;1;3;3;11;11;43;21;255;45;831;1051;1271;7945;9793;11125;17709;118267;169981];
[30349;1;3;7;13;27;37;45;221;243;37;1493;2773;6655;7451;22609;56559;12063;221143];
[30361;1;3;1;1;9;15;97;61;241;825;735;3953;5331;16373;19403;28933;31881;111545];
[30367;1;1;1;15;29;1;127;111;329;741;1589;1653;5949;8703;27617;65285;122167;11895];
[30392;1;1;3;3;17;31;91;197;421;865;1901;897;6917;15943;12823;15325;17011;110783];
[30405;1;1;3;15;21;57;29;179;503;929;1513;205;6083;4015;32517;26921;54229;147789];
[30410;1;1;7;15;27;21;95;59;193;97;1235;819;4435;371;627;24673;1775;261041];
[30415;1;1;7;15;3;37;99;85;505;1011;19;1241;5299;15661;27323;44625;12683;225687];
[30439;1;1;7;3;25;37;111;121;217;659;365;2627;5499;12911;951;54317;51927;235327];
[30446;1;1;3;9;29;31;99;195;427;735;1817;3675;4269;1579;12593;39285;74909;230613];
[30501;1;3;1;13;7;21;37;101;111;931;1581;465;4753;15607;14515;29769;107711;32703];
[30526;1;1;7;15;25;57;117;119;309;345;491;3647;2933;5409;15431;43731;25537;17269];
[30531;1;1;5;3;15;9;83;221;501;675;1441;129;213;5587;22361;16739;118845;192835];
[30537;1;3;7;13;1;31;75;23;13;447;687;2711;7577;8275;5051;61835;22159;56477];
[30546;1;1;3;1;23;19;111;45;395;841;1665;21;7435;12457;11065;20007;48785;15115];
[30568;1;3;7;7;21;3;117;35;117;433;561;3045;2169;3255;18015;41093;99699;3479];
[30581;1;1;3;7;9;59;65;143;315;63;29;3817;1259;7119;20847;44407;80015;37851];
[30588;1;3;7;13;13;33;85;75;39;163;1759;1197;5971;8815;8745;45625;121873;246197];
[30598;1;1;1;13;31;41;61;7;145;113;943;3757;2141;3523;22351;14143;107683;105579];
[30607;1;1;5;5;23;27;75;77;25;901;1295;3091;981;10109;12649;15123;102433;145557];
[30609;1;1;7;5;9;11;19;229;301;835;1577;3365;425;2271;15647;11685;57315;131043];
[30616;1;3;1;13;31;3;113;7;473;395;1979;61;4205;2031;28007;34789;54463;94741];
[30626;1;1;3;5;7;13;35;151;461;621;185;2645;907;9151;25953;26363;105531;235555];
[30628;1;3;3;13;21;5;43;183;149;607;509;777;4089;16365;32201;60431;58773;92719];
[30638;1;3;3;11;25;53;103;203;269;1017;77;3537;4839;15991;29223;57397;122735;67299];
[30658;1;3;3;1;29;45;85;171;307;455;1399;2367;5991;5751;27957;36649;9251;38581];
[30663;1;1;5;13;29;15;127;1;175;921;671;2469;3137;3679;32521;5321;92505;45901];
[30675;1;3;3;11;23;23;113;255;443;609;1085;133;5369;885;17043;20961;36137;260457];
[30698;1;3;3;9;13;55;117;19;111;323;275;495;6679;2217;12015;3053;32745;189413];
[30708;1;3;5;13;31;43;37;225;67;755;1427;3967;6497;9987;28145;50583;59457;213217];
[30712;1;3;1;15;1;5;121;249;293;695;1697;313;61;4037;11757;53739;5693;106225];
[30727;1;1;7;1;23;9;111;211;303;147;1291;3807;1969;4115;7473;50077;60745;41605];
[30736;1;3;3;15;21;51;63;171;197;403;1327;1851;6991;9069;19221;45765;55489;34853];
[30748;1;1;5;3;5;53;87;241;255;309;1319;3727;3189;10887;13401;32371;24479;170571];
[30758;1;1;7;11;5;5;59;177;317;835;527;165;2137;9597;30181;1779;75407;185827];
[30775;1;3;3;7;25;15;15;183;235;955;27;2223;5587;11301;17653;56697;70787;198347];
[30793;1;3;5;5;11;63;123;41;169;975;1709;2965;7491;4183;15217;41343;36139;9649];
[30802;1;1;3;7;5;37;87;247;379;603;781;463;8063;13681;32005;43485;107401;42303];
[30820;1;3;5;9;19;53;61;219;217;361;769;1687;5643;3145;12885;40303;86377;255051];
[30823;1;1;7;11;15;49;127;99;127;515;647;1725;1605;2357;2069;31803;14179;180367];
[30827;1;3;5;15;9;7;41;3;49;485;1471;207;6477;4463;12255;53481;110785;909];
[30848;1;1;5;9;23;51;107;227;205;987;1525;2739;6761;12343;32311;12523;93351;29663];
[30893;1;3;5;11;21;19;53;169;197;21;825;4029;6733;8943;13475;60677;31001;242291];
[30906;1;3;7;13;9;27;87;37;265;877;735;2249;4801;2365;16923;40451;29693;222483];
[30950;1;1;3;9;31;61;71;103;215;421;193;3451;6181;4271;30875;59573;80773;100369];
[30956;1;1;3;13;17;55;73;191;233;821;961;1637;2393;3453;25959;5069;114585;186001];
[30996;1;1;7;5;15;27;39;23;69;811;709;2349;6011;803;12497;7387;62023;247875];
[31015;1;1;5;13;29;55;51;41;121;599;1633;3813;1913;3803;26097;53799;30997;261965];
[31016;1;1;1;11;31;25;19;195;87;657;1005;3853;61;6585;24665;38283;5495;257201];
[31034;1;1;1;11;23;43;91;121;49;491;1443;1873;7689;15957;30463;64079;100003;325];
[31099;1;1;7;1;25;51;27;105;119;233;513;3403;2647;2847;12687;15619;71225;243759];
[31123;1;1;7;3;17;49;19;123;307;463;1619;1853;7019;2605;17351;7971;20675;235929];
[31145;1;1;5;3;17;29;71;215;365;955;1631;3549;1379;13881;25409;55703;29863;135401];
[31166;1;3;7;15;3;27;107;149;65;681;505;3957;6697;11203;9321;63323;98587;199241];
[31168;1;1;1;13;27;41;59;223;431;339;1805;899;639;6559;13233;4773;37415;110477];
[31174;1;3;7;9;1;59;79;161;311;905;1755;3915;6259;8955;14187;11331;86185;209805];
[31216;1;1;7;9;5;27;75;93;285;89;891;3341;1157;11219;8883;8093;68949;189643];
[31219;1;3;1;5;1;43;97;71;67;605;739;1641;4415;4487;13437;12755;121595;55761];
[31238;1;1;1;3;1;13;61;77;297;507;1527;3585;4515;13913;7679;28461;61807;196517];
[31256;1;1;1;3;21;23;101;135;59;485;1601;3713;7409;349;16543;18897;97253;149055];
[31304;1;1;1;13;5;37;15;37;109;1005;363;1925;2701;13169;17027;58453;27667;234027];
[31315;1;1;7;1;1;41;67;231;143;951;2023;3465;1717;645;17353;9037;129127;199467];
[31324;1;1;1;11;27;29;65;139;425;947;141;2601;7339;4451;25065;62691;62355;91819];
[31364;1;3;7;15;29;29;93;25;139;267;1319;3839;7295;11855;17775;30199;44127;150875];
[31379;1;3;5;1;3;55;23;191;199;583;1167;1357;6477;11827;15581;56541;16603;120139];
[31382;1;1;1;3;5;47;103;211;443;491;1043;4001;121;1637;5685;42675;13009;22979];
[31412;1;1;1;9;21;7;77;17;303;955;51;2389;3573;8817;28053;40269;35457;211023];
[31451;1;3;5;15;3;39;17;75;223;37;1231;2127;3575;9085;10715;41871;103703;154181];
[31487;1;3;3;15;25;31;31;223;473;267;1519;3205;7029;10753;24757;28187;117921;26783];
[31509;1;3;7;1;5;21;105;191;55;115;1813;3701;1673;4199;2441;19737;46913;208725];
[31510;1;1;5;5;19;63;89;141;143;783;545;883;2979;9219;24983;41793;88441;207095];
[31520;1;1;1;9;21;21;93;161;93;733;417;3133;8155;12415;16343;11727;82877;94469];
[31535;1;1;5;15;5;39;33;203;213;731;1849;1675;6029;2743;1529;16345;13955;54929];
[31564;1;1;7;7;23;47;121;211;271;737;1015;1021;5641;12659;27545;52363;104761;150143];
[31585;1;3;1;11;11;51;79;141;255;1007;481;3221;7741;6861;24943;63091;46741;33359];
[31586;1;1;3;3;27;47;85;27;423;811;75;3911;1951;10821;7487;18971;83355;197479];
[31600;1;1;5;5;1;63;125;251;457;795;557;217;2335;5659;18375;52183;9789;31417];
[31643;1;3;3;3;19;61;41;129;345;361;187;3881;43;7197;7673;25011;115155;16375];
[31646;1;3;3;7;13;7;55;91;153;341;2003;2013;6891;2411;14825;39555;50267;61405];
[31649;1;3;5;7;13;57;21;91;331;615;1297;2881;2011;1907;16489;43061;75731;76675];
[31650;1;1;5;5;25;15;77;175;101;885;835;529;2787;547;20191;50457;58557;61807];
[31674;1;3;7;1;13;47;101;117;179;245;861;611;4377;5257;12807;26667;19889;112485];
[31679;1;3;7;1;27;3;23;109;197;187;963;1827;5741;11921;6359;3989;108939;5761];
[31684;1;1;7;5;27;7;119;159;53;969;557;597;7821;7121;17341;11233;10811;23969];
[31688;1;1;3;13;23;55;75;131;339;917;317;2645;5973;9939;26375;29261;80883;229897];
[31706;1;1;5;13;3;63;41;191;315;191;649;2119;317;14699;4097;19557;97015;124557];
[31735;1;3;7;15;13;29;29;43;47;37;729;185;4477;15091;13991;18701;56785;218823];
[31754;1;3;7;15;31;39;17;133;469;509;995;1683;391;1775;15431;63489;7405;122125];
[31761;1;3;7;5;15;63;5;235;193;411;1493;3967;3279;6421;13359;20949;68097;69469];
[31774;1;3;3;13;7;37;7;207;399;553;1629;1903;329;7577;5813;17151;40889;174811];
[31807;1;3;1;13;7;39;119;109;323;61;749;1377;911;8195;19753;6265;60783;182339];
[31812;1;1;5;11;3;21;89;61;243;273;1317;3443;117;6205;13907;12903;95485;103355];
[31821;1;3;7;13;19;27;45;251;405;289;121;1501;2599;8111;5163;17437;75095;165847];
[31855;1;3;3;5;23;13;29;145;333;573;1939;2133;5797;5263;18835;11945;42161;103123];
[31919;1;3;5;13;9;31;45;17;181;111;219;3451;1591;5823;20307;41207;77047;173401];
[31934;1;3;1;9;19;63;73;111;377;875;1749;2887;7035;14209;1805;20527;93839;225185];
[31956;1;3;1;9;15;45;97;235;11;803;899;427;3353;7363;26687;1307;5451;176233];
[31965;1;3;7;5;7;51;59;53;3;263;159;1005;6079;7237;17419;56653;61091;182209];
[31975;1;1;3;15;19;47;17;185;167;219;233;2921;5755;1277;27281;33671;3191;169477];
[31981;1;3;7;1;25;27;99;81;57;969;821;2397;2947;5913;15247;47651;449;183295];
[31999;1;3;1;15;3;63;83;75;41;959;1005;153;97;15381;6901;55141;90215;161321];
[32014;1;3;1;9;1;1;29;191;43;241;607;667;1189;4389;31335;14133;104049;100925];
[32022;1;1;3;1;1;61;109;23;325;27;1601;3957;7181;8375;9823;50533;114895;73825];
[32049;1;1;7;7;1;25;51;19;383;955;1717;2953;5431;7883;14451;18619;9601;153151];
[32055;1;3;1;5;1;1;35;3;141;37;1531;1855;7905;6509;6223;45911;54267;172275];
[32082;1;1;3;15;23;39;109;145;215;147;1191;2425;301;5543;997;31071;101697;169677];
[32087;1;1;3;5;17;23;41;191;367;967;1625;3669;769;7599;111;4399;64121;232275];
[32100;1;3;5;1;25;61;47;247;413;605;399;1233;2789;9775;7111;42853;2305;87423];
[32104;1;3;7;3;1;25;73;247;221;235;169;889;5635;4325;27015;39549;107545;80885];
[32109;1;1;7;11;15;55;61;103;179;157;481;3089;4539;375;25425;14995;60119;31031];
[32138;1;3;3;1;31;17;87;123;27;309;1693;3871;7319;15615;20113;18239;86407;172381];
[32140;1;1;1;13;17;31;83;149;451;305;847;223;5705;9697;4967;34273;4041;252891];
[32148;1;3;3;15;7;27;105;207;443;825;701;1159;5267;14085;28295;41757;47799;14835];
[32161;1;3;7;3;1;31;77;219;139;497;1575;905;4341;4611;27861;59871;45525;21735];
[32162;1;3;3;3;7;17;65;183;231;955;1111;1899;1677;13685;29395;10449;62505;125643];
[32174;1;3;5;7;27;57;81;165;279;989;1569;573;7593;10067;1343;12039;117175;225125];
[32196;1;3;3;15;19;37;47;175;87;153;1137;1985;2473;14767;19587;41751;98937;66667];
[32220;1;3;5;3;19;51;25;155;37;597;719;1039;165;1871;15677;59891;29899;231979];
[32223;1;3;5;13;15;39;17;21;73;695;1813;2463;3549;3081;14037;13077;40417;258995];
[32267;1;1;5;9;29;5;105;75;97;937;1767;975;637;9419;30673;33537;979;45381];
[32272;1;1;5;9;3;31;91;193;171;163;925;3519;3621;4943;14093;22881;18459;110155];
[32308;1;1;3;7;29;1;39;107;359;805;91;2911;4741;3099;16967;45849;95255;63225];
[32315;1;1;5;13;25;41;49;145;345;823;1571;341;6323;9679;14855;19965;108367;99833];
[32317;1;3;5;3;27;35;87;83;373;425;281;1313;5153;6301;2745;12677;34603;181835];
[32347;1;1;7;7;13;17;83;101;141;789;1403;2777;2749;1551;9009;9909;48443;176679];
[32360;1;3;5;9;7;25;125;109;155;357;1111;3057;771;11253;25811;60333;68505;146987];
[32394;1;3;7;7;29;19;69;115;411;793;51;715;3035;11577;14237;23963;13915;196771];
[32411;1;1;3;3;27;37;61;163;131;749;37;1333;47;2519;25473;40851;55861;113961];
[32420;1;3;5;1;3;49;19;251;125;387;1887;3571;1465;4831;3859;43357;20859;225835];
[32423;1;3;5;9;27;53;53;143;383;781;819;2921;3499;11551;18761;14453;58209;181763];
[32455;1;3;7;9;17;17;79;61;145;413;541;895;2077;6957;28681;44821;30609;131705];
[32456;1;1;3;15;1;57;17;125;11;43;1079;1023;5391;67;31701;5737;429;75411];
[32510;1;1;7;7;21;45;65;127;447;793;161;333;637;7403;12861;30173;125121;254687];
[32517;1;1;3;9;27;53;85;223;297;455;919;2371;7049;7167;18075;22815;10265;14765];
[32541;1;1;3;7;1;53;91;181;471;101;771;4043;3039;1215;19289;15941;55187;147355];
[32552;1;3;1;1;13;19;13;47;159;965;1383;297;4299;7181;1271;17057;114847;180883];
[32555;1;3;1;15;29;55;113;243;215;665;641;1975;5907;2617;17077;43697;61101;70007];
[32580;1;3;1;11;5;55;109;145;307;663;1327;1247;8033;15425;18539;57027;72161;181655];
[32598;1;3;5;9;25;17;3;57;7;449;1049;3423;5769;12713;29849;1017;92579;131255];
[32654;1;1;7;13;25;13;55;217;461;595;931;1883;2645;9625;20467;45825;72027;163767];
[32662;1;3;5;15;29;49;23;47;45;645;973;3837;621;7373;3585;16083;93823;184593];
[32665;1;3;7;11;27;19;59;125;447;33;541;1067;6983;3779;27275;34269;106937;65085];
[32678;1;3;1;9;23;23;51;43;475;861;1759;2559;3059;1175;31555;27671;117653;162735];
[32682;1;1;7;13;7;61;33;49;23;737;949;1785;2921;873;26631;61941;14467;76225];
[32687;1;3;7;5;31;11;49;149;7;85;1929;1001;4185;221;23719;52265;52973;67967];
[32692;1;3;1;13;17;31;35;191;65;527;51;1093;3673;11167;29985;59739;43567;109817];
[32710;1;1;1;11;23;39;95;121;501;355;1043;993;7533;15763;18399;31601;49373;243209];
[32791;1;1;3;3;15;37;57;183;27;981;153;1481;549;7847;2689;57401;46359;175401];
[32792;1;3;5;9;31;19;83;79;413;597;1957;3027;4751;1437;11255;39513;56927;166841];
[32813;1;3;7;5;27;61;69;65;143;321;1129;2521;4467;4369;11727;35643;80155;184241];
[32826;1;3;7;1;25;27;107;219;481;457;2027;1057;6409;5641;19711;11009;44295;28171];
[32831;1;3;3;9;3;17;85;5;341;107;2037;93;741;5279;20093;28637;80823;210279];
[32836;1;1;7;15;5;9;33;167;451;463;1951;2395;3821;2915;15195;34517;113545;22173];
[32843;1;1;3;1;23;55;113;159;139;795;69;2021;6769;10807;18605;54161;39501;233797];
[32854;1;1;7;11;17;53;103;131;385;909;629;3127;6117;11457;31115;8255;33227;170877];
[32893;1;1;3;9;23;19;99;221;141;731;311;2617;2763;375;26763;56473;6613;60519];
[32897;1;3;1;9;7;29;15;105;243;159;1755;3999;5861;12009;30111;48269;70427;187173];
[32912;1;1;3;13;1;35;39;121;409;571;1835;1535;4671;12671;4503;4783;48009;216837];
[32951;1;1;1;9;25;61;87;109;489;107;1741;859;237;7161;27117;58587;55445;155763];
[32963;1;1;7;15;9;21;61;159;301;863;1823;11;419;6717;28199;24129;58419;22147];
[32970;1;3;1;5;9;7;13;205;185;759;777;2877;5991;14555;18793;51485;6373;232105];
[32975;1;1;3;5;7;25;51;79;227;447;867;2709;2677;15249;22957;45577;39011;16839];
[33028;1;1;1;3;5;51;69;135;395;339;685;3657;3789;16345;2911;51737;97471;126605];
[33052;1;3;7;15;15;5;85;153;507;347;1457;527;1055;7773;4161;10487;92373;256535];
[33061;1;3;3;3;1;9;25;1;155;321;1739;555;7719;10501;19075;12529;75975;229905];
[33083;1;1;1;3;29;31;89;23;283;875;1653;855;7613;15277;23845;47443;287;217441];
[33103;1;3;3;1;25;7;75;119;493;131;231;3063;7171;5437;16385;50347;87427;53603];
[33117;1;3;7;7;27;55;103;223;219;103;733;1233;1931;2119;19333;59839;100421;256811];
[33139;1;3;7;15;23;63;77;151;285;701;1403;1267;6975;11421;24943;51647;75651;191675];
[33151;1;1;5;7;25;23;25;7;503;759;997;1711;1439;12483;30117;55205;8813;221589];
[33162;1;3;7;5;21;3;117;65;461;851;915;575;3061;1055;11999;8375;128677;98005];
[33209;1;3;7;7;19;13;123;23;41;293;79;1435;1175;7399;14907;4671;88029;220627];
[33210;1;3;3;13;11;17;65;21;143;257;1001;2423;5659;11681;23605;40649;49797;55497];
[33223;1;3;5;5;29;15;125;83;139;381;1435;2129;1699;10725;531;767;112477;134223];
[33227;1;3;7;9;9;23;35;1;127;143;707;1475;4705;8921;14919;50909;64425;33381];
[33241;1;1;1;15;11;63;87;101;243;833;707;4095;201;4877;10219;39019;129779;229857];
[33263;1;1;1;11;5;9;35;177;303;545;917;1037;1789;12147;29095;27391;112833;104713];
[33341;1;1;1;5;27;23;111;219;439;445;967;3527;6203;1829;19657;48965;85213;58719];
[33344;1;3;7;11;15;7;95;113;317;225;1229;3033;5777;4075;24093;3539;19333;212757];
[33356;1;3;7;7;1;35;35;67;459;769;1675;3509;7393;10433;12003;7385;4425;188989];
[33390;1;1;7;9;5;45;35;27;443;301;533;2803;99;17;20749;58353;93067;118763];
[33398;1;1;3;3;13;51;61;181;81;859;1461;3455;2277;13769;1251;4313;119973;30693];
[33423;1;1;3;7;15;29;23;207;239;65;1889;151;7793;2657;13673;29033;74477;215027];
[33428;1;1;5;1;19;35;19;71;187;783;543;505;347;3191;1087;49735;54109;27979];
[33444;1;3;3;3;3;61;67;59;207;957;1709;1567;7973;5921;29841;8311;81165;91965];
[33454;1;1;1;7;23;47;109;189;447;861;1615;3283;3059;749;28729;8713;38743;211019];
[33479;1;3;5;1;17;51;127;181;355;515;603;465;1825;9281;31971;42793;22467;175777];
[33510;1;3;1;5;3;29;111;91;99;15;535;3047;1083;7181;28003;60719;71825;12293];
[33514;1;3;5;7;1;43;83;117;221;353;139;647;6017;4655;31823;22097;118537;71803];
[33528;1;1;3;3;27;11;35;169;215;883;1195;2983;4651;15893;24051;313;103947;5227];
[33548;1;3;5;13;3;51;33;159;499;763;845;1541;3837;9397;855;4187;112167;243817];
[33566;1;1;7;9;1;15;19;239;227;561;1685;2841;53;9753;15105;34277;128859;100085];
[33570;1;3;5;13;15;7;57;9;415;1005;583;1347;4349;3603;9125;15019;77735;237011];
[33593;1;1;1;13;27;21;105;17;235;605;1417;2053;3233;11617;28651;43161;71663;98373];
[33599;1;3;5;13;29;17;123;105;477;359;613;1699;2581;3007;8507;14391;95487;633];
[33619;1;1;7;7;13;55;107;211;71;339;1169;2629;165;16207;25523;7101;47553;261131];
[33635;1;3;5;15;11;7;45;207;39;41;781;3347;2529;4475;9665;31499;119837;128755];
[33659;1;3;1;15;23;59;59;17;89;823;59;3991;305;14893;1411;8015;92193;66935];
[33680;1;1;7;15;19;29;11;207;429;851;1661;2903;4413;447;29447;39243;70435;160451];
[33699;1;1;3;13;17;5;93;89;455;67;33;65;7957;14383;28525;56983;71899;4881];
[33713;1;3;3;5;11;7;47;233;433;791;47;2561;6539;1151;2083;12309;62353;69507];
[33758;1;3;5;11;15;55;101;251;41;39;383;3481;1817;3447;6205;38169;98267;157091];
[33771;1;3;5;7;9;47;113;55;421;703;849;2251;129;9257;28097;33475;98933;32041];
[33779;1;3;3;11;9;59;1;211;277;969;977;3079;4707;3341;17679;9469;52859;125883];
[33800;1;1;7;13;29;19;49;149;259;573;1137;2571;2661;12865;24993;10721;96921;85931];
[33829;1;3;1;9;15;27;91;127;305;159;523;2539;1969;4325;595;37077;79919;26889];
[33836;1;3;1;11;1;5;65;75;317;909;1601;2713;6891;4927;28427;5791;82285;35209];
[33844;1;3;7;7;9;5;111;167;477;437;1133;2715;6189;5051;4765;26267;99819;70419];
[33856;1;1;3;9;27;57;23;233;423;191;1159;1539;6397;16041;8803;19787;114447;17029];
[33859;1;1;5;1;11;3;111;125;287;487;1663;1953;3771;2011;18167;47471;94041;87569];
[33873;1;3;1;11;5;9;75;153;37;803;971;1667;4631;9183;20179;6905;80949;54443];
[33874;1;1;1;5;13;29;91;201;49;739;1569;2725;257;5505;5289;40731;27843;16565];
[33929;1;1;7;13;27;41;81;199;99;43;1331;3237;6493;3839;19329;44371;19715;60553];
[33944;1;1;5;7;29;41;67;163;467;93;1977;2625;6967;6655;19835;39517;10259;200487];
[33965;1;1;3;15;23;35;31;171;175;883;593;245;6209;7381;5555;54507;66159;40771];
[33978;1;3;3;11;3;63;75;177;239;77;1543;875;7951;7571;961;9909;101781;160399];
[33986;1;3;1;3;3;37;71;231;373;443;835;1321;2107;2929;7527;47969;15329;94537];
[34006;1;3;3;15;7;5;127;121;159;25;399;3009;4401;9649;4311;18045;22557;135177];
[34025;1;1;1;3;29;57;75;73;261;493;1417;1351;3407;8553;4893;10325;123149;161435];
[34106;1;3;3;11;15;5;87;115;337;213;949;1925;5057;5831;6837;51167;25291;182197];
[34126;1;3;1;11;25;49;27;101;403;989;1129;3933;1147;13091;11965;38075;68251;103293];
[34171;1;1;7;5;7;49;1;189;275;63;149;3255;1175;7811;24845;20755;99391;140673];
[34189;1;3;1;13;17;35;37;37;415;125;643;443;6215;299;31237;45687;78535;102123];
[34204;1;3;5;3;27;41;85;215;47;21;725;1967;2317;121;7827;48229;82027;60271];
[34260;1;3;5;1;1;55;37;183;117;421;383;3883;5519;6161;6823;18423;77747;215969];
[34270;1;3;5;13;31;3;117;59;375;797;1129;1283;3245;12775;30353;3837;130273;228899];
[34280;1;3;5;1;7;33;17;153;179;255;537;2911;1223;367;18131;25903;33509;220031];
[34298;1;3;7;5;5;7;103;233;309;947;1835;3509;4267;15619;5895;30707;81841;191899];
[34313;1;1;5;11;3;15;91;83;319;765;895;2565;6833;1719;2971;37483;21709;23193];
[34321;1;1;3;11;31;57;83;233;439;161;1503;749;6347;15379;2317;24671;93399;239585];
[34333;1;1;3;9;29;45;19;107;295;153;189;2521;5465;7321;6143;229;100553;258911];
[34370;1;3;7;11;31;27;95;21;249;981;1725;1481;1025;9301;11809;53109;29007;127683];
[34376;1;3;1;3;1;23;97;137;5;471;1887;1035;2681;5143;3145;1517;88107;245245];
[34387;1;1;1;1;15;11;13;9;405;607;403;1693;4363;9365;6425;48121;78969;87341];
[34389;1;1;7;15;3;17;7;51;111;1023;9;465;1909;16283;4763;50939;119029;198257];
[34417;1;3;3;1;31;11;113;13;499;433;1941;991;5439;3123;24591;16171;55099;206015];
[34429;1;3;5;15;25;49;125;101;251;619;1895;4063;3065;14965;20081;11233;58253;69633];
[34440;1;1;1;5;21;35;29;241;359;553;1001;1865;5183;5233;16371;55277;102091;143275];
[34443;1;1;1;3;29;37;3;191;239;961;2031;1337;1169;5229;22861;38257;55027;153703];
[34451;1;3;5;7;7;35;49;139;509;381;1267;2641;747;16239;23133;32111;70471;128427];
[34470;1;1;1;9;23;25;117;125;369;891;103;2215;3571;1291;9001;35671;67119;198847];
[34484;1;1;5;9;17;19;27;7;207;55;1099;2117;7511;14999;7761;32215;103401;68599];
[34493;1;1;7;9;1;59;41;91;9;225;457;3241;4713;2923;11973;2867;130583;202007];
[34496;1;3;1;9;31;47;63;49;457;757;885;937;2973;12147;2607;52907;126047;83275];
[34514;1;3;5;11;17;1;79;123;505;203;1779;71;4357;2285;31625;15225;86519;2021];
[34526;1;3;1;11;21;17;41;169;125;995;351;1235;25;7463;2099;18917;71355;26983];
[34535;1;1;7;1;21;23;41;5;415;405;1235;1245;151;11283;25293;45147;12597;39501];
[34585;1;1;1;5;29;29;15;165;259;179;1479;3535;779;6583;885;34331;71193;154417];
[34591;1;1;1;5;3;1;13;181;507;339;333;4059;7963;15649;15507;16913;34741;202039];
[34592;1;3;7;1;1;9;17;119;77;583;259;883;4011;4275;9599;58663;73237;202783];
[34602;1;1;5;11;23;27;19;171;373;779;661;1701;3363;13095;897;51233;1319;41093];
[34607;1;3;3;3;29;21;105;29;429;657;1735;1279;809;14963;9735;23251;44879;159371];
[34644;1;1;5;11;17;27;117;65;193;539;1095;439;1687;11277;513;30611;88885;69145];
[34657;1;3;1;7;11;1;27;41;63;501;917;2397;6839;10835;26437;56169;46631;64095];
[34675;1;1;7;15;29;5;17;217;333;389;403;3167;3599;12055;30669;44821;109811;237393];
[34681;1;3;5;13;1;39;51;233;159;135;763;2499;7741;13099;8639;8043;39827;5989];
[34693;1;1;7;3;1;61;41;37;37;67;867;2631;6265;5551;161;56643;126087;126829];
[34706;1;1;7;1;21;39;101;225;489;123;661;2489;1865;6809;21663;59405;45579;51257];
[34745;1;3;7;9;27;53;11;97;369;389;1933;3321;543;12331;11571;10685;49049;244027];
[34759;1;3;5;3;7;15;21;165;181;877;1161;1815;2097;449;32411;22843;12467;55397];
[34765;1;3;1;3;11;45;23;193;287;137;333;1831;457;583;23081;4525;4781;249509];
[34774;1;3;5;5;15;13;27;199;267;297;923;3861;4949;7945;25291;45407;47529;127287];
[34780;1;1;5;7;19;29;113;51;503;487;699;2097;2957;6519;19487;46873;38871;89997];
[34794;1;1;5;13;17;31;57;127;335;223;1545;3749;1539;3293;21159;13019;48343;190895];
[34807;1;1;7;9;25;19;75;41;511;269;819;3313;6805;15051;4349;1809;34841;190641];
[34808;1;3;5;9;27;7;91;187;123;519;477;2719;211;1225;22689;37043;66291;205441];
[34835;1;1;5;13;5;41;95;49;187;239;1213;2363;8075;12423;6361;42471;70047;188063];
[34842;1;3;7;3;27;23;21;217;65;143;1171;1441;1603;2235;20923;32611;111903;132771];
[34865;1;1;7;9;3;29;33;203;497;179;1253;2083;7407;12551;8371;62167;93875;193017];
[34907;1;1;1;13;7;61;43;107;417;757;1701;3187;5489;11359;20469;20249;93581;207969];
[34928;1;1;7;3;31;51;51;183;483;885;1627;3605;6687;1271;27013;40409;103807;189805];
[34949;1;1;3;1;21;21;107;185;267;981;147;1873;1085;15829;10315;21673;7713;120087];
[34961;1;1;5;3;7;27;73;131;287;657;1351;547;3655;2433;6753;2465;110299;194587];
[34964;1;1;7;7;17;55;29;223;411;775;745;3515;4573;4289;7411;55999;22021;110567];
[34987;1;3;1;3;29;55;7;183;507;773;1299;3653;7693;3773;29549;4171;123039;137495];
[34990;1;1;1;7;5;25;53;85;41;837;587;2997;7281;6821;15609;47855;49017;108557];
[35019;1;1;5;5;1;17;109;231;295;825;1909;683;2197;1895;8641;37917;36347;38683];
[35069;1;3;7;3;23;39;91;121;223;505;127;3439;7779;12917;17351;33063;84019;40077];
[35077;1;3;3;1;19;1;125;99;143;549;709;3605;2377;761;14369;52191;80811;214877];
[35090;1;1;7;9;13;57;39;91;505;299;1241;1697;5821;5327;22439;42321;120941;40009];
[35152;1;1;3;13;15;59;15;129;265;841;1255;1915;4645;5991;26801;7839;66961;59045];
[35173;1;3;7;15;17;57;61;173;391;1001;1815;2565;1445;13237;2273;61683;62327;180255];
[35174;1;1;3;3;23;29;115;185;333;103;1807;3271;4803;9743;3031;25263;30761;1899];
[35202;1;1;1;7;1;13;63;113;467;17;1803;3141;7069;8895;25823;40347;11211;88769];
[35214;1;3;5;1;3;3;29;101;315;915;341;287;4167;7579;19797;18287;19079;52805];
[35219;1;3;7;15;31;61;27;153;387;273;343;881;2273;6621;19391;41735;123899;117851];
[35226;1;1;7;11;5;49;83;223;87;341;1023;2785;3635;2651;5179;25907;115249;74001];
[35235;1;3;3;7;31;37;123;79;365;455;639;691;2659;12215;26785;48785;120175;155501];
[35255;1;3;3;11;19;49;81;97;429;317;257;663;5009;2855;22721;51553;32511;188977];
[35310;1;1;7;11;5;37;1;123;477;747;839;3975;6347;489;31387;56037;62935;177587];
[35318;1;1;1;1;29;7;119;233;255;25;127;1377;991;12151;31259;64863;34733;86101];
[35321;1;3;7;5;19;57;67;1;81;719;891;2485;3817;1055;437;9779;23823;173219];
[35333;1;1;1;5;1;63;87;163;135;809;637;1233;5245;481;11011;23477;114963;96051];
[35337;1;1;7;5;25;39;57;129;311;525;1555;179;639;4949;8809;31215;95975;79407];
[35346;1;3;1;1;15;59;77;87;479;889;1619;331;4781;10597;935;28105;83861;134273];
[35373;1;3;5;15;21;55;61;105;373;185;1579;3487;2621;8993;6443;31709;57329;128165];
[35414;1;3;3;3;7;21;117;159;177;927;1873;1865;3219;1693;1173;34365;107053;113949];
[35478;1;3;7;1;17;37;35;101;305;141;1681;1949;47;11351;989;13887;127429;13059];
[35497;1;1;3;7;13;41;125;115;65;621;1401;631;5875;8589;17185;22757;83625;92907];
[35503;1;3;1;5;25;37;73;39;495;645;265;2685;5875;5919;23223;44593;26207;49921];
[35512;1;3;1;13;25;31;39;15;179;791;1817;3617;2139;1827;21215;21767;15009;239443];
[35515;1;1;3;7;17;9;33;121;235;535;1537;3307;2881;4351;4721;34131;129619;137993];
[35526;1;1;3;1;3;51;79;213;205;323;1749;2563;2013;6519;18923;25937;74445;252283];
[35577;1;3;5;11;3;53;17;195;305;543;1937;2997;4593;7801;15307;46359;39365;59537];
[35585;1;1;1;13;31;53;111;163;139;163;999;83;5125;10047;11143;51407;13627;3621];
[35592;1;1;3;9;5;1;125;95;281;939;913;1441;1209;12983;27759;22393;75985;178997];
[35615;1;3;5;3;5;27;91;41;51;447;491;3405;497;2873;17865;30651;104197;71751];
[35616;1;3;7;1;29;61;73;31;423;933;1327;809;1461;269;15121;18649;36095;139429];
[35622;1;1;7;7;19;49;51;173;297;411;1255;1093;2821;6743;1927;27563;68459;261411];
[35634;1;3;5;1;5;33;27;119;103;615;149;2299;6801;15615;7361;31045;87719;9557];
[35657;1;1;3;9;17;23;89;35;151;385;319;2065;1897;1987;15159;34855;5395;110751];
[35672;1;3;1;13;7;47;19;185;207;787;1179;1073;1463;6277;6129;25031;91969;123235];
[35708;1;1;7;3;19;63;97;1;381;71;1169;339;6585;3629;31357;59451;102735;253667];
[35772;1;3;3;13;9;27;69;17;509;599;1247;2267;3309;1905;17995;41263;5947;51607];
[35790;1;3;1;9;31;45;69;243;171;555;61;1135;1993;8615;18363;19545;64015;81391];
[35804;1;1;1;1;19;49;31;65;53;123;271;3007;4509;9465;3855;12673;19457;14677];
[35811;1;3;5;13;29;53;91;145;115;53;839;1911;2887;6053;18437;42273;63093;70937];
[35814;1;1;5;5;27;13;87;175;485;699;463;811;4991;15303;23007;10021;59125;39997];
[35837;1;1;5;5;27;21;89;61;109;555;953;2811;3015;3249;16085;64413;84605;177333];
[35846;1;1;7;3;1;29;83;143;67;577;971;2339;6521;6341;27141;37149;99813;37579];
[35873;1;3;3;7;23;29;117;5;287;559;667;2349;7481;679;9633;40857;89841;98125];
[35883;1;1;1;3;31;31;83;117;213;213;23;3803;5967;7759;19521;13229;62231;150687];
[35918;1;3;7;9;1;15;37;191;19;107;1723;3517;3477;3777;4359;45815;58661;33217];
[35920;1;1;5;1;17;3;3;255;501;1021;1731;481;6145;3475;3417;11847;92203;75109];
[35925;1;1;5;1;1;61;89;107;503;627;931;1355;2067;12487;20665;61543;15501;103843];
[35926;1;1;5;9;25;17;7;255;251;939;851;2241;939;15331;29357;2485;80791;152601];
[35945;1;1;5;3;13;25;35;113;83;765;1317;1409;369;2215;5659;3581;13925;108673];
[35956;1;1;1;1;13;13;83;27;5;563;723;2733;3155;6567;24595;45569;37587;144401];
[36003;1;1;1;9;31;51;73;105;299;857;669;963;4115;14939;11669;46215;92707;149249];
[36023;1;1;3;5;7;41;105;213;3;999;93;1497;6783;1559;20047;40761;88219;64769];
[36024;1;3;1;5;13;17;79;29;453;75;1095;623;7401;4225;30467;60795;130045;154767];
[36059;1;1;5;3;31;59;33;129;505;277;1623;3531;6841;12903;7231;5801;92405;260195];
[36061;1;1;3;5;27;23;63;219;225;547;1163;1899;4191;9725;30077;30157;73395;38195];
[36072;1;1;1;11;17;27;63;127;95;205;1753;2023;6803;4355;28169;16691;25105;8969];
[36075;1;1;5;3;23;23;89;115;231;647;513;3161;3175;5061;5797;35387;109827;19511];
[36103;1;3;5;5;11;9;39;251;367;253;2031;3909;1057;12545;25397;51571;91229;83721];
[36110;1;3;5;7;5;35;57;153;111;789;177;2237;1333;13185;993;22099;62113;211815];
[36131;1;1;5;15;19;37;123;221;375;605;791;1663;7537;7193;20149;58077;113129;185493];
[36151;1;1;1;1;1;53;117;227;441;851;1171;4031;2313;2847;25533;31767;18197;153101];
[36160;1;1;3;3;13;9;65;225;71;763;1507;3795;4321;399;12515;4527;89193;236161];
[36199;1;1;3;11;21;63;73;125;369;309;953;3525;3925;13609;26061;21739;112867;112985];
[36223;1;1;7;1;27;25;3;129;321;193;1871;233;837;11163;14861;42721;72849;206739];
[36227;1;3;7;3;5;51;43;177;167;11;1297;1805;515;6485;8253;271;47435;252291];
[36234;1;3;3;3;19;47;47;47;299;101;1535;3593;4669;10367;19219;16579;85269;36115];
[36236;1;1;7;15;7;51;53;181;379;267;985;3401;2189;10197;14183;413;76797;24751];
[36284;1;1;5;7;13;27;65;119;235;131;1921;3411;1511;11221;30315;11799;127563;203533];
[36319;1;3;1;3;13;55;101;189;483;261;467;645;417;6203;9221;19671;102331;259335];
[36332;1;1;5;15;19;7;81;1;371;119;1433;1211;303;14393;27107;45295;109211;224661];
[36343;1;3;7;9;19;53;31;55;103;351;1511;377;981;6709;19553;53579;55043;170489];
[36373;1;3;3;15;31;49;1;251;187;73;119;3041;5455;5355;22245;7735;14661;258447];
[36401;1;3;7;11;13;1;61;97;179;975;1653;3301;4303;2271;30171;63287;51271;21909];
[36413;1;1;5;11;21;45;101;131;121;881;1205;1849;4337;5687;31967;22559;98017;202557];
[36433;1;3;3;7;1;49;11;35;141;309;651;3319;4313;3675;27699;49429;109805;167089];
[36459;1;1;3;13;13;15;61;251;335;365;677;2183;6291;8857;15231;551;63149;76729];
[36480;1;3;3;13;1;59;85;127;409;1007;1947;3495;6227;11447;14329;3769;109619;59063];
[36485;1;3;5;11;11;59;67;209;491;757;1137;1977;3155;9339;11219;20303;66417;187911];
[36510;1;1;5;9;27;51;87;249;327;867;29;3811;4769;12353;24803;35747;84101;210975];
[36513;1;3;7;7;23;37;23;55;237;543;779;1305;1535;13333;1403;10903;113135;195799];
[36523;1;1;3;11;1;1;3;153;401;35;981;79;4227;9203;8179;29325;104809;140613];
[36528;1;3;5;9;13;39;101;181;507;307;1411;1443;6855;8747;22709;37869;102303;577];
[36537;1;3;5;1;25;41;3;239;195;1;1277;2085;4253;14683;24171;56733;82795;213291];
[36558;1;1;3;5;25;55;31;55;215;149;1813;3775;779;6137;10561;41671;96883;177435];
[36563;1;1;5;11;15;5;1;237;131;13;229;3203;2431;1829;31983;59535;31381;175455];
[36576;1;3;3;7;5;19;61;253;223;609;1395;2495;5501;6571;12989;889;49435;200251];
[36608;1;1;7;13;25;49;33;157;457;259;1935;2249;7419;12685;30509;32187;108839;178963];
[36611;1;3;3;15;19;27;91;133;369;931;359;759;2647;13643;14877;14031;115367;201745];
[36617;1;1;5;3;9;23;87;27;203;995;1759;999;949;2733;29053;46581;129003;42585];
[36653;1;1;3;1;1;21;63;243;257;741;681;2471;2455;15145;31739;8751;15963;165405];
[36716;1;3;3;1;25;21;69;213;219;9;199;487;4103;141;18177;58797;60415;6313];
[36721;1;3;1;5;23;43;61;121;123;89;283;1313;2707;10199;7699;17437;130995;140327];
[36733;1;3;5;13;31;41;111;39;403;5;1125;2867;3143;7051;9891;43349;20751;88465];
[36761;1;1;3;1;19;53;83;207;285;789;1515;3455;4057;15777;27879;46971;122661;143407];
[36783;1;3;3;11;25;21;127;191;313;357;1625;1323;1151;12509;22275;23517;12221;258709];
[36786;1;1;5;7;1;47;1;107;387;965;1319;2911;2121;8595;9;21587;81187;2803];
[36795;1;3;3;5;19;55;37;213;23;767;1493;635;4289;2503;16835;47851;77335;60565];
[36800;1;1;1;7;23;9;101;145;457;691;1895;2145;7527;7687;20781;10957;24859;79137];
[36810;1;3;7;15;9;9;15;195;493;859;687;1445;429;8599;24591;40709;118361;148163];
[36812;1;1;1;3;7;51;45;143;339;475;1177;2829;785;10141;4923;29135;22603;119973];
[36817;1;3;5;15;25;37;1;13;351;127;143;2637;1215;14577;12465;10575;67997;21877];
[36818;1;3;7;3;27;19;59;241;327;307;731;3471;6123;13607;8793;14825;110681;83259];
[36851;1;1;1;11;25;5;59;85;335;189;499;1305;5801;7259;2397;14045;55585;258579];
[36853;1;1;3;5;21;49;49;63;261;657;1453;55;1325;15513;14891;60689;15381;252641];
[36868;1;1;7;15;25;3;85;33;495;867;903;1813;2871;365;17399;45695;102851;225873];
[36889;1;1;1;13;13;63;29;35;325;893;1313;133;8169;7791;9271;36759;92275;169717];
[36890;1;1;7;3;21;45;7;151;387;891;1921;1701;307;5323;16321;51229;79369;21513];
[36896;1;1;1;11;7;27;17;75;161;649;337;1731;2905;4589;17387;10455;70673;228373];
[36905;1;1;3;15;17;35;45;131;469;629;1771;1965;5065;6249;29041;52791;55619;154531];
[36919;1;1;7;3;25;53;85;233;161;163;1155;3159;1551;13099;25647;26777;91647;162755];
[36938;1;1;3;9;17;11;39;63;503;927;1621;3425;4835;7083;16449;47913;127905;165567];
[36946;1;1;7;1;29;9;1;111;285;1009;1427;3071;205;12269;31337;14501;10923;14277];
[36951;1;1;5;5;1;3;51;205;477;661;1555;2113;6487;4755;13633;16391;35775;52623];
[36952;1;3;3;3;27;23;109;49;71;19;733;1361;4369;14527;20443;10507;120183;246115];
[36964;1;3;3;5;7;47;51;197;97;471;1631;3317;5857;9405;30359;7741;45079;175929];
[36968;1;1;3;3;13;63;39;173;511;525;1687;1735;6877;7383;27971;26503;6189;232251];
[36979;1;1;5;3;5;31;101;99;51;987;1627;3899;6321;9441;4983;64001;30923;199495];
[36981;1;3;1;1;11;39;119;123;33;1017;1477;283;4939;453;16445;25599;106857;257811];
[37021;1;3;1;11;13;1;3;101;275;75;1795;1449;2503;11765;19299;14237;157;244825];
[37026;1;3;7;15;23;1;85;65;55;103;1523;1443;1021;5733;3297;10889;22487;82503];
[37075;1;1;7;3;17;59;109;113;17;173;1709;273;5327;3243;10751;58361;42303;78391];
[37077;1;1;5;15;25;11;101;133;193;131;1671;3045;7111;14331;15665;56407;31561;154555];
[37108;1;3;3;5;15;41;105;65;81;293;389;2653;1883;14741;23553;33349;39665;154233];
[37112;1;1;5;15;31;19;121;41;261;511;1679;957;1647;12647;12285;30291;122483;187911];
[37150;1;3;1;5;27;25;17;45;303;947;1123;2729;281;12389;27987;42667;16089;17129];
[37154;1;3;7;15;13;17;25;223;125;837;159;253;2599;11381;639;32545;50633;139025];
[37156;1;3;1;13;23;43;25;83;507;47;99;697;4453;2139;17151;50709;37099;212957];
[37163;1;1;7;7;29;7;63;141;475;853;1073;143;6979;5663;29691;59489;89689;223047];
[37178;1;1;1;1;13;27;101;61;27;735;207;2065;5811;5461;21493;15481;103727;80017];
[37183;1;3;1;11;9;9;35;251;147;841;1891;1909;5053;5103;11751;16209;110475;114875];
[37185;1;3;3;11;13;55;117;205;71;159;1797;989;2221;16087;18287;8355;96403;146613];
[37191;1;1;5;5;29;25;73;63;299;839;1225;3583;5641;1341;29431;7035;99107;13493];
[37198;1;1;3;5;27;53;9;51;79;701;667;1469;4455;13761;18607;39429;7687;201115];
[37203;1;3;7;11;23;35;101;129;491;369;565;2557;2529;1003;16003;33873;52155;861];
[37225;1;1;1;15;27;63;1;55;331;853;899;1027;7389;8935;12559;27315;101753;255331];
[37243;1;3;3;15;5;41;93;39;473;887;1667;847;7619;8407;6539;31989;63807;21861];
[37252;1;1;5;11;27;57;73;249;331;653;21;2937;4403;16195;18785;30375;22939;235291];
[37262;1;1;7;1;7;41;59;161;295;503;595;3021;455;3991;8617;65361;107239;83205];
[37264;1;3;3;15;17;41;61;229;273;687;657;1969;2817;2367;29183;41199;24123;184081];
[37276;1;3;7;5;25;63;43;65;443;423;549;2031;3353;7041;6563;18819;46047;239823];
[37327;1;3;3;3;3;17;13;115;377;623;1959;127;5125;13209;24731;23151;21303;7213];
[37355;1;1;7;1;21;11;21;41;491;37;1759;2771;1301;12995;17621;30907;75511;82321];
[37403;1;3;3;13;13;23;77;211;215;711;427;2213;8041;1595;26105;39051;105407;242141];
[37415;1;3;3;9;13;35;117;207;75;395;723;3321;6643;2429;10043;10585;3529;64067];
[37422;1;1;1;7;3;1;83;93;311;157;891;1717;7669;16067;11775;27693;11757;94471];
[37448;1;3;3;5;17;63;23;177;289;921;315;3083;5903;8697;22425;37845;31171;49237];
[37451;1;1;7;9;21;63;29;227;427;271;525;2071;7103;8389;29185;51601;110737;16949];
[37478;1;3;3;3;3;49;25;173;79;343;509;1939;6389;15501;20135;54365;69931;135269];
[37484;1;1;3;3;21;23;41;71;169;947;1027;2345;3397;12181;15409;31725;41223;58837];
[37525;1;3;7;1;19;23;57;201;27;449;1479;921;4703;10949;14369;27929;45399;46055];
[37553;1;1;3;9;13;17;125;17;393;295;497;3089;6589;4003;8687;48145;2683;175521];
[37640;1;3;3;15;15;13;3;31;51;101;973;101;3709;13437;51;14293;21561;136497];
[37645;1;1;5;11;17;27;51;45;77;539;225;2029;533;153;26085;33611;28153;75671];
[37658;1;1;1;15;3;59;59;123;475;225;1613;3121;2865;4647;14553;35449;121657;37457];
[37667;1;1;5;1;27;33;121;225;57;619;1293;3813;2121;3525;21995;47253;33095;257451];
[37708;1;3;1;11;11;43;115;233;335;185;989;3567;4135;2357;20559;43325;43015;51695];
[37723;1;1;5;9;11;49;45;187;93;967;1609;2511;1549;4045;21309;16341;13495;214827];
[37732;1;1;1;13;21;23;81;7;259;483;1059;773;5297;10123;9857;61187;47355;76307];
[37747;1;3;7;9;29;51;113;255;223;853;1173;1019;1587;9629;22373;32731;125179;193271];
[37753;1;1;5;11;3;55;25;145;347;451;1447;3399;5873;11579;11107;64707;10161;142003];
[37772;1;1;1;7;15;49;109;93;267;919;177;2247;8129;8039;15629;63767;98153;143255];
[37789;1;1;5;3;3;27;47;151;231;35;155;2745;7349;6543;14117;19549;54927;10819];
[37817;1;3;7;15;31;29;17;203;249;169;1071;3069;6269;3455;27177;33761;111003;4527];
[37826;1;3;1;5;31;15;65;189;3;917;857;1221;3553;2883;3631;32971;68057;109081];
[37831;1;3;1;9;3;55;127;57;125;463;199;317;3373;967;5569;55997;17167;33585];
[37845;1;3;5;1;9;57;15;89;335;119;1445;1931;4177;2495;27507;8209;60003;29657];
[37855;1;3;5;7;15;43;83;117;283;131;653;57;6789;7633;30525;64131;101981;122017];
[37859;1;3;7;11;3;17;115;217;391;825;1633;885;7787;5595;12235;30233;53587;62985];
[37866;1;1;5;3;5;13;99;1;75;329;1247;107;2337;4201;6217;12273;41585;46563];
[37880;1;3;1;15;25;53;33;125;311;955;161;3631;581;11915;4223;63207;16517;201665];
[37885;1;1;5;1;27;23;93;211;483;691;949;1825;391;12111;13639;61009;88503;104823];
[37897;1;3;1;13;3;9;51;133;259;977;697;661;7661;3987;8327;50155;112235;236135];
[37906;1;1;3;13;7;39;121;37;151;973;1275;2699;3345;7167;19245;55535;12305;33567];
[37948;1;1;1;1;27;5;91;63;409;579;459;2335;4721;3305;11293;15405;74513;157863];
[37954;1;1;5;1;21;45;55;111;475;381;659;1131;3575;5165;27221;46757;53587;90741];
[37978;1;1;5;15;11;31;121;209;69;389;779;2833;4519;1801;4363;24723;105849;54475];
[37980;1;1;3;9;7;19;11;75;275;77;1997;1661;6139;13165;30653;49469;67053;3811];
[37990;1;1;3;9;5;11;5;151;395;715;1381;3011;5939;1805;8063;62877;99749;112951];
[38001;1;1;5;13;19;15;113;47;455;173;1897;701;6093;2089;3977;20599;60947;23671];
[38020;1;1;1;13;23;19;13;117;275;313;1683;2975;179;3949;4361;60211;91999;211219];
[38029;1;3;5;15;13;53;83;161;491;1001;1773;1227;1965;14479;17677;24399;86431;203303];
[38047;1;1;7;15;5;51;103;131;351;747;1227;2859;6693;10615;29485;6619;106239;148739];
[38063;1;3;5;1;9;43;91;173;223;393;1181;3785;6589;1299;10217;20891;64125;63409];
[38077;1;1;5;7;11;23;45;57;397;771;511;1849;343;14139;26271;56241;52581;163187];
[38110;1;3;7;5;15;59;89;151;255;247;291;219;995;10821;1445;35581;88767;16871];
[38116;1;1;7;11;7;25;3;175;253;193;1641;1669;7095;11871;10801;42567;120663;109347];
[38119;1;3;5;7;31;41;119;39;149;653;153;2783;1377;5223;17915;3127;41869;193477];
[38176;1;3;3;13;23;19;47;85;487;103;237;2363;4451;5077;23749;17011;73561;169165];
[38186;1;1;3;9;21;25;77;235;53;681;1463;2093;1525;12797;5469;54277;15587;68395];
[38194;1;1;1;15;23;63;63;225;239;143;1073;199;3231;1371;11215;5999;100705;174681];
[38218;1;1;1;3;17;25;69;179;445;695;281;379;8115;9443;13221;50669;37369;62151];
[38241;1;3;3;9;11;29;21;89;441;353;401;1139;5003;8087;24457;50237;110993;117233];
[38247;1;3;3;1;13;45;31;249;295;149;591;2071;3611;931;16261;8239;82767;195665];
[38261;1;3;3;9;19;47;69;177;493;231;431;1359;6867;7641;15661;25285;65477;212643];
[38268;1;3;3;13;19;63;83;153;367;407;547;661;7743;5473;2993;62937;33811;101313];
[38277;1;3;5;3;29;17;19;203;79;279;1333;1851;51;9793;12955;17383;73437;121743];
[38287;1;1;1;11;11;43;31;187;463;827;1511;225;845;8963;1553;61269;122033;245633];
[38295;1;1;3;3;31;23;9;241;377;317;655;2197;2461;13239;15649;7879;55085;129855];
[38299;1;3;5;7;9;37;1;191;185;145;1567;3423;1127;1991;10741;38407;22915;222845];
[38301;1;1;5;3;27;31;11;227;307;973;745;1079;7479;10065;31389;19195;114775;246615];
[38305;1;3;1;11;29;27;11;83;205;399;1489;739;715;7955;16473;21127;62379;260399];
[38312;1;3;3;3;25;25;123;163;399;841;963;2089;4949;13085;19831;15345;60377;164235];
[38315;1;1;1;9;3;21;101;105;397;23;1505;3201;547;295;23247;18823;115243;151073];
[38317;1;3;7;1;31;27;111;23;205;709;1625;3921;6225;11039;29549;51239;119003;133663];
[38343;1;3;3;11;21;49;111;195;25;833;1991;563;7031;15429;5707;12351;32221;16599];
[38344;1;1;5;7;5;7;39;171;39;921;385;2343;625;15355;4923;36597;56901;148377];
[38350;1;1;3;15;7;43;89;217;67;271;853;147;6767;3183;341;40769;116767;22351];
[38358;1;3;5;7;7;3;105;27;183;59;953;4027;1277;10323;29437;56085;32677;198067];
[38364;1;1;1;15;23;29;51;209;13;177;1103;1723;2877;9199;25601;15537;8599;230819];
[38371;1;1;7;1;29;39;41;217;467;423;431;2707;2017;11865;11989;12045;71349;6311];
[38373;1;1;1;13;15;25;3;55;403;833;1843;1159;1703;2221;15379;65027;18327;108881];
[38377;1;3;7;13;3;27;13;227;215;873;1073;1117;7941;13607;7571;6957;44991;239761];
[38392;1;3;7;11;23;1;95;235;283;977;1443;161;5937;4351;30835;35569;57509;1835];
[38407;1;3;3;13;11;1;85;75;261;543;9;899;5821;5465;9771;53707;101003;219215];
[38408;1;3;1;7;21;49;35;19;35;759;1467;1423;6355;8415;563;24157;121029;87309];
[38421;1;1;7;1;9;13;65;85;209;583;387;1743;2665;12021;7525;27665;45885;135039];
[38438;1;1;7;11;29;41;91;17;291;211;1801;493;899;14491;1741;28971;35205;131417];
[38442;1;1;5;13;23;55;119;165;61;653;1375;3575;5081;7767;19963;61583;107149;240639];
[38464;1;3;5;15;25;3;51;27;127;259;55;2221;3951;6243;15825;42881;37009;254401];
[38473;1;3;5;11;25;63;13;105;111;677;1545;2399;4419;10853;7213;17183;103411;67459];
[38484;1;1;1;11;11;31;73;125;155;545;1857;2749;6389;4083;16239;23651;68881;43455];
[38491;1;3;7;7;21;3;117;237;431;17;687;2613;7483;3253;30511;53833;33077;157055];
[38510;1;1;1;1;1;57;65;97;415;477;1003;1415;1493;12993;30965;24809;1467;213021];
[38518;1;1;3;7;25;33;45;25;511;733;1077;2483;5899;14295;11631;50609;128989;45177];
[38531;1;1;3;3;25;17;115;31;115;191;293;3991;3039;6751;16217;16517;21121;193641];
[38537;1;3;3;13;25;23;7;51;363;641;333;2533;605;1105;12941;4195;129571;13253];
[38538;1;3;1;11;17;21;7;205;293;159;9;441;3287;10247;2115;54099;128109;8137];
[38567;1;1;7;5;21;17;43;87;117;737;149;3175;343;8509;12147;22041;80037;23277];
[38594;1;3;3;1;3;7;101;245;11;1003;175;2323;7807;15611;5161;10277;37009;83231];
[38647;1;3;1;5;13;17;113;75;315;237;77;587;5409;2053;22551;15205;82545;18531];
[38651;1;3;5;11;9;57;61;117;281;111;369;2411;1691;3391;5379;8237;87329;4253];
[38654;1;3;3;3;19;25;101;1;495;25;1317;2333;6183;12215;27879;56403;37169;71635];
[38686;1;1;3;5;17;63;49;127;171;405;1763;3697;405;2233;4137;28787;108319;53133];
[38702;1;1;5;7;23;43;87;189;97;239;1459;2115;7517;7799;28957;37105;71835;199195];
[38751;1;3;1;3;25;25;23;61;369;717;1711;1103;7535;9871;25;26849;55955;113389];
[38821;1;1;1;11;25;57;33;175;127;541;1031;2847;2069;4033;25593;10615;50097;122955];
[38825;1;3;3;13;11;27;97;171;245;33;213;4069;753;3535;11727;34941;100543;220789];
[38853;1;3;3;9;3;17;13;237;477;507;1751;3191;3385;13977;23355;57355;64341;37683];
[38863;1;1;7;13;13;43;7;153;209;7;63;585;1715;13313;25355;46759;71893;29755];
[38882;1;3;3;3;11;23;11;147;135;1011;1105;3931;3861;13589;32183;30727;37685;67123];
[38884;1;3;7;1;11;13;25;229;147;843;329;3337;7559;13193;3011;31549;102461;46195];
[38932;1;1;5;11;5;47;127;89;53;663;261;541;7743;13037;9013;23079;81225;239875];
[38941;1;1;7;3;5;39;15;177;357;357;1959;1721;6703;11829;1195;42113;88699;244347];
[38952;1;1;5;15;25;19;7;3;225;773;1535;99;6555;4105;19137;56155;109141;161015];
[38960;1;1;5;15;5;59;41;53;203;459;1063;3015;5397;1559;20835;57773;67687;206189];
[38980;1;3;1;11;17;25;61;221;37;809;1461;1961;7697;1777;23179;54761;7787;177737];
[38995;1;3;7;15;27;21;49;107;353;677;461;239;5871;1059;3011;32397;13149;103973];
[39004;1;1;5;3;11;53;61;239;479;913;479;3435;4979;7931;16841;60077;26667;212601];
[39013;1;1;3;5;3;19;43;143;353;507;871;2547;7321;6163;9425;62911;86153;239011];
[39017;1;1;1;3;15;7;115;43;69;299;1235;1511;3111;7465;769;46981;127707;195839];
[39026;1;1;1;5;23;27;19;21;273;291;953;3577;3147;3863;18625;53505;33699;123305];
[39056;1;3;5;9;3;11;89;27;447;119;493;2605;8175;8837;27555;2319;99101;79121];
[39121;1;1;7;11;1;11;77;129;97;261;1241;3117;1627;5397;6495;52339;52711;206237];
[39124;1;3;7;9;27;57;77;147;35;845;1417;1615;6097;12559;10765;19027;91693;204339];
[39133;1;1;3;5;25;47;17;145;7;969;1981;733;4303;7785;4241;39733;82569;78061];
[39157;1;1;5;1;5;47;45;111;405;943;1911;1613;3817;10483;17729;7201;88033;261701];
[39181;1;3;3;13;9;3;87;39;277;769;57;2503;7803;11041;20945;19623;32617;110027];
[39187;1;1;3;3;27;57;1;103;427;935;1617;665;837;8001;13543;44771;64033;65239];
[39212;1;1;5;3;13;21;31;59;225;945;1825;1511;3273;3171;30347;21993;40203;143297];
[39223;1;3;5;7;11;3;3;217;167;885;975;3249;7909;13621;18697;61021;31497;198033];
[39250;1;3;5;9;11;5;87;33;117;471;267;529;5879;13969;5731;52613;106411;74341];
[39265;1;1;7;11;5;31;25;55;135;779;717;1953;7929;11011;6133;14099;106975;178337];
[39320;1;3;1;1;29;17;125;7;445;299;1897;3235;8189;14339;14725;63185;126751;88747];
[39330;1;1;5;3;1;11;65;161;243;605;1945;3141;6443;9703;13331;2239;6315;247595];
[39335;1;3;1;7;15;23;83;215;331;631;453;879;4109;4897;16535;55749;90799;147287];
[39353;1;3;5;13;25;1;109;205;49;471;1735;973;1279;9917;18225;44921;98519;211541];
[39371;1;1;5;11;29;41;113;187;75;479;1633;841;6259;8919;27751;25179;115369;166567];
[39385;1;3;5;11;17;31;107;41;435;647;811;2937;5819;3483;3835;57033;53543;61973];
[39421;1;3;3;11;15;45;33;103;505;67;463;1275;2449;15261;22867;25215;38793;189309];
[39432;1;1;1;5;19;45;35;173;365;39;1599;3623;2231;12141;19437;27053;15869;104719];
[39443;1;3;7;7;9;17;87;151;249;81;1109;1951;7475;1699;17847;64149;50285;242793];
[39450;1;3;5;13;15;51;35;105;479;763;1945;2349;2987;621;283;20411;65799;86517];
[39455;1;3;3;1;19;31;49;229;249;689;737;4027;5405;15211;26785;39143;93163;190421];
[39468;1;3;7;5;1;21;63;97;347;73;745;3455;2347;3821;31385;6545;91803;72895];
[39473;1;1;1;15;23;11;107;47;183;235;1985;3277;933;8491;14423;24293;6783;162199];
[39488;1;3;3;9;17;3;123;59;277;773;1617;2979;1555;9753;10947;24745;89043;45185];
[39497;1;3;7;3;25;17;79;43;311;415;1045;1289;7451;11413;11319;37177;101327;147453];
[39521;1;3;7;7;17;45;49;33;313;613;1773;773;161;13579;1207;5681;120597;178639];
[39531;1;3;5;5;17;43;65;243;287;223;253;687;887;14887;1077;53337;62381;43531];
[39542;1;3;5;1;21;3;39;149;497;939;1537;437;5345;10321;25151;48785;49879;90945];
[39585;1;1;7;11;1;61;113;63;285;615;343;2897;1939;7911;16387;10781;92769;27995];
[39605;1;1;3;3;19;29;85;227;355;857;883;1853;5065;13795;5749;59107;57947;35775];
[39658;1;3;5;9;23;37;119;161;23;511;81;973;4769;10821;32607;61731;64907;99055];
[39677;1;3;1;3;11;17;109;241;349;887;1651;3865;2045;15893;4597;11557;53313;48489];
[39703;1;1;5;9;31;43;49;193;171;477;363;735;1379;8977;9759;56477;99495;170433];
[39726;1;1;3;7;25;25;77;31;21;1001;1527;1725;6479;8927;11249;63969;86291;74391];
[39731;1;3;5;13;1;43;27;7;507;569;251;2199;3895;7845;13641;1655;112949;119493];
[39745;1;3;7;15;7;1;123;27;121;261;201;1469;4229;2933;25157;1919;127937;21607];
[39776;1;1;3;9;29;59;47;81;293;191;401;849;4355;1643;23533;8469;389;97891];
[39796;1;3;5;5;9;55;37;175;203;179;901;3473;1489;1009;24623;54895;8711;190271];
[39809;1;1;7;1;13;39;49;105;385;189;1079;2799;5901;2511;23199;58925;111727;131193];
[39833;1;1;1;7;31;63;37;181;493;745;1131;223;8055;9507;26667;22163;26495;200945];
[39850;1;3;7;1;25;15;127;71;445;935;1439;1167;3751;799;27253;46209;33413;38553];
[39869;1;3;3;11;29;35;125;77;129;851;731;3259;4651;4137;20921;19779;119261;141507];
[39882;1;3;1;9;11;13;31;211;87;377;547;113;1071;7167;28377;52943;50669;156915];
[39906;1;1;3;7;29;55;89;215;425;513;175;1145;6995;1929;14253;20563;118543;104403];
[39918;1;1;1;5;23;25;1;23;175;571;1597;3801;1411;1783;13045;37499;86831;139101];
[39929;1;3;3;13;15;19;35;139;483;17;1555;3431;3417;13695;15985;65243;96659;76027];
[39947;1;3;7;9;23;7;17;89;33;353;1999;2561;331;15661;25757;63389;112913;131757];
[39985;1;3;1;11;27;59;37;75;121;429;1833;3243;2029;2601;5013;29433;123565;234803];
[39986;1;3;1;7;31;13;33;25;459;803;267;1573;5579;4575;8125;7491;72681;239409];
[40023;1;1;3;7;31;43;93;191;237;75;1809;3257;4131;1983;29153;23205;38393;197859];
[40024;1;3;5;5;17;47;17;153;499;529;1515;1587;2951;12431;12787;13245;54117;82663];
[40039;1;1;1;13;7;23;23;7;441;991;641;2713;151;1863;6065;47381;60493;136325];
[40053;1;3;3;11;11;15;31;137;285;439;835;3033;6083;7883;3405;35803;65059;150143];
[40079;1;1;7;3;19;47;61;163;313;813;1315;2995;2805;14397;6589;62123;46229;206697];
[40084;1;3;5;5;27;51;25;99;241;571;1411;1191;7095;8639;29195;53733;53219;42851];
[40087;1;3;1;5;11;29;1;49;61;149;1931;29;7163;3717;525;42375;71451;8345];
[40094;1;3;3;3;13;19;97;249;265;509;1347;3081;6535;7941;31565;59897;91909;171789];
[40100;1;3;3;1;25;17;75;169;251;607;73;549;1397;10661;1743;9615;41327;243207];
[40112;1;3;1;11;7;7;15;181;385;883;651;2939;5457;15309;9807;22221;72893;146331];
[40129;1;3;3;5;7;7;53;75;139;459;1861;917;4101;10379;18555;12633;70023;254761];
[40132;1;3;3;1;17;51;5;109;471;3;1555;3731;6711;9791;63;61931;75269;138697];
[40142;1;1;7;15;11;1;53;141;423;567;1937;849;5657;7437;32657;16253;115219;106027];
[40154;1;3;5;1;17;29;65;213;443;541;697;3859;1463;16081;23299;7645;19475;77857];
[40177;1;1;7;3;21;43;99;101;329;755;1123;1277;1381;7017;21763;28243;109995;178377];
[40178;1;3;5;7;9;31;103;123;43;895;1925;3383;3539;13669;873;57361;45281;256517];
[40202;1;1;1;13;1;37;115;55;415;703;1217;939;1145;4015;7233;44799;79711;164725];
[40219;1;1;7;1;29;17;101;15;205;281;1059;301;753;11953;10533;31881;67741;12683];
[40303;1;1;7;13;9;23;31;237;181;813;1765;2237;4897;9955;2139;13113;123423;227629];
[40305;1;1;7;15;27;57;37;75;405;185;1671;2245;7151;10531;13161;15695;107547;47689];
[40311;1;1;5;15;17;53;75;251;277;1001;179;589;1401;4937;11601;47113;36677;39263];
[40336;1;3;5;15;23;47;53;81;115;547;1363;2457;4407;10861;25649;64013;44747;97949];
[40342;1;1;3;1;25;29;121;43;205;591;211;1899;5835;739;19627;60387;127369;11255];
[40358;1;1;3;15;31;11;93;227;501;731;1355;3963;347;83;12595;56431;80049;42103];
[40381;1;3;1;11;13;17;51;165;311;67;1873;1493;3815;13209;11637;5809;94219;118077];
[40417;1;1;7;15;19;17;13;73;365;413;1215;2265;2173;8725;4725;1373;76733;95379];
[40438;1;3;1;7;7;61;13;145;205;113;1579;3851;7515;10659;28665;5277;65925;10141];
[40463;1;3;7;1;9;63;11;83;197;797;1065;1521;1751;7423;7473;4371;29533;225167];
[40471;1;3;7;7;3;63;71;177;53;279;1837;2609;7819;7285;11059;65247;102869;24429];
[40472;1;3;3;13;9;21;123;125;367;85;85;1009;1009;7779;3375;30999;5035;215107];
[40488;1;3;3;9;31;53;5;43;483;483;1359;2605;377;4243;13291;50211;118603;259865];
[40491;1;1;1;5;19;37;109;139;373;79;1951;3379;5679;6445;29127;56229;97369;232561];
[40525;1;1;3;5;19;37;61;225;321;573;1831;971;6507;10005;6837;16433;70913;170873];
[40526;1;1;5;11;31;17;21;29;329;679;869;389;5121;1819;3539;43793;31617;204983];
[40550;1;1;7;7;21;11;83;97;297;275;1559;1899;4957;11463;25647;21095;70121;113395];
[40553;1;3;5;11;19;57;39;37;441;715;383;4083;1937;12263;6989;36159;118135;238475];
[40562;1;1;1;3;9;53;85;201;357;807;865;1621;1993;7623;3165;1005;93343;227765];
[40568;1;1;7;7;21;29;123;175;319;621;303;117;5589;12511;26053;41603;78439;71819];
[40580;1;1;7;15;31;47;75;225;295;67;1349;1749;1363;8763;9153;4059;72015;3155];
[40608;1;3;5;13;19;23;79;25;319;475;1517;2757;4009;12663;535;51617;55695;64399];
[40613;1;3;7;13;19;39;61;235;369;951;111;2169;353;15371;8611;42477;130981;97419];
[40652;1;1;3;13;27;31;115;201;3;291;793;237;3593;2307;12745;54603;96451;80853];
[40703;1;3;3;11;11;35;43;1;35;415;1307;2303;5407;6883;29023;31271;119721;90599];
[40712;1;1;5;9;21;23;3;1;333;463;1277;1165;6521;4887;16029;32537;43681;21633];
[40720;1;1;1;13;1;35;45;57;293;435;1113;2477;6641;14083;28489;26189;44695;220481];
[40723;1;3;5;5;5;31;75;149;309;921;941;1063;7041;12651;29533;46955;88133;89989];
[40746;1;1;3;5;15;23;127;143;193;739;281;991;3731;16243;25483;24979;102317;186657];
[40759;1;1;3;13;3;63;23;69;181;163;1733;893;5513;1525;31483;15033;108021;167875];
[40765;1;1;5;15;15;51;79;59;55;243;565;159;7925;8393;20059;35011;53779;166241];
[40771;1;1;3;5;11;57;85;175;495;999;1577;2377;715;2473;16979;5949;87691;195607];
[40778;1;1;1;13;17;21;53;73;187;63;335;3251;4439;5701;13469;23567;70125;68931];
[40788;1;1;1;13;23;11;55;75;37;845;745;2193;7113;5657;29449;41153;115547;87261];
[40804;1;3;3;9;21;39;47;145;301;883;625;2479;1089;3393;23265;49577;81027;186485];
[40835;1;1;3;7;3;11;37;117;79;905;493;265;1819;12179;12361;27457;14459;231837];
[40841;1;3;5;11;19;45;99;5;455;497;1851;2349;5213;3671;5871;43187;59011;211167];
[40907;1;3;7;5;23;61;63;97;413;575;1073;2587;573;1805;32307;58463;84927;15065];
[40934;1;3;1;13;23;9;39;1;53;383;1277;3599;7719;16175;4443;53143;24345;111899];
[40955;1;1;7;1;19;37;103;245;253;5;1367;3127;4689;5089;30697;45513;111291;26599];
[40986;1;3;3;7;31;31;107;163;1;855;163;875;7481;5325;30107;19377;3167;5613];
[41007;1;1;5;13;21;17;115;203;233;333;441;3185;3197;3397;8515;61879;11163;233277];
[41016;1;3;5;3;17;53;93;233;465;573;1075;1905;1141;4965;13469;24901;23653;225233];
[41034;1;3;7;11;11;1;95;47;85;65;9;2413;7347;2127;305;4673;79281;188081];
[41041;1;1;7;5;9;5;27;23;393;201;467;3677;2641;4671;24627;18927;45137;74167];
[41063;1;3;5;11;11;9;19;247;423;693;1885;1129;7459;8411;2573;54111;98919;160075];
[41084;1;3;3;3;1;3;67;131;317;915;151;3609;4083;6395;12877;44017;28877;244165];
[41093;1;3;1;3;1;33;29;23;19;323;873;115;2439;4699;5449;51637;68889;105197];
[41097;1;1;7;1;19;55;37;241;53;695;729;1565;19;12875;26993;18511;35615;169281];
[41111;1;3;3;1;1;7;121;49;345;883;1001;657;2647;15387;30633;18107;13745;217735];
[41118;1;3;5;15;11;45;73;77;307;373;1723;335;473;5735;11747;39257;87199;47663];
[41121;1;1;7;7;27;21;121;169;427;605;1593;3147;1001;3773;31505;22823;21543;82931];
[41141;1;1;1;9;11;59;91;165;249;859;483;3133;5729;12675;7761;6475;116823;224187];
[41160;1;1;3;3;27;31;51;1;429;517;1439;3959;2343;6709;5287;24039;52409;20749];
[41207;1;3;7;7;11;31;83;111;391;729;721;1675;5679;14637;22065;49903;113759;40881];
[41214;1;3;7;1;25;15;91;59;87;313;155;1439;2419;2099;22709;10289;40655;17351];
[41255;1;3;5;1;15;5;11;21;261;227;1563;1177;4731;3487;1607;46599;105599;193425];
[41284;1;1;5;5;5;45;77;181;431;27;1985;881;2555;7589;16199;31041;66683;52499];
[41287;1;1;1;15;5;29;111;209;335;747;93;3551;5951;14995;18451;33329;9117;167455];
[41308;1;3;1;7;25;9;113;123;387;87;267;2251;3509;10829;32733;48025;58267;143553];
[41330;1;3;5;15;17;17;65;107;175;427;733;797;3837;12773;27865;29481;4557;196163];
[41336;1;3;1;3;1;53;93;175;509;351;1093;1039;6931;2691;14957;44395;84383;58915];
[41437;1;1;1;11;1;43;61;123;377;813;1335;1597;147;13663;30781;47635;24111;64307];
[41444;1;1;3;11;25;27;15;215;125;679;1491;3203;5403;4531;11839;44227;49239;110439];
[41456;1;1;3;13;9;35;71;127;127;629;1363;585;6713;10637;6803;20963;47157;157781];
[41481;1;1;3;11;13;21;117;241;365;175;1397;1279;4117;5427;24007;50711;465;225003];
[41489;1;1;1;9;13;63;49;189;113;61;353;2221;7541;4075;5283;5505;51035;35191];
[41499;1;1;7;9;11;37;123;63;331;691;1299;1661;3769;7827;32127;32149;7271;150363];
[41555;1;1;1;5;25;5;127;195;413;657;479;879;6743;8959;791;22425;77119;180721];
[41561;1;1;7;3;13;57;123;125;135;69;455;3363;1783;1557;20401;26707;130345;195881];
[41562;1;3;3;7;27;19;125;71;201;1017;1285;3955;5255;14375;18163;28537;76157;247193];
[41571;1;1;3;1;27;33;123;137;189;655;1891;2419;5195;97;32565;38581;62715;164697];
[41592;1;1;1;15;9;47;23;147;197;503;1803;2953;2961;13787;10545;35465;53997;198655];
[41631;1;3;1;9;9;43;65;237;119;621;1517;3479;4165;12797;14731;53131;105501;112845];
[41661;1;3;3;15;3;23;47;163;469;363;1813;3107;6167;8987;26829;33099;6821;203017];
[41682;1;1;1;9;1;11;85;11;251;907;395;3935;3403;229;16825;48337;103647;91425];
[41710;1;3;1;5;17;57;21;181;31;27;235;4041;4927;8319;29765;61603;19081;75879];
[41724;1;1;5;15;11;3;7;225;247;221;251;1979;1151;10829;26491;39705;41587;99063];
[41727;1;3;5;5;19;23;57;127;467;409;43;829;3883;10767;24351;31365;115943;209231];
[41730;1;1;7;15;3;51;17;251;219;33;1511;2027;4995;12277;7639;59895;85267;87735];
[41744;1;3;7;3;7;29;93;57;427;235;1591;3475;1159;2387;851;43307;87081;151543];
[41769;1;3;7;7;1;9;21;167;73;439;2035;2091;4563;4819;5591;57123;78739;63235];
[41795;1;1;3;13;19;35;63;17;425;277;1669;931;597;5621;22367;1155;109099;169965];
[41798;1;3;7;5;11;11;41;71;35;183;555;2631;5199;16381;16319;1851;121551;141711];
[41804;1;3;5;5;21;17;3;95;47;1011;1757;3295;1111;16043;6377;16257;37941;206637];
[41826;1;3;1;5;25;19;19;69;395;589;1311;1075;5763;12475;3633;40647;54487;97459];
[41852;1;3;5;7;13;23;83;91;419;415;685;1685;2893;12953;30641;43565;11851;187837];
[41868;1;1;5;11;27;1;61;155;279;737;215;2909;969;57;17979;34537;41861;243717];
[41910;1;1;5;1;17;61;57;199;127;569;1109;3057;7301;16097;17579;25753;82653;237273];
[41914;1;1;7;15;17;45;19;53;153;785;51;291;5261;1317;21163;44393;108131;254373];
[41942;1;1;3;11;5;19;61;125;127;961;2019;1725;855;677;20853;38845;3239;95697];
[41969;1;1;3;15;3;3;117;17;61;201;241;1759;4465;3985;6985;47703;58657;52633];
[41975;1;3;3;11;31;39;107;171;19;825;1309;807;7787;10761;20215;9287;21553;179599];
[41976;1;3;7;9;5;7;121;15;3;199;97;3177;5461;15713;27609;54349;24963;186279];
[41994;1;3;1;15;11;9;123;187;363;5;837;451;1601;6597;10857;46893;83729;20409]].
